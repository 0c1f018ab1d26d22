(** Specification vocabulary for the analytical solution. *)
From Coq Require Import String ZArith Bool Arith List Reals.
From Verif Require Import Prelude Num GridModel GridSpec GeoModel GeoSpec PropModel PropSpec UnitsModel BlackOilModel FrameModel.
Import ListNotations.
Local Open Scope R_scope.

(** Flow along one axis only. *)
Definition one_way (g : grid) (a : axis) : Prop := flows g a /\ forall b, flows g b -> b = a.
(** A model to which the analytical solution applies: positive spacings, flow along
    axis a, permeability kx and porosity phi given for each cell, finite
    diffusivity. *)
Record analytic (m : bo R) (x y z : nat) (u : bool) (dx dy dz : dinput R) (a : axis) (kx phi : list R) : Prop := {
  an_geo : geo_new x y z u dx dy dz = Ok (geom (b_grid m));
  an_d : positive_input (arg dx dy dz a);
  an_one : one_way (ggrid (b_grid m)) a;
  an_k : att (pget KX (prs (b_grid m))) = Some kx; an_kn : length kx = get_n (ggrid (b_grid m)) true;
  an_phi : att (pget PHI (prs (b_grid m))) = Some phi; an_phin : length phi = get_n (ggrid (b_grid m)) true;
  an_pos : Forall (fun v => v <> 0) phi;
  an_mu : b_mu m <> 0; an_B : b_B m <> 0; an_v : b_vconv m <> 0; an_c : b_comp m <> 0; an_dt : 0 < b_dt m }.
(** Centre of the i-th cell along an axis with spacings d. *)
Definition centre (d : dinput R) (i : nat) : R := left_face d i + rspacing d i / 2.
(** Diffusivity of cell j with permeability k. *)
Definition diffusivity (m : bo R) (k phi : R) : R :=
  b_tconv m * k / (b_mu m * b_B m) / (phi * b_comp m / (b_vconv m * b_B m)).
(** u solves the heat equation. *)
Definition heat (u : R -> R -> R) : Prop :=
  exists ux uxx : R -> R -> R, forall x t,
  derivable_pt_lim (fun x => u x t) x (ux x t) /\ derivable_pt_lim (fun x => ux x t) x (uxx x t) /\
  derivable_pt_lim (fun t => u x t) t (uxx x t).
(** v limited to [0, 1]. *)
Definition limited (v : R) : R := Rmin 1 (Rmax 0 v).
(** Smallest and largest of the numbers l. *)
Definition least (l : list R) (v : R) : Prop := In v l /\ forall w, In w l -> v <= w.
Definition greatest (l : list R) (v : R) : Prop := In v l /\ forall w, In w l -> w <= v.

Section sample.
Context {F : Type} {NF : Num F}.
(** As [build] of Samples.v with compressibility 1 and initial pressure 1, with
    permeabilities kx and ky. *)
Definition build_k (x y z : nat) (kx ky : option (dinput F)) : res (bo F) :=
  let one := Some (Scalar n1) in
  let* g := gobj_new x y z true (Scalar n1) (Scalar n1) (Scalar n1) kx ky one one None None n1 in
  let* f := fluid_new (Some n1) (Some n1) None (Some n1) "metric"%string in
  bo_new g f "metric"%string (Some n1) n1.
End sample.
