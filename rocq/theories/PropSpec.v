(** What properties and geometry factors should be. *)
From Coq Require Import Reals ZArith List.
From Verif Require Import Prelude Num GridModel GridSpec GeoModel GeoSpec PropModel.
Import ListNotations.
Local Open Scope R_scope.

(** Series (harmonic) coupling of two half-cells: the flow resistance of a cell
    of length [d], area [A], permeability [k] is d/(A k). *)
Definition series (T k A d k' A' d' : R) : R := 2 * T / (d / (A * k) + d' / (A' * k')).

(** The spacings of all axes are positive. *)
Definition positive_input (d : dinput R) : Prop :=
  match d with Scalar v => 0 < v | Vec l => Forall (fun v => 0 < v) l end.

(** A grid object with positive spacings and conversion factor whose
    permeability along every flow axis is given and positive in every cell. *)
Record rock (o : gobj R) (x y z : nat) (u : bool) (dx dy dz : dinput R) : Prop := {
  rk_geo : geo_new x y z u dx dy dz = Ok (geom o);
  rk_dx : positive_input dx; rk_dy : positive_input dy; rk_dz : positive_input dz;
  rk_T : 0 < tfac o;
  rk_k : forall a, flows (gr (geom o)) a ->
     exists l, get_cells_k o a true = Ok l /\ length l = get_n (gr (geom o)) true /\
               Forall (fun v => 0 < v) l;
  (* the other permeabilities, if given, have one value per cell *)
  rk_len : forall n l, cur (pget n (prs o)) = Some l -> length l = get_n (gr (geom o)) true }.

(** The argument of set_props for property [n'] when only [n] is being set. *)
Definition only {A} (n n' : pname) (v : A) : option A :=
  match n, n' with
  | KX, KX | KY, KY | KZ, KZ | PHI, PHI | ZED, ZED => Some v
  | _, _ => None
  end.
Definition set_one {F} {NF : Num F} (g : grid) (p : props F) (n : pname) (v : dinput F)
  (r : option cellref) : props F * res unit :=
  set_props g p (only n KX v) (only n KY v) (only n KZ v) (only n PHI v) (only n ZED v) None r.
(** Exactly one flow axis. *)
Definition one_d (g : grid) : Prop := exists a, flows g a /\ forall b, flows g b -> b = a.

(** At most one flow axis. *)
Definition at_most_1d (g : grid) : Prop := forall a b, flows g a -> flows g b -> a = b.
(** At least two flow axes. *)
Definition at_least_2d (g : grid) : Prop := exists a b, flows g a /\ flows g b /\ a <> b.

(** [c'] is the first row of the layer after [c], and [c] is in the last row of
    its own layer, both in the same column. *)
Definition wraps (g : grid) (c c' : coord) : Prop :=
  at_axis AX c' = at_axis AX c /\ at_axis AY c = Z.of_nat (ny g) /\ at_axis AY c' = 1%Z /\
  at_axis AZ c' = (at_axis AZ c + 1)%Z.

(** A sequence of set_props calls; a call that raises leaves the state as it
    was at that point, and the caller goes on. *)
Record pcall (F : Type) := mkPcall {
  pc_kx : option (dinput F); pc_ky : option (dinput F); pc_kz : option (dinput F);
  pc_phi : option (dinput F); pc_z : option (dinput F); pc_comp : option F; pc_cell : option cellref }.
Arguments mkPcall {F}.
Arguments pc_kx {F}. Arguments pc_ky {F}. Arguments pc_kz {F}. Arguments pc_phi {F}.
Arguments pc_z {F}. Arguments pc_comp {F}. Arguments pc_cell {F}.
Definition run_sets {F} {NF : Num F} (g : grid) (p : props F) (l : list (pcall F)) : props F :=
  fold_left (fun p c => fst (set_props g p (pc_kx c) (pc_ky c) (pc_kz c) (pc_phi c) (pc_z c) (pc_comp c) (pc_cell c))) l p.
