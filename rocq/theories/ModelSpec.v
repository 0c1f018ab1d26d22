(** Models of positive rock and fluid, and what solving a linear system means. *)
From Coq Require Import String Reals ZArith Bool List.
From Verif Require Import Prelude Num GridModel GridSpec GeoModel GeoSpec PropModel PropSpec BlackOilModel FdmModel.
Import ListNotations.
Local Open Scope R_scope.

(** A model over a grid with flow, with positive rock and fluid data, as the
    constructor makes it (see C82): one entry per cell everywhere,
    accumulation coefficients that are positive if the model is compressible and
    zero if not. *)
Record model (m : bo R) (x y z : nat) (u : bool) (dx dy dz : dinput R) : Prop := {
  md_rock : rock (b_grid m) x y z u dx dy dz;
  md_flow : has_flow (gr (geom (b_grid m)));
  md_ids : get_cells_id (gr (geom (b_grid m))) false = Ok (b_ids m);
  md_mu : 0 < b_mu m; md_B : 0 < b_B m;
  md_RHS : length (b_RHS m) = get_n (gr (geom (b_grid m))) true;
  md_acc : Forall (fun c => if b_cmp m then 0 < c else c = 0) (b_RHS m);
  md_z : exists zs, gz m = Ok zs /\ length zs = get_n (gr (geom (b_grid m))) true }.

(** Accumulation coefficient of the p-th interior cell. *)
Definition acc (m : bo R) (p : nat) : R :=
  match nth_error (b_ids m) p with
  | Some id => match pyget (b_RHS m) id with Ok c => c | Err _ => 0 end
  | None => 0
  end.
(** Transmissibility between the p-th and the q-th interior cell, as
    get_cells_trans reports it. *)
Definition coupling (m : bo R) (p q : nat) : R :=
  match get_cells_trans m false with Ok M => ment M p q | Err _ => 0 end.
(** Matrix times vector, and solutions of a system. *)
Definition times (A : @mat R) (y : list R) (p : nat) : R :=
  rsum (fun q => ment A p q * nth q y 0) 0 (msize A).
Definition solves (A : @mat R) (d : list (fl R)) (y : list R) : Prop :=
  length y = msize A /\ length d = msize A /\
  forall p, (p < msize A)%nat -> nth p d None = Some (times A y p).
(** The homogeneous system has only the zero solution. *)
Definition regular (A : @mat R) : Prop :=
  forall y, length y = msize A -> (forall p, (p < msize A)%nat -> times A y p = 0) ->
  forall p, (p < msize A)%nat -> nth p y 0 = 0.

(** No well has a negative productivity. *)
Definition productive (m : bo R) : Prop :=
  forall id w G, dget id (b_wells m) = Some w -> w_G w = Some G -> 0 <= G.
