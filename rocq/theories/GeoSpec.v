(** What spacings, centres and corner points should be, per axis. *)
From Coq Require Import Reals ZArith List.
From Verif Require Import Prelude Num GridModel GridSpec GeoModel.
Import ListNotations.
Local Open Scope Z_scope.

(** The spacing argument of an axis with [n] cells is usable: a number, or one
    number per cell including the boundary cells. *)
Definition spacing_ok {F} (n : nat) (d : dinput F) : Prop :=
  match d with Scalar _ => True | Vec l => Z.of_nat (length l) = padded n end.
(** The spacing argument at position [i] of its axis. *)
Definition spacing {F} (d : dinput F) (i : Z) : option F :=
  match d with Scalar v => Some v | Vec l => nth_error l (Z.to_nat i) end.

(** Real-valued spacing at position [i] (0 outside the vector). *)
Definition rspacing (d : dinput R) (i : nat) : R :=
  match d with Scalar v => v | Vec l => nth i l 0%R end.
(** Sum of [f i] over [lo <= i < lo + n]. *)
Fixpoint rsum (f : nat -> R) (lo n : nat) : R :=
  match n with O => 0%R | S m => (f lo + rsum f (S lo) m)%R end.
(** Position of the left face of cell [i]: the spacings before it. *)
Definition left_face (d : dinput R) (i : nat) : R := rsum (rspacing d) 0 i.

(** First position and number of the interior cells of an axis. *)
Definition first_inner (n : nat) : nat := if (1 <? n)%nat then 1%nat else 0%nat.

(** Flow along all three axes. *)
Definition three_d (g : grid) : Prop := flows g AX /\ flows g AY /\ flows g AZ.
(** No flow coordinate is zero. *)
Definition positive_coords (g : grid) (c : coord) : Prop :=
  forall a, flows g a -> 0 < at_axis a c.
(** Spacing argument of an axis. *)
Definition arg {A} (dx dy dz : A) (a : axis) : A :=
  match a with AX => dx | AY => dy | _ => dz end.
(** Component of a point along an axis. *)
Definition coord_of {A} (a : axis) (p : A * A * A) : A :=
  match p with (x, y, z) => match a with AX => x | AY => y | _ => z end end.
(** Coordinate as a position in a vector. *)
Definition pos (a : axis) (c : coord) : nat := Z.to_nat (at_axis a c).
(** Number of cells along an axis, with or without the boundary cells. *)
Definition count (n : nat) (boundary : bool) : nat :=
  if boundary then Z.to_nat (padded n) else n.
(** Position of the first of these cells. *)
Definition first_cell (n : nat) (boundary : bool) : nat :=
  if boundary then 0%nat else first_inner n.
