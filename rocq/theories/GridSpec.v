(** What the index functions of a grid should mean, in terms of coordinates
    only (no slicing, no strides). *)
From Coq Require Import ZArith List.
From Verif Require Import Prelude GridModel.
Import ListNotations.
Local Open Scope Z_scope.

(** A grid that the constructor accepts. *)
Definition wf (g : grid) : Prop := (1 <= nx g /\ 1 <= ny g /\ 1 <= nz g)%nat.

(** Number of cells along an axis. *)
Definition size (g : grid) (a : axis) : nat :=
  match a with AX => nx g | AY => ny g | AZ => nz g | ADash => 0%nat end.
(** There is flow along an axis with more than one cell. *)
Definition flows (g : grid) (a : axis) : Prop := (1 < size g a)%nat.
(** Some axis has flow. *)
Definition has_flow (g : grid) : Prop := flows g AX \/ flows g AY \/ flows g AZ.

(** Number of cells along an axis including the two boundary cells. *)
Definition padded (n : nat) : Z := if (1 <? n)%nat then Z.of_nat n + 2 else Z.of_nat n.

(** The coordinate along an axis. *)
Definition at_axis (a : axis) (c : coord) : Z :=
  match c with (i, j, k) => match a with AX => i | AY => j | AZ => k | ADash => 0 end end.

(** Cells of the grid with its boundary layer. *)
Definition in_grid (g : grid) (c : coord) : Prop :=
  forall a, a <> ADash -> 0 <= at_axis a c < padded (size g a).
(** Interior cells: 1..n along flow axes, 0 along the others. *)
Definition interior (g : grid) (c : coord) : Prop :=
  forall a, a <> ADash ->
    (flows g a /\ 1 <= at_axis a c <= Z.of_nat (size g a)) \/ (~ flows g a /\ at_axis a c = 0).
Definition boundary_cell (g : grid) (c : coord) : Prop := in_grid g c /\ ~ interior g c.

(** Natural ordering: x fastest, then y, then z. *)
Definition natural_id (g : grid) (c : coord) : Z :=
  match c with (i, j, k) => i + padded (nx g) * (j + padded (ny g) * k) end.

(** [c'] is the next cell after [c] along axis [a]. *)
Definition step (a : axis) (c c' : coord) : Prop :=
  a <> ADash /\ at_axis a c' = at_axis a c + 1 /\
  forall b, b <> a -> at_axis b c' = at_axis b c.
(** Cells sharing a face orthogonal to axis [a]. *)
Definition face_adjacent (a : axis) (c c' : coord) : Prop := step a c c' \/ step a c' c.

(** Boundary cell lying on the outer faces orthogonal to exactly one axis. *)
Definition outer (g : grid) (a : axis) (c : coord) : Prop :=
  flows g a /\ (at_axis a c = 0 \/ at_axis a c = Z.of_nat (size g a) + 1).
Definition on_one_face (g : grid) (c : coord) : Prop :=
  exists a, outer g a c /\ forall b, outer g b c -> b = a.

(** Position kept by remove_boundaries along an axis, per mode. *)
Definition kept (left right : bool) (g : grid) (c : coord) : Prop :=
  in_grid g c /\
  forall a, flows g a ->
    (left = true -> at_axis a c <> 0) /\ (right = true -> at_axis a c <> Z.of_nat (size g a) + 1).

(** Number of entries of a per-direction dictionary. *)
Definition total {A} (d : dirs A) : nat := length (d_x d ++ d_y d ++ d_z d).
