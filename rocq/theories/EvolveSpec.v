(** How pressures evolve from step to step: vocabulary. *)
From Coq Require Import List Reals.
From Verif Require Import Prelude Num BlackOilModel.
Import ListNotations.

(** Any two consecutive rows are related. *)
Definition consecutive (Q : list (fl R) -> list (fl R) -> Prop) (rows : list (list (fl R))) : Prop :=
  forall k r r', nth_error rows k = Some r -> nth_error rows (S k) = Some r' -> Q r r'.
