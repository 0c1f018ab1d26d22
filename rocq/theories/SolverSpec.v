(** Linear solvers that solve their systems exactly. *)
From Coq Require Import List Reals.
From Verif Require Import Prelude Num GridModel GeoModel PropModel BlackOilModel FdmModel ModelSpec.
Import ListNotations.

(** Whatever such a solver returns is a solution; it may fail. *)
Definition exact (slv : solver_kind -> @mat R -> list (fl R) -> res (list (fl R))) : Prop :=
  forall k A d p, slv k A d = Ok p -> exists y, p = map Some y /\ solves A d y.
