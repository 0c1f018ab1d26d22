(** What holds where a value is missing or zero: vocabulary. *)
From Coq Require Import String ZArith Bool Arith List Reals.
From Verif Require Import Prelude Num GridModel GridSpec GeoModel PropModel BlackOilModel FdmModel HistSpec BalanceSpec.
Import ListNotations.
Close Scope R_scope.
Open Scope nat_scope.

(** A list of NaN. *)
Definition all_nan {F} (l : list (fl F)) : Prop := forall v, In v l -> v = None.
(** A linear solver that answers a right side of NaN with NaN, if it answers. *)
Definition passes_nan (slv : solver_kind -> @mat R -> list (fl R) -> res (list (fl R))) : Prop :=
  forall k A d p, all_nan d -> slv k A d = Ok p -> all_nan p.
(** set_boundary names a boundary cell; solvers pass NaN on. *)
Definition careful (m : bo R) (c : call R) : Prop :=
  match c with
  | Set_boundary idb _ _ => exists b, boundary_cell (gr (geom (b_grid m))) b /\ idb = natural_id (gr (geom (b_grid m))) b
  | Solve slv _ _ _ _ | Run slv _ _ _ _ _ _ _ _ _ => passes_nan slv
  | _ => True
  end.
(** No pressure of a cell is known, in the solution or the model. *)
Definition unknown (x : ws R) : Prop :=
  forall id, In id (b_ids (fst x)) ->
  value (b_ip (fst x)) id = None /\ forall s row, snd x = Some s -> In row (s_p s) -> value row id = None.
(** A solve (or a run of at least one step) that assembles symbolically. *)
Definition symbolically (c : call R) : Prop :=
  match c with
  | Solve _ _ _ _ o => o_vect o = false \/ o_print o = true
  | Run _ _ n _ _ _ vect _ pr _ => 0 < n /\ (vect = false \/ pr = true)
  | _ => False
  end.
(** A solver for the examples: the right side. *)
Definition echo : solver_kind -> @mat R -> list (fl R) -> res (list (fl R)) := fun _ _ d => Ok d.
