(** Reservoirs without wells and without open boundaries: vocabulary. *)
From Coq Require Import String ZArith Bool Arith List Reals.
From Verif Require Import Prelude Num GridModel GeoModel PropModel BlackOilModel FdmModel HistSpec SolverSpec BalanceSpec FdmSpec.
Import ListNotations.
Close Scope R_scope.
Open Scope nat_scope.

(** Nothing was set on the model and no equation was built from it. *)
Definition fresh {F} (m : bo F) : Prop := closed m /\ b_terms m = [].
(** Solves and runs with an exact solver that update and do not print, on the
    vectorised path or on the symbolic path without threads (sympy never scales an
    equation by 0). *)
Definition direct (c : call R) : Prop :=
  match c with
  | Solve slv sc _ _ o => exact slv /\ o_upd o = true /\ o_print o = false /\ (o_vect o = true \/ (o_thr o = false /\ forall id, sc id <> 0%R))
  | Run slv sc _ _ _ thr vect _ pr _ => exact slv /\ pr = false /\ (vect = true \/ (thr = false /\ forall id, sc id <> 0%R))
  | _ => False
  end.
(** vectorize=v *)
Definition path {F} (v : bool) (c : call F) : Prop :=
  match c with
  | Solve _ _ _ _ o => o_vect o = v
  | Run _ _ _ _ _ _ vect _ _ _ => vect = v
  | _ => False
  end.
(** All pressures of interior cells are known and lie between two bounds. *)
Definition within (m : bo R) (lo hi : R) (row : list (fl R)) : Prop :=
  forall id, In id (b_ids m) -> exists v, value row id = Some v /\ (lo <= v <= hi)%R.
(** The same for pressure minus weight of the column, g*z. *)
Definition within_potential (m : bo R) (lo hi : R) (row : list (fl R)) : Prop :=
  exists zs, gz m = Ok zs /\ forall id, In id (b_ids m) -> exists v h, value row id = Some v /\ pyget zs id = Ok h /\ (lo <= v - b_g m * h <= hi)%R.
(** All interior cells have that pressure. *)
Definition uniform (m : bo R) (c : R) (row : list (fl R)) : Prop := forall id, In id (b_ids m) -> value row id = Some c.
(** What is known of the rates at the start of a step: the rates of the wells and
    the recorded rates of the boundary conditions, summed. *)
Definition given_rates (m : bo R) (s : fs R) : fl R :=
  fadd (fsum (map (fun e : Z * well R => match w_q (snd e) with Some q => q | None => None end) (b_wells m)))
       (fsum (map (fun e : Z * (string * R) => value (last (s_r s) []) (fst e)) (b_bdict m))).
