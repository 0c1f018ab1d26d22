(** Property theorems (each one a lemma proved in [LocalThm.v]), the assumptions they
    rest on, and for each a concrete case meeting its hypotheses. *)
From Coq Require Import String ZArith Bool Arith List Lia Reals Lra.
From Verif Require Import Prelude PreludeFacts Num GridModel GridSpec GeoModel GeoSpec GeoProofs GeoThm PropProofs PropModel PropSpec MatrixProofs GridProofs TransProofs
  UnitsModel BlackOilModel FdmModel MonadFacts HistSpec InvFacts SumFacts ModelSpec ModelFacts VectFacts AsmFacts AssemblyThm
  Samples SampleFacts SampleWell SampleBal SamplePath SolverSpec SolveSpec StepSpec StepFacts WellStepFacts BalanceSpec FdmSpec CanonFacts LinFacts NbrFacts SymbFacts BalFacts FormFacts StepBal SetupFacts BalanceThm ClosedThm LocalSpec SampleLocal.
Import ListNotations.
Close Scope R_scope.
Open Scope nat_scope.
From Verif Require Import LocalThm.
Close Scope R_scope.
Open Scope nat_scope.

(** C92: in every step of a history, and for every interior cell, inflow from the
    neighbours, well and boundaries make up what the cell takes up. *)
Theorem C92_cell_equation :
  forall (g : gobj R) f unit pi dt m0 x y z u dx dy dz l1 ob l2 st1 slv sc fuel sparse o st2 m s,
  bo_new g f unit pi dt = Ok m0 -> model m0 x y z u dx dy dz -> plain m0 l1 ob l2 ->
  all_ok (m0, None) (setup l1 ob l2 ++ Compile :: st1 ++ Solve slv sc fuel sparse o :: st2) ->
  along balanced_step (after (m0, None) (setup l1 ob l2 ++ [Compile])) (st1 ++ Solve slv sc fuel sparse o :: st2) ->
  after (m0, None) (setup l1 ob l2 ++ Compile :: st1 ++ Solve slv sc fuel sparse o :: st2) = (m, Some s) ->
  (o_vect o = true -> level m0 /\ ~ three_d (gr (geom (b_grid m0)))) ->
  exists old new rates, nth_error (s_p s) (length st1) = Some old /\ nth_error (s_p s) (S (length st1)) = Some new /\ nth_error (s_r s) (S (length st1)) = Some rates /\
  forall id, In id (b_ids m0) -> cell_balance m0 old new rates id.
Proof. exact L_C92_cell_equation. Qed.
Print Assumptions C92_cell_equation.

(** C93: the rates recorded in a step: the wells by their mode, the boundaries by
    their condition, 0 elsewhere. *)
Theorem C93_recorded_rates :
  forall (g : gobj R) f unit pi dt m0 x y z u dx dy dz l1 ob l2 steps c m s,
  bo_new g f unit pi dt = Ok m0 -> model m0 x y z u dx dy dz -> plain m0 l1 ob l2 ->
  all_ok (m0, None) (setup l1 ob l2 ++ Compile :: steps ++ [c]) ->
  along balanced_step (after (m0, None) (setup l1 ob l2 ++ [Compile])) (steps ++ [c]) ->
  after (m0, None) (setup l1 ob l2 ++ Compile :: steps ++ [c]) = (m, Some s) ->
  exists new rates, nth_error (s_p s) (S (length steps)) = Some new /\ nth_error (s_r s) (S (length steps)) = Some rates /\
  (forall id w, dget id (b_wells m) = Some w -> well_obeys m w (value new id) (value rates id)) /\
  (forall idb v, In (idb, ("pressure"%string, v)) (b_bdict m) -> pressure_rate m new idb v (value rates idb)) /\
  (forall idb cond v, In (idb, (cond, v)) (b_bdict m) -> smem (lower cond) RATE = true -> value rates idb = Some v) /\
  (forall idb cond v, In (idb, (cond, v)) (b_bdict m) -> smem (lower cond) GRAD = true -> exists r, gradient_rate m idb v r /\ value rates idb = Some r) /\
  (forall id, (0 <= id < Z.of_nat (get_n (bgrid m) true))%Z -> dget id (b_wells m) = None -> dget id (b_bdict m) = None -> value rates id = Some 0%R).
Proof. exact L_C93_recorded_rates. Qed.
Print Assumptions C93_recorded_rates.

(** C37, what holds: on the vectorised path a gradient boundary contributes the
    rate transmissibility * spacing * gradient to its cell, in every step. *)
Theorem C37_gradient_partial :
  forall (g : gobj R) f unit pi dt m0 x y z u dx dy dz l1 ob l2 steps slv sc fuel sparse o m s idb cond v,
  bo_new g f unit pi dt = Ok m0 -> model m0 x y z u dx dy dz -> plain m0 l1 ob l2 -> level m0 -> ~ three_d (gr (geom (b_grid m0))) ->
  all_ok (m0, None) (setup l1 ob l2 ++ Compile :: steps ++ [Solve slv sc fuel sparse o]) ->
  along balanced_step (after (m0, None) (setup l1 ob l2 ++ [Compile])) (steps ++ [Solve slv sc fuel sparse o]) -> o_vect o = true ->
  after (m0, None) (setup l1 ob l2 ++ Compile :: steps ++ [Solve slv sc fuel sparse o]) = (m, Some s) ->
  In (idb, (cond, v)) (b_bdict m) -> smem (lower cond) GRAD = true ->
  exists old new rates r, nth_error (s_p s) (length steps) = Some old /\ nth_error (s_p s) (S (length steps)) = Some new /\ nth_error (s_r s) (S (length steps)) = Some rates /\
  gradient_rate m idb v r /\ value rates idb = Some r /\ forall id, In id (b_ids m0) -> cell_balance m0 old new rates id.
Proof. exact L_C37_gradient_partial. Qed.
Print Assumptions C37_gradient_partial.

(** Three cells at pressure 10, injection into the middle one, pressure 6 on the
    left, gradient 2 on the right; two steps. *)
Example C92_gradient : exists m0 l1 ob l2 steps slv sc fuel sparse o m s, build 3 1 1 None 0%R (Some 10%R) None = Ok m0 /\ (exists g f unit p dt, bo_new g f unit p dt = Ok m0) /\
  (exists x y z u dx dy dz, model m0 x y z u dx dy dz) /\ plain m0 l1 ob l2 /\ level m0 /\ ~ three_d (gr (geom (b_grid m0))) /\
  all_ok (m0, None) (setup l1 ob l2 ++ Compile :: steps ++ [Solve slv sc fuel sparse o]) /\
  along balanced_step (after (m0, None) (setup l1 ob l2 ++ [Compile])) (steps ++ [Solve slv sc fuel sparse o]) /\ o_vect o = true /\
  after (m0, None) (setup l1 ob l2 ++ Compile :: steps ++ [Solve slv sc fuel sparse o]) = (m, Some s) /\ length steps = 1 /\
  In (0%Z, ("pressure"%string, 6%R)) (b_bdict m) /\ In (4%Z, ("gradient"%string, 2%R)) (b_bdict m) /\ smem (lower "gradient") GRAD = true /\ dget 2 (b_wells m) <> None.
Proof. exact ex_C92_gradient. Qed.
