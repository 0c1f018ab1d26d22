(** Property theorems (each one a lemma proved in [BalanceThm.v]), the assumptions they
    rest on, and for each a concrete case meeting its hypotheses. *)
From Coq Require Import String ZArith Bool Arith List Lia Reals Lra.
From Verif Require Import Prelude PreludeFacts Num GridModel GridSpec GeoModel GeoSpec GeoProofs PropModel PropSpec
  UnitsModel BlackOilModel FdmModel MonadFacts HistSpec WellThm InvFacts SumFacts ModelSpec ModelFacts VectFacts AsmFacts AssemblyThm
  Samples SampleFacts SampleWell SampleBal SolverSpec SolveSpec StepSpec StepFacts WellStepFacts BalanceSpec CanonFacts BalFacts FormFacts StepBal SetupFacts.
Import ListNotations.
Close Scope R_scope.
Open Scope nat_scope.
From Verif Require Import BalanceThm.
Close Scope R_scope.
Open Scope nat_scope.

(** C43: over any history of an incompressible model all recorded rates of a
    step sum to zero. *)
Theorem C43_incompressible_balance :
  forall (g : gobj R) f unit pi dt m0 x y z u dx dy dz l1 ob l2 steps m s,
  bo_new g f unit pi dt = Ok m0 -> model m0 x y z u dx dy dz -> b_cmp m0 = false -> plain m0 l1 ob l2 ->
  all_ok (m0, None) (setup l1 ob l2 ++ Compile :: steps) ->
  along balanced_step (after (m0, None) (setup l1 ob l2 ++ [Compile])) steps ->
  after (m0, None) (setup l1 ob l2 ++ Compile :: steps) = (m, Some s) ->
  length (s_r s) = S (length steps) /\
  forall t row, 1 <= t -> nth_error (s_r s) t = Some row -> fsum row = Some 0%R.
Proof. exact L_C43_incompressible_balance. Qed.
Print Assumptions C43_incompressible_balance.

(** C44: over any history of a compressible model the recorded rates of a step
    sum to what the cells took up in that step. *)
Theorem C44_compressible_balance :
  forall (g : gobj R) f unit pi dt m0 x y z u dx dy dz l1 ob l2 steps m s,
  bo_new g f unit pi dt = Ok m0 -> model m0 x y z u dx dy dz -> b_cmp m0 = true -> plain m0 l1 ob l2 ->
  all_ok (m0, None) (setup l1 ob l2 ++ Compile :: steps) ->
  along balanced_step (after (m0, None) (setup l1 ob l2 ++ [Compile])) steps ->
  after (m0, None) (setup l1 ob l2 ++ Compile :: steps) = (m, Some s) ->
  length (s_r s) = S (length steps) /\
  forall t old new row, nth_error (s_p s) t = Some old -> nth_error (s_p s) (S t) = Some new -> nth_error (s_r s) (S t) = Some row ->
    exists G, gain m0 old new = Some G /\ fsum row = Some G.
Proof. exact L_C44_compressible_balance. Qed.
Print Assumptions C44_compressible_balance.

(** C43, C44: then the error check_MB reports is 0. *)
Theorem C44_reported_error :
  forall (g : gobj R) f unit pi dt m0 x y z u dx dy dz l1 ob l2 steps slv sc fuel sparse o m s,
  bo_new g f unit pi dt = Ok m0 -> model m0 x y z u dx dy dz -> plain m0 l1 ob l2 ->
  all_ok (m0, None) (setup l1 ob l2 ++ Compile :: steps ++ [Solve slv sc fuel sparse o]) ->
  along balanced_step (after (m0, None) (setup l1 ob l2 ++ [Compile])) (steps ++ [Solve slv sc fuel sparse o]) -> o_mb o = true ->
  after (m0, None) (setup l1 ob l2 ++ Compile :: steps ++ [Solve slv sc fuel sparse o]) = (m, Some s) ->
  b_cmp m0 = false \/ fsum (last (s_r s) []) <> Some 0%R -> s_err s = Some (Some 0%R).
Proof. exact L_C44_reported_error. Qed.
Print Assumptions C44_reported_error.

(** C45, what holds: after t balanced steps from rates that sum to zero the
    cumulative indicator is 1/t, not 1. *)
Theorem C45_cumulative_partial :
  forall (g : gobj R) f unit pi dt m0 x y z u dx dy dz l1 ob l2 steps slv sc fuel sparse o m s,
  bo_new g f unit pi dt = Ok m0 -> model m0 x y z u dx dy dz -> b_cmp m0 = true -> b_dt m0 <> 0%R -> plain m0 l1 ob l2 ->
  all_ok (m0, None) (setup l1 ob l2 ++ Compile :: steps ++ [Solve slv sc fuel sparse o]) ->
  along balanced_step (after (m0, None) (setup l1 ob l2 ++ [Compile])) (steps ++ [Solve slv sc fuel sparse o]) -> o_mb o = true ->
  after (m0, None) (setup l1 ob l2 ++ Compile :: steps ++ [Solve slv sc fuel sparse o]) = (m, Some s) ->
  fsum (nth 0 (s_r s) []) = Some 0%R -> fsum (concat (s_r s)) <> Some 0%R ->
  s_cum s = Some (Some (/ IZR (Z.of_nat (S (length steps))))%R).
Proof. exact L_C45_cumulative_partial. Qed.
Print Assumptions C45_cumulative_partial.

(** Three cells at pressure 10, injection into the middle one, pressure 6 on the
    left, a rate on the right; two steps. *)
Example C43_case : exists m0 l1 ob l2 steps m s, build 3 1 1 None 0%R (Some 10%R) None = Ok m0 /\ (exists g f unit p dt, bo_new g f unit p dt = Ok m0) /\
  (exists x y z u dx dy dz, model m0 x y z u dx dy dz) /\ b_cmp m0 = false /\ plain m0 l1 ob l2 /\
  all_ok (m0, None) (setup l1 ob l2 ++ Compile :: steps) /\
  along balanced_step (after (m0, None) (setup l1 ob l2 ++ [Compile])) steps /\
  after (m0, None) (setup l1 ob l2 ++ Compile :: steps) = (m, Some s) /\ length steps = 2 /\ nth_error (last (s_r s) []) 2 = Some (Some 1%R).
Proof. exact ex_C43_case. Qed.

Example C44_case : exists m0 l1 ob l2 steps slv sc fuel sparse o m s, build 3 1 1 None 1%R (Some 10%R) None = Ok m0 /\ (exists g f unit p dt, bo_new g f unit p dt = Ok m0) /\
  (exists x y z u dx dy dz, model m0 x y z u dx dy dz) /\ b_cmp m0 = true /\ b_dt m0 <> 0%R /\ plain m0 l1 ob l2 /\
  all_ok (m0, None) (setup l1 ob l2 ++ Compile :: steps ++ [Solve slv sc fuel sparse o]) /\
  along balanced_step (after (m0, None) (setup l1 ob l2 ++ [Compile])) (steps ++ [Solve slv sc fuel sparse o]) /\ o_mb o = true /\
  after (m0, None) (setup l1 ob l2 ++ Compile :: steps ++ [Solve slv sc fuel sparse o]) = (m, Some s) /\ length steps = 1 /\
  fsum (last (s_r s) []) <> Some 0%R /\ fsum (nth 0 (s_r s) []) = Some 0%R /\ fsum (concat (s_r s)) <> Some 0%R.
Proof. exact ex_C44_case. Qed.
