(** Property theorems (each one a lemma proved in [OrderThm.v]), the assumptions they
    rest on, and for each a concrete case meeting its hypotheses. *)
From Coq Require Import String ZArith Bool Arith List Lia Permutation Reals Lra.
From Verif Require Import Prelude PreludeFacts Num GridModel GridSpec GeoModel GeoSpec PropModel PropSpec
  UnitsModel BlackOilModel FdmModel MonadFacts HistSpec FrameFacts WellThm KeptFacts InvFacts AsmFacts ModelSpec ModelFacts VectFacts AssemblyThm Samples SampleFacts SampleWell SampleBal SolverSpec SolveSpec StepSpec StepFacts WellStepFacts
  MemoThm BalanceSpec FdmSpec BalFacts CanonFacts StepBal SetupFacts BalanceThm ClosedSpec ClosedThm LocalSpec LocalThm SampleLocal TotalSpec TotalHist ChangeSpec ChangeFacts ChangeThm CompareSpec CompareFacts SampleCompare CompareThm SuperSpec SuperFacts SampleSuper SuperThm OrderSpec OrderFacts.
Import ListNotations.
Close Scope R_scope.
Open Scope nat_scope.
From Verif Require Import OrderThm.
Close Scope R_scope.
Open Scope nat_scope.

(** C116: two simulations of one reservoir that differ only in the order in which
    wells and boundary conditions were set have the same pressures in every step. *)
Theorem C116_order :
  forall (g : gobj R) f unit pi dt l1 ob l2 l1' ob' l2' st st' m m' ma ma' s s' x y z u dx dy dz k r r',
  simulated g f unit pi dt l1 ob l2 st m ma s -> simulated g f unit pi dt l1' ob' l2' st' m' ma' s' -> model m x y z u dx dy dz ->
  rearranged l1 ob l2 l1' ob' l2' -> conditioned (prepared m l1 ob l2) -> operated (prepared m l1 ob l2) -> Forall2 same_path st st' ->
  (b_cmp m = true /\ (exists v, pi = Some v) \/ b_cmp m = false /\ anchored (prepared m l1 ob l2)) ->
  nth_error (s_p s) (S k) = Some r -> nth_error (s_p s') (S k) = Some r' -> same_pressures m r r'.
Proof. exact L_C116_order. Qed.
Print Assumptions C116_order.

(** C116: two wells and two boundary conditions, each in either order. *)
Example C116_case : exists g f unit dt l1 ob l2 ob' l2' st st' m ma ma' s s' r r',
  simulated g f unit (Some 6%R) dt l1 ob l2 st m ma s /\ simulated g f unit (Some 6%R) dt l1 ob' l2' st' m ma' s' /\ (exists x y z u dx dy dz, model m x y z u dx dy dz) /\
  rearranged l1 ob l2 l1 ob' l2' /\ ob <> ob' /\ l2 <> l2' /\ length l2 = 2 /\ conditioned (prepared m l1 ob l2) /\ operated (prepared m l1 ob l2) /\ Forall2 same_path st st' /\ b_cmp m = true /\
  nth_error (s_p s) 1 = Some r /\ nth_error (s_p s') 1 = Some r' /\ value r 3 = Some (13 / 2)%R.
Proof. exact ex_C116_case. Qed.
