(** Property theorems (each one a lemma proved in [RaiseThm.v]), the assumptions they
    rest on, and for each a concrete case meeting its hypotheses. *)
From Coq Require Import String ZArith Bool Arith List Lia Reals Lra.
From Verif Require Import Prelude PreludeFacts Num GridModel GridSpec GeoModel GeoSpec PropModel PropSpec
  UnitsModel BlackOilModel FdmModel MonadFacts HistSpec InvFacts AsmFacts ModelSpec ModelFacts Samples SampleFacts SampleWell SampleBal SolverSpec SolveSpec StepSpec
  BalanceSpec FdmSpec BalFacts CanonFacts StepBal SetupFacts BalanceThm ClosedSpec LocalSpec TotalSpec TotalHist ChangeSpec ChangeFacts CompareSpec CompareFacts SampleCompare CompareThm SuperSpec SuperFacts
  TurnSpec TurnGeo TurnRock TurnFacts SampleTurn SampleRaise TurnThm.
Import ListNotations.
Close Scope R_scope.
Open Scope nat_scope.
From Verif Require Import RaiseThm.
Close Scope R_scope.
Open Scope nat_scope.

(** C123: two reservoirs of the same sizes and permeabilities, one [h] above the
    other, with fluids of the same viscosity, volume factor and gravity, where each cell
    has the same quotient of porosity times compressibility and time step: under the same
    controls all pressures and rates of all steps are the same. *)
Theorem C123_quotient :
  forall h (g g' : gobj R) f f' unit pi dt dt' l1 ob l2 st m0 m s l1' ob' l2' st' m0' m' s' x y z u dx dy dz x' y' z' u' dx' dy' dz' k row row',
  raised h g g' -> flow_alike f f' ->
  simulated g f unit pi dt l1 ob l2 st m0 m s -> simulated g' f' unit pi dt' l1' ob' l2' st' m0' m' s' ->
  model m0 x y z u dx dy dz -> model m0' x' y' z' u' dx' dy' dz' -> Forall2 same_path st st' ->
  let p := prepared m0 l1 ob l2 in same_controls p (prepared m0' l1' ob' l2') -> operated p -> conditioned p ->
  (b_cmp m0 = true /\ b_cmp m0' = true /\ same_storage m0 m0' /\ (exists v, pi = Some v) /\ (Forall (path false) st \/ ~ three_d (gr (geom g))) \/
   b_cmp m0 = false /\ b_cmp m0' = false /\ anchored p /\ (Forall (path false) st \/ ~ three_d (gr (geom g)))) ->
  nth_error (s_p s) (S k) = Some row -> nth_error (s_p s') (S k) = Some row' ->
  same_pressures (gr (geom g)) row row' /\ exists q q', nth_error (s_r s) (S k) = Some q /\ nth_error (s_r s') (S k) = Some q' /\ same_rates (gr (geom g)) q q'.
Proof. exact L_C123_quotient. Qed.
Print Assumptions C123_quotient.

(** C123: twice the compressibility and twice the time step. *)
Example C123_quotient_case : exists g f f' unit pi dt dt' l1 ob l2 st m0 m s l1' ob' l2' st' m0' m' s' row row',
  raised 0 g g /\ flow_alike f f' /\
  simulated g f unit pi dt l1 ob l2 st m0 m s /\ simulated g f' unit pi dt' l1' ob' l2' st' m0' m' s' /\
  (exists x y z u dx dy dz, model m0 x y z u dx dy dz /\ model m0' x y z u dx dy dz) /\ Forall2 same_path st st' /\
  (let p := prepared m0 l1 ob l2 in same_controls p (prepared m0' l1' ob' l2') /\ operated p /\ conditioned p) /\
  b_cmp m0 = true /\ b_cmp m0' = true /\ same_storage m0 m0' /\ pi = Some 10%R /\ ~ three_d (gr (geom g)) /\
  nth_error (s_p s) 1 = Some row /\ nth_error (s_p s') 1 = Some row' /\ f <> f' /\ dt <> dt' /\
  row = [Some 6; Some (70 / 9); Some (82 / 9); Some (86 / 9); None]%R.
Proof. exact ex_C123_quotient_case. Qed.

(** C123: the grid at height 2 and at height 7. *)
Example C123_heights_case : exists g g', at_height 2 = Ok g /\ at_height 7 = Ok g' /\ raised 5 g g' /\ g <> g'.
Proof. exact ex_C123_heights_case. Qed.
