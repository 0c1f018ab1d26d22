(** Property theorems (each one a lemma proved in [EaseThm.v]), the assumptions they
    rest on, and for each a concrete case meeting its hypotheses. *)
From Coq Require Import String ZArith Bool Arith List Lia Reals Lra.
From Verif Require Import Prelude PreludeFacts Num GridModel GridSpec GeoModel GeoSpec PropModel PropSpec
  UnitsModel BlackOilModel FdmModel MonadFacts HistSpec InvFacts AsmFacts ModelSpec ModelFacts Samples SampleFacts SampleWell SampleBal SolverSpec SolveSpec StepSpec
  BalanceSpec FdmSpec BalFacts CanonFacts StepBal SetupFacts BalanceThm ClosedSpec LocalSpec TotalSpec TotalHist ChangeSpec ChangeFacts CompareSpec CompareFacts SampleCompare CompareThm SuperSpec SuperFacts
  TurnSpec TurnGeo TurnRock TurnFacts SampleTurn SampleRaise SampleEase TurnThm RaiseThm.
Import ListNotations.
Close Scope R_scope.
Open Scope nat_scope.
From Verif Require Import EaseThm.
Close Scope R_scope.
Open Scope nat_scope.

(** C126: two reservoirs of the same sizes, one [h] above the other, where all
    permeabilities, the product of viscosity and volume factor and all productivities of
    wells are [e] times as large in the second, and each cell has the same quotient of
    porosity times compressibility and volume factor times time step: under the same rates,
    bottom-hole pressures and boundary conditions all pressures and rates of all steps are the same. *)
Theorem C126_mobility :
  forall e h (g g' : gobj R) f f' unit pi dt dt' l1 ob l2 st m0 m s l1' ob' l2' st' m0' m' s' x y z u dx dy dz x' y' z' u' dx' dy' dz' k row row',
  eased e h g g' -> thicker e f f' ->
  simulated g f unit pi dt l1 ob l2 st m0 m s -> simulated g' f' unit pi dt' l1' ob' l2' st' m0' m' s' ->
  model m0 x y z u dx dy dz -> model m0' x' y' z' u' dx' dy' dz' -> Forall2 same_path st st' ->
  let p := prepared m0 l1 ob l2 in let p' := prepared m0' l1' ob' l2' in
  wells_scaled e (false, false, false) p p' -> b_bdict p' = b_bdict p -> conditioned p ->
  (b_cmp m0 = true /\ b_cmp m0' = true /\ same_storage_out m0 m0' /\ (exists v, pi = Some v) /\ (Forall (path false) st \/ ~ three_d (gr (geom g))) \/
   b_cmp m0 = false /\ b_cmp m0' = false /\ anchored p /\ (Forall (path false) st \/ ~ three_d (gr (geom g)))) ->
  nth_error (s_p s) (S k) = Some row -> nth_error (s_p s') (S k) = Some row' ->
  same_pressures (gr (geom g)) row row' /\ exists q q', nth_error (s_r s) (S k) = Some q /\ nth_error (s_r s') (S k) = Some q' /\ same_rates (gr (geom g)) q q'.
Proof. exact L_C126_mobility. Qed.
Print Assumptions C126_mobility.

(** C126: twice the permeability and twice the viscosity. *)
Example C126_mobility_case : exists g g' f f' unit pi dt l1 ob l2 st m0 m s l1' ob' l2' st' m0' m' s' row row',
  eased 2 0 g g' /\ thicker 2 f f' /\
  simulated g f unit pi dt l1 ob l2 st m0 m s /\ simulated g' f' unit pi dt l1' ob' l2' st' m0' m' s' /\
  (exists x y z u dx dy dz, model m0 x y z u dx dy dz /\ model m0' x y z u dx dy dz) /\ Forall2 same_path st st' /\
  (let p := prepared m0 l1 ob l2 in let p' := prepared m0' l1' ob' l2' in
   wells_scaled 2 (false, false, false) p p' /\ b_bdict p' = b_bdict p /\ conditioned p) /\
  b_cmp m0 = true /\ b_cmp m0' = true /\ same_storage_out m0 m0' /\ pi = Some 10%R /\ ~ three_d (gr (geom g)) /\
  nth_error (s_p s) 1 = Some row /\ nth_error (s_p s') 1 = Some row' /\ g <> g' /\ f <> f' /\
  row = [Some 6; Some (70 / 9); Some (82 / 9); Some (86 / 9); None]%R.
Proof. exact ex_C126_mobility_case. Qed.
