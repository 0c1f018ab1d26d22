(** Property theorems (each one a lemma proved in [TurnThm.v]), the assumptions they
    rest on, and for each a concrete case meeting its hypotheses. *)
From Coq Require Import String ZArith Bool Arith List Lia Reals Lra.
From Verif Require Import Prelude PreludeFacts Num GridModel GridSpec GeoModel GeoSpec PropModel PropSpec
  UnitsModel BlackOilModel FdmModel MonadFacts HistSpec InvFacts AsmFacts ModelSpec ModelFacts FrameSpec FrameFacts Samples SampleFacts SampleWell SampleBal SolverSpec SolveSpec StepSpec
  BalanceSpec FdmSpec BalFacts CanonFacts StepBal SetupFacts BalanceThm ClosedSpec LocalSpec TotalSpec TotalHist ChangeSpec ChangeFacts CompareSpec CompareFacts SampleCompare CompareThm SuperSpec SuperFacts
  TurnSpec TurnGeo TurnRock TurnFacts SampleTurn.
Import ListNotations.
Close Scope R_scope.
Open Scope nat_scope.
From Verif Require Import TurnThm.
Close Scope R_scope.
Open Scope nat_scope.

(** C122: a reservoir and the same reservoir turned round, by the same steps: in every
    step each cell has the pressure and the rate of the cell in its place. *)
Theorem C122_turned :
  forall r (g g' : gobj R) f unit pi dt l1 ob l2 st m0 m s l1' ob' l2' st' m0' m' s' x y z u dx dy dz x' y' z' u' dx' dy' dz' k row row',
  turned r g g' ->
  simulated g f unit pi dt l1 ob l2 st m0 m s -> simulated g' f unit pi dt l1' ob' l2' st' m0' m' s' ->
  model m0 x y z u dx dy dz -> model m0' x' y' z' u' dx' dy' dz' -> Forall2 same_path st st' ->
  let p := prepared m0 l1 ob l2 in let p' := prepared m0' l1' ob' l2' in
  wells_turned r p p' -> conditions_turned r p p' -> conditioned p ->
  (b_cmp m0 = true /\ (exists v, pi = Some v) /\ (Forall (path false) st \/ ~ three_d (gr (geom g))) \/
   b_cmp m0 = false /\ anchored p /\ (Forall (path false) st \/ ~ three_d (gr (geom g)))) ->
  nth_error (s_p s) (S k) = Some row -> nth_error (s_p s') (S k) = Some row' ->
  row_turned (gr (geom g)) r row row' /\ exists q q', nth_error (s_r s) (S k) = Some q /\ nth_error (s_r s') (S k) = Some q' /\ rates_turned (gr (geom g)) r q q'.
Proof. exact L_C122_turned. Qed.
Print Assumptions C122_turned.

(** C122, one simulation: if the reservoir and its controls are the same turned round,
    the pressures and the rates of every step are. *)
Theorem C122_symmetric :
  forall r (g : gobj R) f unit pi dt l1 ob l2 st m0 m s x y z u dx dy dz k row,
  turned r g g -> simulated g f unit pi dt l1 ob l2 st m0 m s -> model m0 x y z u dx dy dz -> Forall2 same_path st st ->
  let p := prepared m0 l1 ob l2 in
  wells_turned r p p -> conditions_turned r p p -> conditioned p ->
  (b_cmp m0 = true /\ (exists v, pi = Some v) /\ (Forall (path false) st \/ ~ three_d (gr (geom g))) \/
   b_cmp m0 = false /\ anchored p /\ (Forall (path false) st \/ ~ three_d (gr (geom g)))) ->
  nth_error (s_p s) (S k) = Some row -> row_turned (gr (geom g)) r row row /\ exists q, nth_error (s_r s) (S k) = Some q /\ rates_turned (gr (geom g)) r q q.
Proof. exact L_C122_symmetric. Qed.
Print Assumptions C122_symmetric.

(** C122: a line with a pressure on the left and no flow on the right, and the line
    with the sides exchanged; the well is in the middle. *)
Example C122_turned_case : exists g f unit pi dt l1 ob l2 st m0 m s l1' ob' l2' st' m0' m' s' row row',
  turned along_x g g /\
  simulated g f unit pi dt l1 ob l2 st m0 m s /\ simulated g f unit pi dt l1' ob' l2' st' m0' m' s' /\
  (exists x y z u dx dy dz, model m0 x y z u dx dy dz /\ model m0' x y z u dx dy dz) /\ Forall2 same_path st st' /\
  (let p := prepared m0 l1 ob l2 in let p' := prepared m0' l1' ob' l2' in wells_turned along_x p p' /\ conditions_turned along_x p p' /\ conditioned p) /\
  b_cmp m0 = true /\ pi = Some 6%R /\ ~ three_d (gr (geom g)) /\
  nth_error (s_p s) 1 = Some row /\ nth_error (s_p s') 1 = Some row' /\
  row = [Some 6; Some (107 / 18); Some (52 / 9); Some (53 / 9); None]%R /\ row' = [None; Some (53 / 9); Some (52 / 9); Some (107 / 18); Some 6]%R.
Proof. exact ex_C122_turned_case. Qed.

(** C122: the line with one pressure on both sides. *)
Example C122_symmetric_case : exists g f unit pi dt l1 ob l2 st m0 m s row,
  turned along_x g g /\ simulated g f unit pi dt l1 ob l2 st m0 m s /\
  (exists x y z u dx dy dz, model m0 x y z u dx dy dz) /\ Forall2 same_path st st /\
  (let p := prepared m0 l1 ob l2 in wells_turned along_x p p /\ conditions_turned along_x p p /\ conditioned p) /\
  b_cmp m0 = true /\ pi = Some 6%R /\ ~ three_d (gr (geom g)) /\
  nth_error (s_p s) 1 = Some row /\ row = [Some 6; Some (119 / 20); Some (29 / 5); Some (119 / 20); Some 6]%R.
Proof. exact ex_C122_symmetric_case. Qed.

(** C122: a strip of five permeabilities and porosities, and the strip turned round. *)
Example C122_grids_case : exists g g', strip [1; 2; 3; 4; 5]%R [1 / 2; 1 / 3; 1 / 4; 1 / 5; 1 / 6]%R = Ok g /\
  strip [5; 4; 3; 2; 1]%R [1 / 6; 1 / 5; 1 / 4; 1 / 3; 1 / 2]%R = Ok g' /\ turned along_x g g' /\ g <> g'.
Proof. exact ex_C122_grids_case. Qed.
