(** Property theorems (each one a lemma proved in [SettleThm.v]), the assumptions they
    rest on, and for each a concrete case meeting its hypotheses. *)
From Coq Require Import String ZArith Bool Arith List Lia Reals Lra.
From Verif Require Import Prelude PreludeFacts Num GridModel GridSpec GeoModel GeoSpec PropModel PropSpec
  PropProofs UnitsModel BlackOilModel FdmModel MonadFacts HistSpec InvFacts AsmFacts ModelSpec ModelFacts VectFacts AssemblyThm Samples SampleFacts SampleWell SampleBal SolverSpec SolveSpec StepSpec StepFacts WellStepFacts
  BalanceSpec FdmSpec BalFacts CanonFacts StepBal SetupFacts BalanceThm ClosedSpec ClosedThm LocalSpec LocalThm SampleLocal TotalSpec TotalHist ChangeSpec ChangeFacts ChangeThm CompareSpec CompareFacts SampleCompare CompareThm SuperSpec SuperFacts SampleSuper RecipSpec RecipFacts EvolveSpec EvolveFacts SettleSpec SettleFacts.
Import ListNotations.
Close Scope R_scope.
Open Scope nat_scope.
From Verif Require Import SettleThm.
Close Scope R_scope.
Open Scope nat_scope.

(** C118: a compressible reservoir where a pressure is held forgets how it began. There
    is a factor below 1, which depends on the reservoir, the controls and the path only,
    such that two simulations under these controls, from two initial pressures, differ
    after [k] steps by at most the [k]-th power of the factor times what they differed
    by at first. *)
Theorem C118_forgets :
  forall (g : gobj R) f unit pi dt l1 ob l2 st m0 m s x y z u dx dy dz v,
  simulated g f unit pi dt l1 ob l2 st m0 m s -> model m0 x y z u dx dy dz -> b_cmp m0 = true ->
  let p0 := prepared m0 l1 ob l2 in anchored p0 -> conditioned p0 -> operated p0 ->
  exists rho, (0 <= rho < 1)%R /\
    forall pi1 pi2 l1' ob' l2' l1'' ob'' l2'' st1 st2 m1 m2 ma mb s1 s2 k r1 r2,
    simulated g f unit (Some pi1) dt l1' ob' l2' st1 m1 ma s1 -> simulated g f unit (Some pi2) dt l1'' ob'' l2'' st2 m2 mb s2 ->
    Forall (path v) st1 -> Forall2 same_path st1 st2 -> same_controls p0 (prepared m1 l1' ob' l2') -> same_controls (prepared m1 l1' ob' l2') (prepared m2 l1'' ob'' l2'') ->
    nth_error (s_p s1) k = Some r1 -> nth_error (s_p s2) k = Some r2 -> near m0 (rho ^ k * Rabs (pi1 - pi2)) r1 r2.
Proof. exact L_C118_forgets. Qed.
Print Assumptions C118_forgets.

(** C118: so after enough steps the initial pressure is not seen any more, whatever the
    accuracy asked for: the number of steps does not depend on the simulations. *)
Theorem C118_eventually :
  forall (g : gobj R) f unit pi dt l1 ob l2 st m0 m s x y z u dx dy dz v,
  simulated g f unit pi dt l1 ob l2 st m0 m s -> model m0 x y z u dx dy dz -> b_cmp m0 = true ->
  let p0 := prepared m0 l1 ob l2 in anchored p0 -> conditioned p0 -> operated p0 ->
  forall far eps, (0 < eps)%R -> exists enough,
    forall pi1 pi2 l1' ob' l2' l1'' ob'' l2'' st1 st2 m1 m2 ma mb s1 s2 k r1 r2, (Rabs (pi1 - pi2) <= far)%R -> enough <= k ->
    simulated g f unit (Some pi1) dt l1' ob' l2' st1 m1 ma s1 -> simulated g f unit (Some pi2) dt l1'' ob'' l2'' st2 m2 mb s2 ->
    Forall (path v) st1 -> Forall2 same_path st1 st2 -> same_controls p0 (prepared m1 l1' ob' l2') -> same_controls (prepared m1 l1' ob' l2') (prepared m2 l1'' ob'' l2'') ->
    nth_error (s_p s1) k = Some r1 -> nth_error (s_p s2) k = Some r2 -> near m0 eps r1 r2.
Proof. exact L_C118_eventually. Qed.
Print Assumptions C118_eventually.

(** C118: and its pressures settle. If the first step of a simulation under these controls
    changes no pressure by more than [d], then from step [k] on the pressures stay within
    the [k]-th power of the factor times [d / (1 - rho)]. *)
Theorem C118_settles :
  forall (g : gobj R) f unit pi dt l1 ob l2 st m0 m s x y z u dx dy dz v,
  simulated g f unit pi dt l1 ob l2 st m0 m s -> model m0 x y z u dx dy dz -> b_cmp m0 = true ->
  let p0 := prepared m0 l1 ob l2 in anchored p0 -> conditioned p0 -> operated p0 ->
  exists rho, (0 <= rho < 1)%R /\
    forall pi1 l1' ob' l2' st1 m1 ma s1 d r0 r1,
    simulated g f unit pi1 dt l1' ob' l2' st1 m1 ma s1 -> Forall (path v) st1 -> same_controls p0 (prepared m1 l1' ob' l2') ->
    nth_error (s_p s1) 0 = Some r0 -> nth_error (s_p s1) 1 = Some r1 -> (0 <= d)%R -> near m0 d r0 r1 ->
    forall k n r r', k <= n -> nth_error (s_p s1) k = Some r -> nth_error (s_p s1) n = Some r' -> near m0 (rho ^ k * d / (1 - rho)) r r'.
Proof. exact L_C118_settles. Qed.
Print Assumptions C118_settles.

(** C118: and they settle at the pressures of the same reservoir with a fluid that is not
    compressible: of these the simulation is after [k] steps no further away than the
    [k]-th power of the factor times the distance at first. Neither the time step nor the
    initial pressure nor the units of the incompressible simulation matter. *)
Theorem C118_towards :
  forall (g : gobj R) f unit pi dt l1 ob l2 st m0 m s x y z u dx dy dz v,
  simulated g f unit pi dt l1 ob l2 st m0 m s -> model m0 x y z u dx dy dz -> b_cmp m0 = true ->
  let p0 := prepared m0 l1 ob l2 in anchored p0 -> conditioned p0 -> operated p0 ->
  exists rho, (0 <= rho < 1)%R /\
    forall f' unit' dt' pi1 pi2 l1' ob' l2' l1'' ob'' l2'' st1 st2 m1 m2 ma mb s1 s2 d r0 j rs,
    but_comp f f' -> simulated g f unit pi1 dt l1' ob' l2' st1 m1 ma s1 -> simulated g f' unit' pi2 dt' l1'' ob'' l2'' st2 m2 mb s2 ->
    model m2 x y z u dx dy dz -> b_cmp m2 = false -> Forall (path v) st1 -> Forall (path v) st2 ->
    same_controls p0 (prepared m1 l1' ob' l2') -> same_controls (prepared m1 l1' ob' l2') (prepared m2 l1'' ob'' l2'') ->
    nth_error (s_p s2) (S j) = Some rs -> nth_error (s_p s1) 0 = Some r0 -> (0 <= d)%R -> near m0 d rs r0 ->
    forall k r, nth_error (s_p s1) k = Some r -> near m0 (rho ^ k * d) rs r.
Proof. exact L_C118_towards. Qed.
Print Assumptions C118_towards.

(** C118: initial pressures 6 and 10, the left side held at 6; after one step the
    pressures differ by at most 8/9 of the 4 they differed by at first. *)
Example C118_case : exists g f unit dt l1 ob l2 st1 st2 m1 m2 ma mb s1 s2 r0 r1 r2,
  simulated g f unit (Some 6%R) dt l1 ob l2 st1 m1 ma s1 /\ simulated g f unit (Some 10%R) dt l1 ob l2 st2 m2 mb s2 /\
  (exists x y z u dx dy dz, model m1 x y z u dx dy dz) /\ b_cmp m1 = true /\ ~ three_d (gr (geom (b_grid m1))) /\ Forall (path true) st1 /\ Forall (path true) st2 /\ Forall2 same_path st1 st2 /\
  (let p1 := prepared m1 l1 ob l2 in let p2 := prepared m2 l1 ob l2 in same_controls p1 p2 /\ same_controls p1 p1 /\ anchored p1 /\ conditioned p1 /\ operated p1) /\
  nth_error (s_p s1) 1 = Some r1 /\ nth_error (s_p s2) 0 = Some r0 /\ nth_error (s_p s2) 1 = Some r2 /\ near m1 (20 / 9) r0 r2 /\ near m1 (8 / 9 * Rabs (6 - 10)) r1 r2.
Proof. exact ex_C118_case. Qed.

(** C118: initial pressure 10, the left side held at 6: the pressures go to 6, those of an
    incompressible fluid. *)
Example C118_towards_case : exists g f f' unit dt l1 ob l2 st1 st2 m1 m2 ma mb s1 s2 r0 r1 rs,
  simulated g f unit (Some 10%R) dt l1 ob l2 st1 m1 ma s1 /\ simulated g f' unit (Some 3%R) dt l1 ob l2 st2 m2 mb s2 /\ but_comp f f' /\
  (exists x y z u dx dy dz, model m1 x y z u dx dy dz /\ model m2 x y z u dx dy dz) /\ b_cmp m1 = true /\ b_cmp m2 = false /\ Forall (path true) st1 /\ Forall (path true) st2 /\
  (let p1 := prepared m1 l1 ob l2 in let p2 := prepared m2 l1 ob l2 in same_controls p1 p1 /\ same_controls p1 p2 /\ anchored p1 /\ conditioned p1 /\ operated p1) /\
  nth_error (s_p s2) 1 = Some rs /\ nth_error (s_p s1) 0 = Some r0 /\ nth_error (s_p s1) 1 = Some r1 /\ near m1 4 rs r0 /\ near m1 (8 / 9 * 4) rs r1 /\ rs = [Some 6; Some 6; Some 6; Some 6; None]%R.
Proof. exact ex_C118_towards_case. Qed.
