(** Property theorems (each one a lemma proved in [CompareThm.v]), the assumptions they
    rest on, and for each a concrete case meeting its hypotheses. *)
From Coq Require Import String ZArith Bool Arith List Lia Reals Lra.
From Verif Require Import Prelude PreludeFacts Num GridModel GridSpec GeoModel GeoSpec PropModel PropSpec
  UnitsModel BlackOilModel FdmModel MonadFacts HistSpec InvFacts AsmFacts ModelSpec ModelFacts VectFacts AssemblyThm Samples SampleFacts SampleWell SampleBal SolverSpec SolveSpec StepSpec StepFacts WellStepFacts
  BalanceSpec FdmSpec BalFacts CanonFacts StepBal SetupFacts BalanceThm ClosedSpec ClosedThm LocalSpec LocalThm SampleLocal TotalSpec TotalHist ChangeSpec ChangeFacts ChangeThm CompareSpec CompareFacts SampleCompare.
Import ListNotations.
Close Scope R_scope.
Open Scope nat_scope.
From Verif Require Import CompareThm.
Close Scope R_scope.
Open Scope nat_scope.

(** C104: two simulations of one compressible reservoir, path by path alike. If the
    controls of the first draw more and its initial pressure is at least [c] smaller
    than that of the second, so is every pressure in every step. *)
Theorem C104_comparison :
  forall (g : gobj R) f unit pi1 pi2 dt l1 ob l2 l1' ob' l2' st1 st2 m1 m2 ma mb s1 s2 x y z u dx dy dz c k r1 r2,
  simulated g f unit (Some pi1) dt l1 ob l2 st1 m1 ma s1 -> simulated g f unit (Some pi2) dt l1' ob' l2' st2 m2 mb s2 ->
  model m1 x y z u dx dy dz -> b_cmp m1 = true -> Forall2 same_path st1 st2 ->
  controls_below c (prepared m1 l1 ob l2) (prepared m2 l1' ob' l2') -> (pi1 + c <= pi2)%R ->
  nth_error (s_p s1) k = Some r1 -> nth_error (s_p s2) k = Some r2 -> below m1 c r1 r2.
Proof. exact L_C104_comparison. Qed.
Print Assumptions C104_comparison.

(** C104, incompressible: with a pressure held somewhere the controls alone decide,
    whatever the initial pressures. *)
Theorem C104_comparison_steady :
  forall (g : gobj R) f unit pi1 pi2 dt l1 ob l2 l1' ob' l2' st1 st2 m1 m2 ma mb s1 s2 x y z u dx dy dz c k r1 r2,
  simulated g f unit pi1 dt l1 ob l2 st1 m1 ma s1 -> simulated g f unit pi2 dt l1' ob' l2' st2 m2 mb s2 ->
  model m1 x y z u dx dy dz -> b_cmp m1 = false -> Forall2 same_path st1 st2 ->
  anchored (prepared m1 l1 ob l2) ->
  controls_below c (prepared m1 l1 ob l2) (prepared m2 l1' ob' l2') ->
  nth_error (s_p s1) (S k) = Some r1 -> nth_error (s_p s2) (S k) = Some r2 -> below m1 c r1 r2.
Proof. exact L_C104_comparison_steady. Qed.
Print Assumptions C104_comparison_steady.

(** C105: the same controls on a compressible reservoir: the pressures of two
    simulations never differ by more than their initial pressures. *)
Theorem C105_initial_pressure :
  forall (g : gobj R) f unit pi1 pi2 dt l1 ob l2 l1' ob' l2' st1 st2 m1 m2 ma mb s1 s2 x y z u dx dy dz k r1 r2,
  simulated g f unit (Some pi1) dt l1 ob l2 st1 m1 ma s1 -> simulated g f unit (Some pi2) dt l1' ob' l2' st2 m2 mb s2 ->
  model m1 x y z u dx dy dz -> b_cmp m1 = true -> Forall2 same_path st1 st2 ->
  let p1 := prepared m1 l1 ob l2 in same_controls p1 (prepared m2 l1' ob' l2') -> conditioned p1 -> operated p1 ->
  nth_error (s_p s1) k = Some r1 -> nth_error (s_p s2) k = Some r2 -> near m1 (Rabs (pi1 - pi2)) r1 r2.
Proof. exact L_C105_initial_pressure. Qed.
Print Assumptions C105_initial_pressure.

(** C105: if moreover no control is a pressure, the difference of the initial
    pressures stays exactly, in every cell and step. *)
Theorem C105_shift :
  forall (g : gobj R) f unit pi1 pi2 dt l1 ob l2 l1' ob' l2' st1 st2 m1 m2 ma mb s1 s2 x y z u dx dy dz k r1 r2,
  simulated g f unit (Some pi1) dt l1 ob l2 st1 m1 ma s1 -> simulated g f unit (Some pi2) dt l1' ob' l2' st2 m2 mb s2 ->
  model m1 x y z u dx dy dz -> b_cmp m1 = true -> Forall2 same_path st1 st2 ->
  let p1 := prepared m1 l1 ob l2 in same_controls p1 (prepared m2 l1' ob' l2') -> conditioned p1 -> rates_only p1 ->
  nth_error (s_p s1) k = Some r1 -> nth_error (s_p s2) k = Some r2 -> shifted m1 (pi2 - pi1) r1 r2.
Proof. exact L_C105_shift. Qed.
Print Assumptions C105_shift.

(** C105, incompressible with a pressure held somewhere: the same controls give the
    same pressures in every step, whatever the initial pressure, and whatever the
    steps before. *)
Theorem C105_steady :
  forall (g : gobj R) f unit pi1 pi2 dt l1 ob l2 l1' ob' l2' st1 st2 m1 m2 ma mb s1 s2 x y z u dx dy dz k r1 r2,
  simulated g f unit pi1 dt l1 ob l2 st1 m1 ma s1 -> simulated g f unit pi2 dt l1' ob' l2' st2 m2 mb s2 ->
  model m1 x y z u dx dy dz -> b_cmp m1 = false -> Forall2 same_path st1 st2 ->
  let p1 := prepared m1 l1 ob l2 in same_controls p1 (prepared m2 l1' ob' l2') -> anchored p1 -> conditioned p1 -> operated p1 ->
  nth_error (s_p s1) (S k) = Some r1 -> nth_error (s_p s2) (S k) = Some r2 -> same_pressures m1 r1 r2.
Proof. exact L_C105_steady. Qed.
Print Assumptions C105_steady.

(** C104, step by step: after any two histories of one reservoir, controls changed
    on the way, a step from pressures below pressures, under controls below
    controls, leads to pressures below pressures. *)
Theorem C104_comparison_step :
  forall (g : gobj R) f unit pi1 pi2 dt m0 m0' x y z u dx dy dz l1 ob l2 l1' ob' l2' hist hist' slv sc fuel sparse o slv' sc' fuel' sparse' o' ma sa mb sb ma' sa' mb' sb' c,
  bo_new g f unit pi1 dt = Ok m0 -> bo_new g f unit pi2 dt = Ok m0' -> model m0 x y z u dx dy dz -> plain m0 l1 ob l2 -> plain m0' l1' ob' l2' ->
  all_ok (m0, None) (setup l1 ob l2 ++ Compile :: hist ++ [Solve slv sc fuel sparse o]) ->
  all_ok (m0', None) (setup l1' ob' l2' ++ Compile :: hist' ++ [Solve slv' sc' fuel' sparse' o']) ->
  along live (after (m0, None) (setup l1 ob l2 ++ [Compile])) (hist ++ [Solve slv sc fuel sparse o]) ->
  along live (after (m0', None) (setup l1' ob' l2' ++ [Compile])) (hist' ++ [Solve slv' sc' fuel' sparse' o']) ->
  after (m0, None) (setup l1 ob l2 ++ Compile :: hist) = (ma, Some sa) ->
  after (m0, None) (setup l1 ob l2 ++ Compile :: hist ++ [Solve slv sc fuel sparse o]) = (mb, Some sb) ->
  after (m0', None) (setup l1' ob' l2' ++ Compile :: hist') = (ma', Some sa') ->
  after (m0', None) (setup l1' ob' l2' ++ Compile :: hist' ++ [Solve slv' sc' fuel' sparse' o']) = (mb', Some sb') ->
  controls_below c ma ma' -> (if b_cmp m0 then below m0 c (last (s_p sa) []) (last (s_p sa') []) else anchored ma) ->
  below m0 c (last (s_p sb) []) (last (s_p sb') []).
Proof. exact L_C104_comparison_step. Qed.
Print Assumptions C104_comparison_step.

(** C106: one more producing well, or a well set to produce more, leaves no cell with
    a higher pressure in any step. *)
Theorem C106_more_production :
  forall (g : gobj R) f unit pi dt l1 ob l2 id q pwf r sk st1 st2 m1 m2 ma mb s1 s2 x y z u dx dy dz k r1 r2,
  simulated g f unit (Some pi) dt l1 ob (l2 ++ [Set_well (Some id) (Some q) pwf r sk]) st1 m1 ma s1 -> simulated g f unit (Some pi) dt l1 ob l2 st2 m2 mb s2 ->
  model m1 x y z u dx dy dz -> b_cmp m1 = true -> Forall2 same_path st1 st2 ->
  let p := prepared m1 l1 ob l2 in conditioned p -> operated p ->
  (match dget id (b_wells p) with Some w => exists q', at_rate w q' /\ (q <= q')%R | None => (q <= 0)%R end) ->
  nth_error (s_p s1) k = Some r1 -> nth_error (s_p s2) k = Some r2 -> below m1 0 r1 r2.
Proof. exact L_C106_more_production. Qed.
Print Assumptions C106_more_production.

(** C106: one more injecting well, or a well set to inject more, leaves no cell with a
    lower pressure in any step. *)
Theorem C106_more_injection :
  forall (g : gobj R) f unit pi dt l1 ob l2 id q pwf r sk st1 st2 m1 m2 ma mb s1 s2 x y z u dx dy dz k r1 r2,
  simulated g f unit (Some pi) dt l1 ob (l2 ++ [Set_well (Some id) (Some q) pwf r sk]) st1 m1 ma s1 -> simulated g f unit (Some pi) dt l1 ob l2 st2 m2 mb s2 ->
  model m1 x y z u dx dy dz -> b_cmp m1 = true -> Forall2 same_path st1 st2 ->
  let p := prepared m1 l1 ob l2 in conditioned p -> operated p ->
  (match dget id (b_wells p) with Some w => exists q', at_rate w q' /\ (q' <= q)%R | None => (0 <= q)%R end) ->
  nth_error (s_p s1) k = Some r1 -> nth_error (s_p s2) k = Some r2 -> below m1 0 r2 r1.
Proof. exact L_C106_more_injection. Qed.
Print Assumptions C106_more_injection.

(** C107: in a flat compressible reservoir no pressure ever exceeds the initial one and
    those the controls push with. *)
Theorem C107_upper_bound :
  forall (g : gobj R) f unit pi dt l1 ob l2 st m0 m s x y z u dx dy dz M k row,
  simulated g f unit (Some pi) dt l1 ob l2 st m0 m s -> model m0 x y z u dx dy dz -> flat m0 -> b_cmp m0 = true ->
  pushed_at_most M (prepared m0 l1 ob l2) -> (pi <= M)%R -> nth_error (s_p s) k = Some row -> at_most m0 M row.
Proof. exact L_C107_upper_bound. Qed.
Print Assumptions C107_upper_bound.

(** C107: none ever falls below the initial one and those the controls draw with. *)
Theorem C107_lower_bound :
  forall (g : gobj R) f unit pi dt l1 ob l2 st m0 m s x y z u dx dy dz M k row,
  simulated g f unit (Some pi) dt l1 ob l2 st m0 m s -> model m0 x y z u dx dy dz -> flat m0 -> b_cmp m0 = true ->
  drawn_at_least M (prepared m0 l1 ob l2) -> (M <= pi)%R -> nth_error (s_p s) k = Some row -> at_least m0 M row.
Proof. exact L_C107_lower_bound. Qed.
Print Assumptions C107_lower_bound.

(** C107, incompressible with a pressure held somewhere: the controls alone bound the
    pressures of every step. *)
Theorem C107_steady_bounds :
  forall (g : gobj R) f unit pi dt l1 ob l2 st m0 m s x y z u dx dy dz M k row,
  simulated g f unit pi dt l1 ob l2 st m0 m s -> model m0 x y z u dx dy dz -> flat m0 -> b_cmp m0 = false ->
  anchored (prepared m0 l1 ob l2) -> nth_error (s_p s) (S k) = Some row ->
  (pushed_at_most M (prepared m0 l1 ob l2) -> at_most m0 M row) /\ (drawn_at_least M (prepared m0 l1 ob l2) -> at_least m0 M row).
Proof. exact L_C107_steady_bounds. Qed.
Print Assumptions C107_steady_bounds.

(** C104, C106: two wells of rates -1/2 and 1, initial pressures 6 and 10. *)
Example C104_case : exists g f unit dt l1 ob l2 l1' l2' st1 st2 m1 m2 ma mb s1 s2 r1 r2,
  simulated g f unit (Some 6%R) dt l1 ob l2 st1 m1 ma s1 /\ simulated g f unit (Some 10%R) dt l1' ob l2' st2 m2 mb s2 /\
  (exists x y z u dx dy dz, model m1 x y z u dx dy dz) /\ b_cmp m1 = true /\ Forall2 same_path st1 st2 /\
  controls_below 0 (prepared m1 l1 ob l2) (prepared m2 l1' ob l2') /\ (6 + 0 <= 10)%R /\
  nth_error (s_p s1) 1 = Some r1 /\ nth_error (s_p s2) 1 = Some r2 /\ r1 = [Some 6; Some (107 / 18); Some (52 / 9); Some (53 / 9); None]%R /\ r2 = [Some 6; Some (71 / 9); Some (86 / 9); Some (88 / 9); None]%R.
Proof. exact ex_C104_case. Qed.

Example C104_step_case : exists g f unit dt m0 m0' l2 l2' slv slv' ma sa mb sb ma' sa' mb' sb',
  let sv := Solve slv SampleWell.one 9 true omb in let sv' := Solve slv' SampleWell.one 9 true omb in let ob := Some (sides 0) in
  bo_new g f unit (Some 6%R) dt = Ok m0 /\ bo_new g f unit (Some 10%R) dt = Ok m0' /\ (exists x y z u dx dy dz, model m0 x y z u dx dy dz) /\ plain m0 [] ob l2 /\ plain m0' [] ob l2' /\
  all_ok (m0, None) (setup [] ob l2 ++ Compile :: [] ++ [sv]) /\ all_ok (m0', None) (setup [] ob l2' ++ Compile :: [] ++ [sv']) /\
  along live (after (m0, None) (setup [] ob l2 ++ [Compile])) ([] ++ [sv]) /\ along live (after (m0', None) (setup [] ob l2' ++ [Compile])) ([] ++ [sv']) /\
  after (m0, None) (setup [] ob l2 ++ Compile :: []) = (ma, Some sa) /\ after (m0, None) (setup [] ob l2 ++ Compile :: [] ++ [sv]) = (mb, Some sb) /\
  after (m0', None) (setup [] ob l2' ++ Compile :: []) = (ma', Some sa') /\ after (m0', None) (setup [] ob l2' ++ Compile :: [] ++ [sv']) = (mb', Some sb') /\
  controls_below 0 ma ma' /\ b_cmp m0 = true /\ below m0 0 (last (s_p sa) []) (last (s_p sa') []) /\ s_p sb <> s_p sb'.
Proof. exact ex_C104_step_case. Qed.

(** C104, C105 incompressible: pressure 6 on the left, rate 2 on the right, initial
    pressures 10 and 3, two steps. *)
Example C105_steady_case : exists g f unit dt l1 ob l2 st1 st2 m1 m2 ma mb s1 s2 r1 r2,
  simulated g f unit (Some 10%R) dt l1 ob l2 st1 m1 ma s1 /\ simulated g f unit (Some 3%R) dt l1 ob l2 st2 m2 mb s2 /\
  (exists x y z u dx dy dz, model m1 x y z u dx dy dz) /\ b_cmp m1 = false /\ Forall2 same_path st1 st2 /\ ~ three_d (gr (geom (b_grid m1))) /\ Forall (path true) st1 /\
  (let p1 := prepared m1 l1 ob l2 in same_controls p1 (prepared m2 l1 ob l2) /\ controls_below 0 p1 (prepared m2 l1 ob l2) /\ anchored p1 /\ conditioned p1 /\ operated p1) /\
  nth_error (s_p s1) 2 = Some r1 /\ nth_error (s_p s2) 2 = Some r2 /\ flat m1 /\ drawn_at_least 6 (prepared m1 l1 ob l2) /\ r1 = [Some 6; Some 7; Some 9; Some 11; None]%R.
Proof. exact ex_C105_steady_case. Qed.

(** C105: the same well and boundaries, initial pressures 6 and 10. *)
Example C105_case : exists g f unit dt l1 ob l2 st1 st2 m1 m2 ma mb s1 s2 r1 r2,
  simulated g f unit (Some 6%R) dt l1 ob l2 st1 m1 ma s1 /\ simulated g f unit (Some 10%R) dt l1 ob l2 st2 m2 mb s2 /\
  (exists x y z u dx dy dz, model m1 x y z u dx dy dz) /\ b_cmp m1 = true /\ Forall2 same_path st1 st2 /\
  (let p1 := prepared m1 l1 ob l2 in same_controls p1 (prepared m2 l1 ob l2) /\ conditioned p1 /\ operated p1) /\
  nth_error (s_p s1) 1 = Some r1 /\ nth_error (s_p s2) 1 = Some r2 /\ r1 = [Some 6; Some 6; Some 6; Some 6; None]%R /\ r2 = [Some 6; Some (70 / 9); Some (82 / 9); Some (86 / 9); None]%R.
Proof. exact ex_C105_case. Qed.

(** C105, rates only: a rate of 1 on the right, initial pressures 10 and 12. *)
Example C105_shift_case : exists g f unit dt l1 ob l2 st1 st2 m1 m2 ma mb s1 s2 r1 r2,
  simulated g f unit (Some 10%R) dt l1 ob l2 st1 m1 ma s1 /\ simulated g f unit (Some 12%R) dt l1 ob l2 st2 m2 mb s2 /\
  (exists x y z u dx dy dz, model m1 x y z u dx dy dz) /\ b_cmp m1 = true /\ Forall2 same_path st1 st2 /\
  (let p1 := prepared m1 l1 ob l2 in same_controls p1 (prepared m2 l1 ob l2) /\ conditioned p1 /\ rates_only p1) /\
  nth_error (s_p s1) 1 = Some r1 /\ nth_error (s_p s2) 1 = Some r2 /\ r1 = [None; Some (81 / 8); Some (41 / 4); Some (85 / 8); None]%R /\ r2 = [None; Some (97 / 8); Some (49 / 4); Some (101 / 8); None]%R.
Proof. exact ex_C105_shift_case. Qed.

(** C106: a producer of rate -1/2, an injector of rate 1, against none. C107 too. *)
Example C106_case : exists g f unit dt l1 ob l2 id q r sk st1 st2 m1 m2 ma mb s1 s2 r1 r2,
  simulated g f unit (Some 6%R) dt l1 ob (l2 ++ [Set_well (Some id) (Some q) None r sk]) st1 m1 ma s1 /\ simulated g f unit (Some 6%R) dt l1 ob l2 st2 m2 mb s2 /\
  (exists x y z u dx dy dz, model m1 x y z u dx dy dz) /\ b_cmp m1 = true /\ Forall2 same_path st1 st2 /\
  (let p := prepared m1 l1 ob l2 in conditioned p /\ operated p /\ dget id (b_wells p) = None /\ (q < 0)%R) /\
  nth_error (s_p s1) 1 = Some r1 /\ nth_error (s_p s2) 1 = Some r2 /\ r1 = [Some 6; Some (107 / 18); Some (52 / 9); Some (53 / 9); None]%R /\ r2 = [Some 6; Some 6; Some 6; Some 6; None]%R /\
  flat m1 /\ pushed_at_most 6 (prepared m1 l1 ob (l2 ++ [Set_well (Some id) (Some q) None r sk])) /\ pushed_at_most 6 (prepared m1 l1 ob l2) /\ drawn_at_least 6 (prepared m1 l1 ob l2).
Proof. exact ex_C106_case. Qed.
