(** Property theorems (each one a lemma proved in [SuperThm.v]), the assumptions they
    rest on, and for each a concrete case meeting its hypotheses. *)
From Coq Require Import String ZArith Bool Arith List Lia Reals Lra.
From Verif Require Import Prelude PreludeFacts Num GridModel GridSpec GeoModel GeoSpec PropModel PropSpec
  UnitsModel BlackOilModel FdmModel MonadFacts HistSpec InvFacts AsmFacts ModelSpec ModelFacts VectFacts AssemblyThm Samples SampleFacts SampleWell SampleBal SolverSpec SolveSpec StepSpec StepFacts WellStepFacts
  BalanceSpec FdmSpec BalFacts CanonFacts StepBal SetupFacts BalanceThm ClosedSpec ClosedThm LocalSpec LocalThm SampleLocal TotalSpec TotalHist ChangeSpec ChangeFacts ChangeThm CompareSpec CompareFacts SampleCompare CompareThm SuperSpec SuperFacts SampleSuper.
Import ListNotations.
Close Scope R_scope.
Open Scope nat_scope.
From Verif Require Import SuperThm.
Close Scope R_scope.
Open Scope nat_scope.

(** C110: four simulations of one compressible reservoir, path by path alike. If the
    controls and the initial pressure of the last are those of the first, plus parts
    [a] and [b] of their changes to the second and to the third, so is every pressure
    in every step. *)
Theorem C110_superposition :
  forall (g : gobj R) f unit pi0 pi1 pi2 dt l0 ob0 l0' l1 ob1 l1' l2 ob2 l2' l3 ob3 l3' st0 st1 st2 st3 m0 m1 m2 m3 ma0 ma1 ma2 ma3 s0 s1 s2 s3 x y z u dx dy dz a b k r0 r1 r2 r3,
  simulated g f unit (Some pi0) dt l0 ob0 l0' st0 m0 ma0 s0 -> simulated g f unit (Some pi1) dt l1 ob1 l1' st1 m1 ma1 s1 ->
  simulated g f unit (Some pi2) dt l2 ob2 l2' st2 m2 ma2 s2 -> simulated g f unit (Some (mix a b pi0 pi1 pi2)) dt l3 ob3 l3' st3 m3 ma3 s3 ->
  model m0 x y z u dx dy dz -> b_cmp m0 = true -> Forall2 same_path st0 st1 -> Forall2 same_path st0 st2 -> Forall2 same_path st0 st3 ->
  controls_mixed a b (prepared m0 l0 ob0 l0') (prepared m1 l1 ob1 l1') (prepared m2 l2 ob2 l2') (prepared m3 l3 ob3 l3') ->
  nth_error (s_p s0) k = Some r0 -> nth_error (s_p s1) k = Some r1 -> nth_error (s_p s2) k = Some r2 -> nth_error (s_p s3) k = Some r3 -> row_mixed m0 a b r0 r1 r2 r3.
Proof. exact L_C110_superposition. Qed.
Print Assumptions C110_superposition.

(** C110, incompressible: with a pressure held somewhere, whatever the initial
    pressures. *)
Theorem C110_superposition_steady :
  forall (g : gobj R) f unit pi0 pi1 pi2 pi3 dt l0 ob0 l0' l1 ob1 l1' l2 ob2 l2' l3 ob3 l3' st0 st1 st2 st3 m0 m1 m2 m3 ma0 ma1 ma2 ma3 s0 s1 s2 s3 x y z u dx dy dz a b k r0 r1 r2 r3,
  simulated g f unit pi0 dt l0 ob0 l0' st0 m0 ma0 s0 -> simulated g f unit pi1 dt l1 ob1 l1' st1 m1 ma1 s1 ->
  simulated g f unit pi2 dt l2 ob2 l2' st2 m2 ma2 s2 -> simulated g f unit pi3 dt l3 ob3 l3' st3 m3 ma3 s3 ->
  model m0 x y z u dx dy dz -> b_cmp m0 = false -> anchored (prepared m0 l0 ob0 l0') ->
  Forall2 same_path st0 st1 -> Forall2 same_path st0 st2 -> Forall2 same_path st0 st3 ->
  controls_mixed a b (prepared m0 l0 ob0 l0') (prepared m1 l1 ob1 l1') (prepared m2 l2 ob2 l2') (prepared m3 l3 ob3 l3') ->
  nth_error (s_p s0) (S k) = Some r0 -> nth_error (s_p s1) (S k) = Some r1 -> nth_error (s_p s2) (S k) = Some r2 -> nth_error (s_p s3) (S k) = Some r3 -> row_mixed m0 a b r0 r1 r2 r3.
Proof. exact L_C110_superposition_steady. Qed.
Print Assumptions C110_superposition_steady.

(** C110: what two wells do together is the sum of what each does alone. *)
Theorem C110_interference :
  forall (g : gobj R) f unit pi dt l1 ob l2 i qi pwfi ri ski j qj pwfj rj skj st0 st1 st2 st3 m0 m1 m2 m3 ma0 ma1 ma2 ma3 s0 s1 s2 s3 x y z u dx dy dz k r0 r1 r2 r3 id v0 v1 v2 v3,
  let wi := Set_well (Some i) (Some qi) pwfi ri ski in let wj := Set_well (Some j) (Some qj) pwfj rj skj in
  simulated g f unit (Some pi) dt l1 ob l2 st0 m0 ma0 s0 -> simulated g f unit (Some pi) dt l1 ob (l2 ++ [wi]) st1 m1 ma1 s1 ->
  simulated g f unit (Some pi) dt l1 ob (l2 ++ [wj]) st2 m2 ma2 s2 -> simulated g f unit (Some pi) dt l1 ob ((l2 ++ [wi]) ++ [wj]) st3 m3 ma3 s3 ->
  model m0 x y z u dx dy dz -> b_cmp m0 = true -> Forall2 same_path st0 st1 -> Forall2 same_path st0 st2 -> Forall2 same_path st0 st3 ->
  (let p := prepared m0 l1 ob l2 in conditioned p /\ operated p /\ i <> j /\ dget i (b_wells p) = None /\ dget j (b_wells p) = None) ->
  nth_error (s_p s0) k = Some r0 -> nth_error (s_p s1) k = Some r1 -> nth_error (s_p s2) k = Some r2 -> nth_error (s_p s3) k = Some r3 ->
  In id (b_ids m0) -> value r0 id = Some v0 -> value r1 id = Some v1 -> value r2 id = Some v2 -> value r3 id = Some v3 -> (v3 - v0 = (v1 - v0) + (v2 - v0))%R.
Proof. exact L_C110_interference. Qed.
Print Assumptions C110_interference.

(** C110: the change of pressure a well causes is proportional to its rate. *)
Theorem C110_proportional :
  forall (g : gobj R) f unit pi dt l1 ob l2 i q pwf r sk pwf' r' sk' a st0 st1 st2 m0 m1 m2 ma0 ma1 ma2 s0 s1 s2 x y z u dx dy dz k r0 r1 r2 id v0 v1 v2,
  simulated g f unit (Some pi) dt l1 ob l2 st0 m0 ma0 s0 -> simulated g f unit (Some pi) dt l1 ob (l2 ++ [Set_well (Some i) (Some q) pwf r sk]) st1 m1 ma1 s1 ->
  simulated g f unit (Some pi) dt l1 ob (l2 ++ [Set_well (Some i) (Some (a * q)%R) pwf' r' sk']) st2 m2 ma2 s2 ->
  model m0 x y z u dx dy dz -> b_cmp m0 = true -> Forall2 same_path st0 st1 -> Forall2 same_path st0 st2 ->
  (let p := prepared m0 l1 ob l2 in conditioned p /\ operated p /\ dget i (b_wells p) = None) ->
  nth_error (s_p s0) k = Some r0 -> nth_error (s_p s1) k = Some r1 -> nth_error (s_p s2) k = Some r2 ->
  In id (b_ids m0) -> value r0 id = Some v0 -> value r1 id = Some v1 -> value r2 id = Some v2 -> (v2 - v0 = a * (v1 - v0))%R.
Proof. exact L_C110_proportional. Qed.
Print Assumptions C110_proportional.

(** C110: no well at 6; a well of rate 1 at 10; no well at 10; half of both changes. *)
Example C110_case : exists g f unit dt l0 ob l0' l1' l3' st0 st1 st2 st3 m0 m1 m2 m3 ma0 ma1 ma2 ma3 s0 s1 s2 s3 r0 r1 r2 r3,
  simulated g f unit (Some 6%R) dt l0 ob l0' st0 m0 ma0 s0 /\ simulated g f unit (Some 10%R) dt l0 ob l1' st1 m1 ma1 s1 /\
  simulated g f unit (Some 10%R) dt l0 ob l0' st2 m2 ma2 s2 /\ simulated g f unit (Some (mix (1 / 2) (1 / 2) 6 10 10)) dt l0 ob l3' st3 m3 ma3 s3 /\
  (exists x y z u dx dy dz, model m0 x y z u dx dy dz) /\ b_cmp m0 = true /\ Forall2 same_path st0 st1 /\ Forall2 same_path st0 st2 /\ Forall2 same_path st0 st3 /\
  controls_mixed (1 / 2) (1 / 2) (prepared m0 l0 ob l0') (prepared m1 l0 ob l1') (prepared m2 l0 ob l0') (prepared m3 l0 ob l3') /\
  nth_error (s_p s0) 1 = Some r0 /\ nth_error (s_p s1) 1 = Some r1 /\ nth_error (s_p s2) 1 = Some r2 /\ nth_error (s_p s3) 1 = Some r3 /\
  value r0 3 = Some 6%R /\ value r1 3 = Some (88 / 9)%R /\ value r2 3 = Some (86 / 9)%R /\ value r3 3 = Some (29 / 3)%R.
Proof. exact ex_C110_case. Qed.

(** C110 incompressible: rates 2, 4, 6 on the right, and 2 + 3 (4 - 2) - (6 - 2). *)
Example C110_steady_case : exists g f unit dt l0 l0' ob0 ob1 ob2 ob3 st0 st1 st2 st3 m0 m1 m2 m3 ma0 ma1 ma2 ma3 s0 s1 s2 s3 r0 r1 r2 r3,
  simulated g f unit (Some 6%R) dt l0 ob0 l0' st0 m0 ma0 s0 /\ simulated g f unit (Some 10%R) dt l0 ob1 l0' st1 m1 ma1 s1 /\
  simulated g f unit (Some 5%R) dt l0 ob2 l0' st2 m2 ma2 s2 /\ simulated g f unit (Some 3%R) dt l0 ob3 l0' st3 m3 ma3 s3 /\
  (exists x y z u dx dy dz, model m0 x y z u dx dy dz) /\ b_cmp m0 = false /\ anchored (prepared m0 l0 ob0 l0') /\
  Forall2 same_path st0 st1 /\ Forall2 same_path st0 st2 /\ Forall2 same_path st0 st3 /\
  controls_mixed 3 (- 1) (prepared m0 l0 ob0 l0') (prepared m1 l0 ob1 l0') (prepared m2 l0 ob2 l0') (prepared m3 l0 ob3 l0') /\
  nth_error (s_p s0) 1 = Some r0 /\ nth_error (s_p s1) 1 = Some r1 /\ nth_error (s_p s2) 1 = Some r2 /\ nth_error (s_p s3) 1 = Some r3 /\
  value r0 3 = Some 11%R /\ value r1 3 = Some 16%R /\ value r2 3 = Some 21%R /\ value r3 3 = Some 16%R.
Proof. exact ex_C110_steady_case. Qed.

(** C110: wells of rates -1/2 and 1 in two cells, alone and together; half the first. *)
Example C110_interference_case : exists g f unit dt l1 ob i qi ri j qj rj st0 st1 st2 st3 st4 m0 ma0 ma1 ma2 ma3 ma4 s0 s1 s2 s3 s4 r0 r1 r2 r3 r4,
  let wi := Set_well (Some i) (Some qi) None ri None in let wj := Set_well (Some j) (Some qj) None rj None in let wh := Set_well (Some i) (Some (1 / 2 * qi)%R) None ri None in
  simulated g f unit (Some 6%R) dt l1 ob [] st0 m0 ma0 s0 /\ simulated g f unit (Some 6%R) dt l1 ob ([] ++ [wi]) st1 m0 ma1 s1 /\
  simulated g f unit (Some 6%R) dt l1 ob ([] ++ [wj]) st2 m0 ma2 s2 /\ simulated g f unit (Some 6%R) dt l1 ob (([] ++ [wi]) ++ [wj]) st3 m0 ma3 s3 /\ simulated g f unit (Some 6%R) dt l1 ob ([] ++ [wh]) st4 m0 ma4 s4 /\
  (exists x y z u dx dy dz, model m0 x y z u dx dy dz) /\ b_cmp m0 = true /\ Forall2 same_path st0 st1 /\ Forall2 same_path st0 st2 /\ Forall2 same_path st0 st3 /\ Forall2 same_path st0 st4 /\
  (let p := prepared m0 l1 ob [] in conditioned p /\ operated p /\ i <> j /\ dget i (b_wells p) = None /\ dget j (b_wells p) = None) /\
  nth_error (s_p s0) 1 = Some r0 /\ nth_error (s_p s1) 1 = Some r1 /\ nth_error (s_p s2) 1 = Some r2 /\ nth_error (s_p s3) 1 = Some r3 /\ nth_error (s_p s4) 1 = Some r4 /\ In 3%Z (b_ids m0) /\
  value r0 3 = Some 6%R /\ value r1 3 = Some (53 / 9)%R /\ value r2 3 = Some (119 / 18)%R /\ value r3 3 = Some (13 / 2)%R /\ value r4 3 = Some (107 / 18)%R.
Proof. exact ex_C110_interference_case. Qed.
