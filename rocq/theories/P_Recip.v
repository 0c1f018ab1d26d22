(** Property theorems (each one a lemma proved in [RecipThm.v]), the assumptions they
    rest on, and for each a concrete case meeting its hypotheses. *)
From Coq Require Import String ZArith Bool Arith List Lia Reals Lra.
From Verif Require Import Prelude PreludeFacts Num GridModel GridSpec GeoModel GeoSpec PropModel PropSpec
  UnitsModel BlackOilModel FdmModel MonadFacts HistSpec InvFacts SumFacts AsmFacts ModelSpec ModelFacts VectFacts AssemblyThm Samples SampleFacts SampleWell SampleBal SolverSpec SolveSpec StepSpec StepFacts WellStepFacts
  MatrixProofs NbrFacts BalanceSpec FdmSpec BalFacts CanonFacts StepBal SetupFacts BalanceThm ClosedSpec ClosedThm LocalSpec LocalThm SampleLocal TotalSpec TotalHist ChangeSpec ChangeFacts ChangeThm CompareSpec CompareFacts SampleCompare CompareThm SuperSpec SuperFacts SampleSuper SuperThm RecipSpec RecipFacts.
Import ListNotations.
Close Scope R_scope.
Open Scope nat_scope.
From Verif Require Import RecipThm.
Close Scope R_scope.
Open Scope nat_scope.

(** C115: three simulations of one reservoir, all by one path. The second has rates
    [d1] on top of the first's, the third has rates [d2]. Then in every step the
    changes the second rates cause, weighed by the first rates, are together the
    changes the first cause, weighed by the second. A compressible reservoir must
    start at one and the same pressure. *)
Theorem C115_reciprocity :
  forall (g : gobj R) f unit pi0 pi1 pi2 dt l0 ob0 l0' l1 ob1 l1' l2 ob2 l2' st0 st1 st2 m0 m1 m2 ma0 ma1 ma2 s0 s1 s2 x y z u dx dy dz v d1 d2 k r0 r1 r2,
  simulated g f unit pi0 dt l0 ob0 l0' st0 m0 ma0 s0 -> simulated g f unit pi1 dt l1 ob1 l1' st1 m1 ma1 s1 -> simulated g f unit pi2 dt l2 ob2 l2' st2 m2 ma2 s2 ->
  model m0 x y z u dx dy dz -> (b_cmp m0 = true -> exists p, pi0 = Some p /\ pi1 = Some p /\ pi2 = Some p) ->
  Forall (path v) st0 -> Forall2 same_path st0 st1 -> Forall2 same_path st0 st2 ->
  rates_added d1 (prepared m0 l0 ob0 l0') (prepared m1 l1 ob1 l1') -> rates_added d2 (prepared m0 l0 ob0 l0') (prepared m2 l2 ob2 l2') ->
  nth_error (s_p s0) (S k) = Some r0 -> nth_error (s_p s1) (S k) = Some r1 -> nth_error (s_p s2) (S k) = Some r2 ->
  weighed d1 (b_ids m0) r0 r2 = weighed d2 (b_ids m0) r0 r1.
Proof. exact L_C115_reciprocity. Qed.
Print Assumptions C115_reciprocity.

(** C115: a well of rate [qi] in one cell and a well of rate [qj] in another, each
    alone. What the second does to the first's cell, times the first's rate, is what
    the first does to the second's cell, times the second's rate. *)
Theorem C115_wells :
  forall (g : gobj R) f unit pi dt l1 ob l2 i qi pwfi ri ski j qj pwfj rj skj st0 st1 st2 m0 m1 m2 ma0 ma1 ma2 s0 s1 s2 x y z u dx dy dz v k r0 r1 r2 vi0 vj0 vj1 vi2,
  let wi := Set_well (Some i) (Some qi) pwfi ri ski in let wj := Set_well (Some j) (Some qj) pwfj rj skj in
  simulated g f unit (Some pi) dt l1 ob l2 st0 m0 ma0 s0 -> simulated g f unit (Some pi) dt l1 ob (l2 ++ [wi]) st1 m1 ma1 s1 -> simulated g f unit (Some pi) dt l1 ob (l2 ++ [wj]) st2 m2 ma2 s2 ->
  model m0 x y z u dx dy dz -> Forall (path v) st0 -> Forall2 same_path st0 st1 -> Forall2 same_path st0 st2 ->
  (let p := prepared m0 l1 ob l2 in conditioned p /\ operated p /\ dget i (b_wells p) = None /\ dget j (b_wells p) = None) ->
  nth_error (s_p s0) (S k) = Some r0 -> nth_error (s_p s1) (S k) = Some r1 -> nth_error (s_p s2) (S k) = Some r2 -> In i (b_ids m0) -> In j (b_ids m0) ->
  value r0 i = Some vi0 -> value r0 j = Some vj0 -> value r1 j = Some vj1 -> value r2 i = Some vi2 -> (qi * (vi2 - vi0) = qj * (vj1 - vj0))%R.
Proof. exact L_C115_wells. Qed.
Print Assumptions C115_wells.

(** C115: the case of equal rates. *)
Theorem C115_equal :
  forall (g : gobj R) f unit pi dt l1 ob l2 q i pwfi ri ski j pwfj rj skj st0 st1 st2 m0 m1 m2 ma0 ma1 ma2 s0 s1 s2 x y z u dx dy dz v k r0 r1 r2 vi0 vj0 vj1 vi2,
  let wi := Set_well (Some i) (Some q) pwfi ri ski in let wj := Set_well (Some j) (Some q) pwfj rj skj in
  simulated g f unit (Some pi) dt l1 ob l2 st0 m0 ma0 s0 -> simulated g f unit (Some pi) dt l1 ob (l2 ++ [wi]) st1 m1 ma1 s1 -> simulated g f unit (Some pi) dt l1 ob (l2 ++ [wj]) st2 m2 ma2 s2 ->
  model m0 x y z u dx dy dz -> Forall (path v) st0 -> Forall2 same_path st0 st1 -> Forall2 same_path st0 st2 ->
  (let p := prepared m0 l1 ob l2 in conditioned p /\ operated p /\ dget i (b_wells p) = None /\ dget j (b_wells p) = None) -> q <> 0%R ->
  nth_error (s_p s0) (S k) = Some r0 -> nth_error (s_p s1) (S k) = Some r1 -> nth_error (s_p s2) (S k) = Some r2 -> In i (b_ids m0) -> In j (b_ids m0) ->
  value r0 i = Some vi0 -> value r0 j = Some vj0 -> value r1 j = Some vj1 -> value r2 i = Some vi2 -> (vi2 - vi0 = vj1 - vj0)%R.
Proof. exact L_C115_equal. Qed.
Print Assumptions C115_equal.

(** C115: rates -1/2 and 1 in the cells 2 and 3, next to a side held at 6. *)
Example C115_case : exists g f unit dt l1 ob i qi ri j qj rj st0 st1 st2 m0 ma0 ma1 ma2 s0 s1 s2 r0 r1 r2,
  let wi := Set_well (Some i) (Some qi) None ri None in let wj := Set_well (Some j) (Some qj) None rj None in
  simulated g f unit (Some 6%R) dt l1 ob [] st0 m0 ma0 s0 /\ simulated g f unit (Some 6%R) dt l1 ob ([] ++ [wi]) st1 m0 ma1 s1 /\ simulated g f unit (Some 6%R) dt l1 ob ([] ++ [wj]) st2 m0 ma2 s2 /\
  (exists x y z u dx dy dz, model m0 x y z u dx dy dz) /\ Forall (path true) st0 /\ Forall2 same_path st0 st1 /\ Forall2 same_path st0 st2 /\
  (let p := prepared m0 l1 ob [] in conditioned p /\ operated p /\ dget i (b_wells p) = None /\ dget j (b_wells p) = None) /\ i <> j /\
  nth_error (s_p s0) 1 = Some r0 /\ nth_error (s_p s1) 1 = Some r1 /\ nth_error (s_p s2) 1 = Some r2 /\ In i (b_ids m0) /\ In j (b_ids m0) /\
  value r0 i = Some 6%R /\ value r0 j = Some 6%R /\ value r1 j = Some (6 - 1 / 9)%R /\ value r2 i = Some (6 + 2 / 9)%R /\ qi = (-1 / 2)%R /\ qj = 1%R.
Proof. exact ex_C115_case. Qed.
