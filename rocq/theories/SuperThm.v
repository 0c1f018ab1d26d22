(** Superposition of simulations. *)
From Coq Require Import String ZArith Bool Arith List Lia Reals Lra.
From Verif Require Import Prelude PreludeFacts Num GridModel GridSpec GeoModel GeoSpec PropModel PropSpec
  UnitsModel BlackOilModel FdmModel MonadFacts HistSpec InvFacts AsmFacts ModelSpec ModelFacts VectFacts AssemblyThm Samples SampleFacts SampleWell SampleBal SolverSpec SolveSpec StepSpec StepFacts WellStepFacts
  BalanceSpec FdmSpec BalFacts CanonFacts StepBal SetupFacts BalanceThm ClosedSpec ClosedThm LocalSpec LocalThm SampleLocal TotalSpec TotalHist ChangeSpec ChangeFacts ChangeThm CompareSpec CompareFacts SampleCompare CompareThm SuperSpec SuperFacts SampleSuper.
Import ListNotations.
Close Scope R_scope.
Open Scope nat_scope.

Lemma rows4_after {A} (Q : A -> A -> A -> A -> Prop) P0 P1 P2 P3 : Forall4 Q P0 P1 P2 P3 -> forall k r0 r1 r2 r3, nth_error P0 k = Some r0 -> nth_error P1 k = Some r1 -> nth_error P2 k = Some r2 -> nth_error P3 k = Some r3 -> Q r0 r1 r2 r3.
Proof. induction 1 as [|a b c d P0 P1 P2 P3 H F IH]; intros [|k] r0 r1 r2 r3 E0 E1 E2 E3; cbn in *; try discriminate; [congruence|eauto]. Qed.
Lemma sim_mix (g : gobj R) f unit pi0 pi1 pi2 pi3 dt l0 ob0 l0' l1 ob1 l1' l2 ob2 l2' l3 ob3 l3' st0 st1 st2 st3 m0 m1 m2 m3 ma0 ma1 ma2 ma3 s0 s1 s2 s3 x y z u dx dy dz a b :
  simulated g f unit pi0 dt l0 ob0 l0' st0 m0 ma0 s0 -> simulated g f unit pi1 dt l1 ob1 l1' st1 m1 ma1 s1 -> simulated g f unit pi2 dt l2 ob2 l2' st2 m2 ma2 s2 -> simulated g f unit pi3 dt l3 ob3 l3' st3 m3 ma3 s3 ->
  model m0 x y z u dx dy dz -> Forall2 same_path st0 st1 -> Forall2 same_path st0 st2 -> Forall2 same_path st0 st3 ->
  controls_mixed a b (prepared m0 l0 ob0 l0') (prepared m1 l1 ob1 l1') (prepared m2 l2 ob2 l2') (prepared m3 l3 ob3 l3') ->
  (b_cmp m0 = true /\ (exists v0 v1 v2, pi0 = Some v0 /\ pi1 = Some v1 /\ pi2 = Some v2 /\ pi3 = Some (mix a b v0 v1 v2)) \/
   b_cmp m0 = false /\ anchored (prepared m0 l0 ob0 l0')) ->
  exists h0 h1 h2 h3 P0 P1 P2 P3, s_p s0 = h0 :: P0 /\ s_p s1 = h1 :: P1 /\ s_p s2 = h2 :: P2 /\ s_p s3 = h3 :: P3 /\ Forall4 (row_mixed m0 a b) P0 P1 P2 P3 /\ (b_cmp m0 = true -> row_mixed m0 a b h0 h1 h2 h3).
Proof.
  intros S0 S1 S2 S3 K Sp1 Sp2 Sp3 Cb Hc.
  assert (C1 : core m0 = core m1) by (eapply core_new; [apply S0|apply S1]). assert (C2 : core m0 = core m2) by (eapply core_new; [apply S0|apply S2]). assert (C3 : core m0 = core m3) by (eapply core_new; [apply S0|apply S3]).
  pose proof (model_core _ _ _ _ _ _ _ _ _ C1 K) as K1. pose proof (model_core _ _ _ _ _ _ _ _ _ C2 K) as K2. pose proof (model_core _ _ _ _ _ _ _ _ _ C3 K) as K3.
  destruct (sim_start _ _ _ _ _ _ _ _ _ _ _ _ _ _ _ _ _ _ _ S0 K) as (D0 & R0 & A0 & L0 & E0 & I0 & U0). destruct (sim_start _ _ _ _ _ _ _ _ _ _ _ _ _ _ _ _ _ _ _ S1 K1) as (D1 & R1 & A1 & L1 & E1 & I1 & U1).
  destruct (sim_start _ _ _ _ _ _ _ _ _ _ _ _ _ _ _ _ _ _ _ S2 K2) as (D2 & R2 & A2 & L2 & E2 & I2 & U2). destruct (sim_start _ _ _ _ _ _ _ _ _ _ _ _ _ _ _ _ _ _ _ S3 K3) as (D3 & R3 & A3 & L3 & E3 & I3 & U3).
  set (p0 := prepared m0 l0 ob0 l0') in *. set (p1 := prepared m1 l1 ob1 l1') in *. set (p2 := prepared m2 l2 ob2 l2') in *. set (p3 := prepared m3 l3 ob3 l3') in *.
  assert (B0 : b_cmp m0 = true -> row_mixed m0 a b (b_ip p0) (b_ip p1) (b_ip p2) (b_ip p3)).
  { intros Cm. destruct Hc as [(_ & v0 & v1 & v2 & -> & -> & -> & ->)|(Q & _)]; [|congruence]. intros id I. exists v0, v1, v2. destruct (core_fields _ _ C1) as (_ & J1 & _). destruct (core_fields _ _ C2) as (_ & J2 & _). destruct (core_fields _ _ C3) as (_ & J3 & _).
    split; [now apply (U0 v0)|]. split; [apply (U1 v1); auto; now rewrite <- J1|]. split; [apply (U2 v2); auto; now rewrite <- J2|]. apply (U3 (mix a b v0 v1 v2)); auto. now rewrite <- J3. }
  destruct (mix_history m0 x y z u dx dy dz K a b st0 st1 st2 st3 Sp1 Sp2 Sp3 p0 (fdm_new p0) p1 (fdm_new p1) p2 (fdm_new p2) p3 (fdm_new p3) ma0 s0 ma1 s1 ma2 s2 ma3 s3) as (P0 & P1 & P2 & P3 & Q0 & Q1 & Q2 & Q3 & Q4); auto; try congruence.
  - destruct Hc as [(Cm & _)|Hc]; [left|right; auto]. split; [exact Cm|exact (B0 Cm)].
  - exists (b_ip p0), (b_ip p1), (b_ip p2), (b_ip p3), P0, P1, P2, P3. rewrite I0 in Q0. rewrite I1 in Q1. rewrite I2 in Q2. rewrite I3 in Q3. auto 8.
Qed.

(** C110: four simulations of one compressible reservoir, path by path alike. If the
    controls and the initial pressure of the last are those of the first, plus parts
    [a] and [b] of their changes to the second and to the third, so is every pressure
    in every step. *)
Lemma L_C110_superposition :
  forall (g : gobj R) f unit pi0 pi1 pi2 dt l0 ob0 l0' l1 ob1 l1' l2 ob2 l2' l3 ob3 l3' st0 st1 st2 st3 m0 m1 m2 m3 ma0 ma1 ma2 ma3 s0 s1 s2 s3 x y z u dx dy dz a b k r0 r1 r2 r3,
  simulated g f unit (Some pi0) dt l0 ob0 l0' st0 m0 ma0 s0 -> simulated g f unit (Some pi1) dt l1 ob1 l1' st1 m1 ma1 s1 ->
  simulated g f unit (Some pi2) dt l2 ob2 l2' st2 m2 ma2 s2 -> simulated g f unit (Some (mix a b pi0 pi1 pi2)) dt l3 ob3 l3' st3 m3 ma3 s3 ->
  model m0 x y z u dx dy dz -> b_cmp m0 = true -> Forall2 same_path st0 st1 -> Forall2 same_path st0 st2 -> Forall2 same_path st0 st3 ->
  controls_mixed a b (prepared m0 l0 ob0 l0') (prepared m1 l1 ob1 l1') (prepared m2 l2 ob2 l2') (prepared m3 l3 ob3 l3') ->
  nth_error (s_p s0) k = Some r0 -> nth_error (s_p s1) k = Some r1 -> nth_error (s_p s2) k = Some r2 -> nth_error (s_p s3) k = Some r3 -> row_mixed m0 a b r0 r1 r2 r3.
Proof.
  intros g f unit pi0 pi1 pi2 dt l0 ob0 l0' l1 ob1 l1' l2 ob2 l2' l3 ob3 l3' st0 st1 st2 st3 m0 m1 m2 m3 ma0 ma1 ma2 ma3 s0 s1 s2 s3 x y z u dx dy dz a b k r0 r1 r2 r3 S0 S1 S2 S3 K Cm Sp1 Sp2 Sp3 Cb N0 N1 N2 N3.
  assert (Hc : b_cmp m0 = true /\ (exists v0 v1 v2, Some pi0 = Some v0 /\ Some pi1 = Some v1 /\ Some pi2 = Some v2 /\ Some (mix a b pi0 pi1 pi2) = Some (mix a b v0 v1 v2)) \/
   b_cmp m0 = false /\ anchored (prepared m0 l0 ob0 l0')) by (left; split; [exact Cm|exists pi0, pi1, pi2; auto]).
  destruct (sim_mix _ _ _ _ _ _ _ _ _ _ _ _ _ _ _ _ _ _ _ _ _ _ _ _ _ _ _ _ _ _ _ _ _ _ _ _ _ _ _ _ _ _ _ a b S0 S1 S2 S3 K Sp1 Sp2 Sp3 Cb Hc) as (h0 & h1 & h2 & h3 & P0 & P1 & P2 & P3 & Q0 & Q1 & Q2 & Q3 & Q4 & Q5).
  rewrite Q0 in N0. rewrite Q1 in N1. rewrite Q2 in N2. rewrite Q3 in N3. apply (rows4_after (row_mixed m0 a b) (h0 :: P0) (h1 :: P1) (h2 :: P2) (h3 :: P3)) with (k := k); auto. constructor; auto.
Qed.
(** C110, incompressible: with a pressure held somewhere, whatever the initial
    pressures. *)
Lemma L_C110_superposition_steady :
  forall (g : gobj R) f unit pi0 pi1 pi2 pi3 dt l0 ob0 l0' l1 ob1 l1' l2 ob2 l2' l3 ob3 l3' st0 st1 st2 st3 m0 m1 m2 m3 ma0 ma1 ma2 ma3 s0 s1 s2 s3 x y z u dx dy dz a b k r0 r1 r2 r3,
  simulated g f unit pi0 dt l0 ob0 l0' st0 m0 ma0 s0 -> simulated g f unit pi1 dt l1 ob1 l1' st1 m1 ma1 s1 ->
  simulated g f unit pi2 dt l2 ob2 l2' st2 m2 ma2 s2 -> simulated g f unit pi3 dt l3 ob3 l3' st3 m3 ma3 s3 ->
  model m0 x y z u dx dy dz -> b_cmp m0 = false -> anchored (prepared m0 l0 ob0 l0') ->
  Forall2 same_path st0 st1 -> Forall2 same_path st0 st2 -> Forall2 same_path st0 st3 ->
  controls_mixed a b (prepared m0 l0 ob0 l0') (prepared m1 l1 ob1 l1') (prepared m2 l2 ob2 l2') (prepared m3 l3 ob3 l3') ->
  nth_error (s_p s0) (S k) = Some r0 -> nth_error (s_p s1) (S k) = Some r1 -> nth_error (s_p s2) (S k) = Some r2 -> nth_error (s_p s3) (S k) = Some r3 -> row_mixed m0 a b r0 r1 r2 r3.
Proof.
  intros g f unit pi0 pi1 pi2 pi3 dt l0 ob0 l0' l1 ob1 l1' l2 ob2 l2' l3 ob3 l3' st0 st1 st2 st3 m0 m1 m2 m3 ma0 ma1 ma2 ma3 s0 s1 s2 s3 x y z u dx dy dz a b k r0 r1 r2 r3 S0 S1 S2 S3 K Cm An Sp1 Sp2 Sp3 Cb N0 N1 N2 N3.
  destruct (sim_mix _ _ _ _ _ _ _ _ _ _ _ _ _ _ _ _ _ _ _ _ _ _ _ _ _ _ _ _ _ _ _ _ _ _ _ _ _ _ _ _ _ _ _ a b S0 S1 S2 S3 K Sp1 Sp2 Sp3 Cb (or_intror (conj Cm An))) as (h0 & h1 & h2 & h3 & P0 & P1 & P2 & P3 & Q0 & Q1 & Q2 & Q3 & Q4 & Q5).
  rewrite Q0 in N0. rewrite Q1 in N1. rewrite Q2 in N2. rewrite Q3 in N3. exact (rows4_after (row_mixed m0 a b) P0 P1 P2 P3 Q4 k r0 r1 r2 r3 N0 N1 N2 N3).
Qed.

(** ** Wells added to a setup *)
Lemma mix_same a b v : mix a b v v v = v.
Proof. unfold mix. ring. Qed.
Section added.
Context (p0 p1 p2 p3 : bo R) (x y z : nat) (u : bool) (dx dy dz : dinput R) (K : model p0 x y z u dx dy dz) (s : fs R) (Rd : ready (m := p0) s) (Cn : conditioned p0) (Op : operated p0).
Context (C1 : core p1 = core p0) (C2 : core p2 = core p0) (C3 : core p3 = core p0) (D1 : b_bdict p1 = b_bdict p0) (D2 : b_bdict p2 = b_bdict p0) (D3 : b_bdict p3 = b_bdict p0) (a b : R).
Lemma same_mixed : (forall id, (dget id (b_wells p1) = dget id (b_wells p0) /\ dget id (b_wells p2) = dget id (b_wells p0) /\ dget id (b_wells p3) = dget id (b_wells p0)) \/
    (exists q0 q1 q2, well_gives p0 id q0 /\ well_gives p1 id q1 /\ well_gives p2 id q2 /\ well_gives p3 id (mix a b q0 q1 q2))) -> controls_mixed a b p0 p1 p2 p3.
Proof.
  intros H. split.
  - intros id. destruct (H id) as [(E1 & E2 & E3)|Q]; [|left; exact Q]. destruct (dget id (b_wells p0)) as [w|] eqn:E.
    + destruct (Op id w E) as [(q & A)|(G & p & A & Gp)]; [left; exists q, q, q|right; exists w, w, w, w, G, p, p, p]; rewrite mix_same; unfold well_gives; rewrite ?E, ?E1, ?E2, ?E3; auto 10.
    + left. exists 0%R, 0%R, 0%R. rewrite mix_same. unfold well_gives. rewrite E, E1, E2, E3. auto.
  - assert (Sc : same_controls p0 p0) by (repeat split; auto; intros i v E; eauto).
    destruct (controls_refl 0 p0 p0 x y z u dx dy dz s K eq_refl Rd Sc Cn Op (or_introl (Rle_refl 0))) as ((_ & Bc) & _).
    intros idb. specialize (Bc idb). unfold bound_gives. rewrite D1, D2, D3. destruct (dget idb (b_bdict p0)) as [[k v]|].
    + destruct Bc as [(A & _)|(r1 & _ & A & _)]; [right; exists v, v, v|left; exists r1, r1, r1]; rewrite mix_same.
      * cbn [fst] in A. subst k. auto.
      * split; [auto|]. split; [now apply (rate_given_core p1 p0)|]. split; [now apply (rate_given_core p2 p0)|now apply (rate_given_core p3 p0)].
    + left. exists 0%R, 0%R, 0%R. rewrite mix_same. auto.
Qed.
End added.
Lemma last_ok (g : gobj R) f unit pi dt l1 ob l2 c st m0 ma s : simulated g f unit pi dt l1 ob (l2 ++ [c]) st m0 ma s -> snd (exec c (after (m0, None) (setup l1 ob l2))) = Ok tt.
Proof. intros (_ & _ & A & _). rewrite setup_more, <- app_assoc in A. apply all_ok_app in A as (_ & A). cbn [app all_ok] in A. apply A. Qed.

(** C110: what two wells do together is the sum of what each does alone. *)
Lemma L_C110_interference :
  forall (g : gobj R) f unit pi dt l1 ob l2 i qi pwfi ri ski j qj pwfj rj skj st0 st1 st2 st3 m0 m1 m2 m3 ma0 ma1 ma2 ma3 s0 s1 s2 s3 x y z u dx dy dz k r0 r1 r2 r3 id v0 v1 v2 v3,
  let wi := Set_well (Some i) (Some qi) pwfi ri ski in let wj := Set_well (Some j) (Some qj) pwfj rj skj in
  simulated g f unit (Some pi) dt l1 ob l2 st0 m0 ma0 s0 -> simulated g f unit (Some pi) dt l1 ob (l2 ++ [wi]) st1 m1 ma1 s1 ->
  simulated g f unit (Some pi) dt l1 ob (l2 ++ [wj]) st2 m2 ma2 s2 -> simulated g f unit (Some pi) dt l1 ob ((l2 ++ [wi]) ++ [wj]) st3 m3 ma3 s3 ->
  model m0 x y z u dx dy dz -> b_cmp m0 = true -> Forall2 same_path st0 st1 -> Forall2 same_path st0 st2 -> Forall2 same_path st0 st3 ->
  (let p := prepared m0 l1 ob l2 in conditioned p /\ operated p /\ i <> j /\ dget i (b_wells p) = None /\ dget j (b_wells p) = None) ->
  nth_error (s_p s0) k = Some r0 -> nth_error (s_p s1) k = Some r1 -> nth_error (s_p s2) k = Some r2 -> nth_error (s_p s3) k = Some r3 ->
  In id (b_ids m0) -> value r0 id = Some v0 -> value r1 id = Some v1 -> value r2 id = Some v2 -> value r3 id = Some v3 -> (v3 - v0 = (v1 - v0) + (v2 - v0))%R.
Proof.
  intros g f unit pi dt l1 ob l2 i qi pwfi ri ski j qj pwfj rj skj st0 st1 st2 st3 m0 m1 m2 m3 ma0 ma1 ma2 ma3 s0 s1 s2 s3 x y z u dx dy dz k r0 r1 r2 r3 id v0 v1 v2 v3 wi wj S0 S1 S2 S3 K Cm Sp1 Sp2 Sp3 H N0 N1 N2 N3 I V0 V1 V2 V3.
  assert (E1 : m1 = m0) by (destruct S0 as (A & _), S1 as (B & _); congruence). assert (E2 : m2 = m0) by (destruct S0 as (A & _), S2 as (B & _); congruence). assert (E3 : m3 = m0) by (destruct S0 as (A & _), S3 as (B & _); congruence). subst m1 m2 m3.
  destruct (sim_start _ _ _ _ _ _ _ _ _ _ _ _ _ _ _ _ _ _ _ S0 K) as (C0 & R0 & _). destruct (sim_start _ _ _ _ _ _ _ _ _ _ _ _ _ _ _ _ _ _ _ S1 K) as (C1 & _). destruct (sim_start _ _ _ _ _ _ _ _ _ _ _ _ _ _ _ _ _ _ _ S2 K) as (C2 & _). destruct (sim_start _ _ _ _ _ _ _ _ _ _ _ _ _ _ _ _ _ _ _ S3 K) as (C3 & _).
  cbv zeta in H. destruct H as (Cn & Op & Nij & Wi & Wj).
  destruct (more_prepared m0 l1 ob l2 i qi pwfi ri ski (last_ok _ _ _ _ _ _ _ _ _ _ _ _ _ S1)) as ((w1 & G1 & A1) & T1 & B1). fold wi in G1, T1, B1. destruct (more_prepared m0 l1 ob l2 j qj pwfj rj skj (last_ok _ _ _ _ _ _ _ _ _ _ _ _ _ S2)) as ((w2 & G2 & A2) & T2 & B2). fold wj in G2, T2, B2.
  destruct (more_prepared m0 l1 ob (l2 ++ [wi]) j qj pwfj rj skj (last_ok _ _ _ _ _ _ _ _ _ _ _ _ _ S3)) as ((w3 & G3 & A3) & T3 & B3). fold wj in G3, T3, B3.
  set (p0 := prepared m0 l1 ob l2) in *. set (p1 := prepared m0 l1 ob (l2 ++ [wi])) in *. set (p2 := prepared m0 l1 ob (l2 ++ [wj])) in *. set (p3 := prepared m0 l1 ob ((l2 ++ [wi]) ++ [wj])) in *.
  assert (Mx : controls_mixed 1 1 p0 p1 p2 p3).
  { apply (same_mixed p0 p1 p2 p3 x y z u dx dy dz (model_core _ _ _ _ _ _ _ _ _ (eq_sym C0) K) _ R0 Cn Op); try congruence. intros c. destruct (Z.eq_dec c i) as [->|Ni]; [|destruct (Z.eq_dec c j) as [->|Nj]].
    - right. exists 0%R, qi, 0%R. unfold well_gives. rewrite Wi, G1, (T2 i Nij), Wi, (T3 i Nij), G1. replace (mix 1 1 0 qi 0) with qi by (unfold mix; ring). auto.
    - right. exists 0%R, 0%R, qj. unfold well_gives. rewrite Wj, G2, (T1 j Ni), Wj, G3. replace (mix 1 1 0 0 qj) with qj by (unfold mix; ring). auto.
    - left. rewrite (T1 c Ni), (T2 c Nj), (T3 c Nj), (T1 c Ni). auto. }
  assert (S3' : simulated g f unit (Some (mix 1 1 pi pi pi)) dt l1 ob ((l2 ++ [wi]) ++ [wj]) st3 m0 ma3 s3) by (rewrite mix_same; exact S3).
  destruct (L_C110_superposition _ _ _ _ _ _ _ _ _ _ _ _ _ _ _ _ _ _ _ _ _ _ _ _ _ _ _ _ _ _ _ _ _ _ _ _ _ _ _ _ _ _ 1%R 1%R k r0 r1 r2 r3 S0 S1 S2 S3' K Cm Sp1 Sp2 Sp3 Mx N0 N1 N2 N3 id I) as (c0 & c1 & c2 & Q0 & Q1 & Q2 & Q3).
  assert (c0 = v0) by congruence. assert (c1 = v1) by congruence. assert (c2 = v2) by congruence. assert (Q : v3 = mix 1 1 c0 c1 c2) by congruence. subst. unfold mix. ring.
Qed.
(** C110: the change of pressure a well causes is proportional to its rate. *)
Lemma L_C110_proportional :
  forall (g : gobj R) f unit pi dt l1 ob l2 i q pwf r sk pwf' r' sk' a st0 st1 st2 m0 m1 m2 ma0 ma1 ma2 s0 s1 s2 x y z u dx dy dz k r0 r1 r2 id v0 v1 v2,
  simulated g f unit (Some pi) dt l1 ob l2 st0 m0 ma0 s0 -> simulated g f unit (Some pi) dt l1 ob (l2 ++ [Set_well (Some i) (Some q) pwf r sk]) st1 m1 ma1 s1 ->
  simulated g f unit (Some pi) dt l1 ob (l2 ++ [Set_well (Some i) (Some (a * q)%R) pwf' r' sk']) st2 m2 ma2 s2 ->
  model m0 x y z u dx dy dz -> b_cmp m0 = true -> Forall2 same_path st0 st1 -> Forall2 same_path st0 st2 ->
  (let p := prepared m0 l1 ob l2 in conditioned p /\ operated p /\ dget i (b_wells p) = None) ->
  nth_error (s_p s0) k = Some r0 -> nth_error (s_p s1) k = Some r1 -> nth_error (s_p s2) k = Some r2 ->
  In id (b_ids m0) -> value r0 id = Some v0 -> value r1 id = Some v1 -> value r2 id = Some v2 -> (v2 - v0 = a * (v1 - v0))%R.
Proof.
  intros g f unit pi dt l1 ob l2 i q pwf r sk pwf' r' sk' a st0 st1 st2 m0 m1 m2 ma0 ma1 ma2 s0 s1 s2 x y z u dx dy dz k r0 r1 r2 id v0 v1 v2 S0 S1 S2 K Cm Sp1 Sp2 H N0 N1 N2 I V0 V1 V2.
  assert (E1 : m1 = m0) by (destruct S0 as (A & _), S1 as (B & _); congruence). assert (E2 : m2 = m0) by (destruct S0 as (A & _), S2 as (B & _); congruence). subst m1 m2.
  destruct (sim_start _ _ _ _ _ _ _ _ _ _ _ _ _ _ _ _ _ _ _ S0 K) as (C0 & R0 & _). destruct (sim_start _ _ _ _ _ _ _ _ _ _ _ _ _ _ _ _ _ _ _ S1 K) as (C1 & _). destruct (sim_start _ _ _ _ _ _ _ _ _ _ _ _ _ _ _ _ _ _ _ S2 K) as (C2 & _).
  cbv zeta in H. destruct H as (Cn & Op & Wi).
  destruct (more_prepared m0 l1 ob l2 i q pwf r sk (last_ok _ _ _ _ _ _ _ _ _ _ _ _ _ S1)) as ((w1 & G1 & A1) & T1 & B1). destruct (more_prepared m0 l1 ob l2 i (a * q)%R pwf' r' sk' (last_ok _ _ _ _ _ _ _ _ _ _ _ _ _ S2)) as ((w2 & G2 & A2) & T2 & B2).
  set (c1 := Set_well (Some i) (Some q) pwf r sk) in *. set (c2 := Set_well (Some i) (Some (a * q)%R) pwf' r' sk') in *.
  set (p0 := prepared m0 l1 ob l2) in *. set (p1 := prepared m0 l1 ob (l2 ++ [c1])) in *. set (p2 := prepared m0 l1 ob (l2 ++ [c2])) in *.
  assert (Mx : controls_mixed a 0 p0 p1 p0 p2).
  { apply (same_mixed p0 p1 p0 p2 x y z u dx dy dz (model_core _ _ _ _ _ _ _ _ _ (eq_sym C0) K) _ R0 Cn Op); try congruence. intros c. destruct (Z.eq_dec c i) as [->|Ni].
    - right. exists 0%R, q, 0%R. unfold well_gives. rewrite Wi, G1, G2. replace (mix a 0 0 q 0) with (a * q)%R by (unfold mix; ring). auto.
    - left. rewrite (T1 c Ni), (T2 c Ni). auto. }
  assert (S2' : simulated g f unit (Some (mix a 0 pi pi pi)) dt l1 ob (l2 ++ [c2]) st2 m0 ma2 s2) by (rewrite mix_same; exact S2).
  assert (Sp0 : Forall2 same_path st0 st0).
  { clear -Sp1. induction Sp1 as [|c c' st st' Q Qs IH]; constructor; auto. destruct c, c'; try contradiction. reflexivity. }
  destruct (L_C110_superposition _ _ _ _ _ _ _ _ _ _ _ _ _ _ _ _ _ _ _ _ _ _ _ _ _ _ _ _ _ _ _ _ _ _ _ _ _ _ _ _ _ _ a 0%R k r0 r1 r0 r2 S0 S1 S0 S2' K Cm Sp1 Sp0 Sp2 Mx N0 N1 N0 N2 id I) as (b0 & b1 & b2 & Q0 & Q1 & Q2 & Q3).
  assert (b0 = v0) by congruence. assert (b1 = v1) by congruence. assert (Q : v2 = mix a 0 b0 b1 b2) by congruence. subst. unfold mix. ring.
Qed.

Lemma sides_gives m r idb : b_bdict m = sides r -> (idb = 0%Z /\ dget idb (b_bdict m) = Some ("pressure"%string, 6%R)) \/ (idb <> 0%Z /\ bound_gives m idb (if Z.eqb idb 4 then r else 0%R)).
Proof.
  intros E. unfold bound_gives. rewrite E. unfold sides. cbn [dget]. destruct (Z.eqb_spec idb 0) as [->|Ni]; [left; auto|right; split; auto]. destruct (Z.eqb idb 4); [left; split; reflexivity|reflexivity].
Qed.
Lemma sides_mixed a b m0 m1 m2 m3 r0 r1 r2 : b_bdict m0 = sides r0 -> b_bdict m1 = sides r1 -> b_bdict m2 = sides r2 -> b_bdict m3 = sides (mix a b r0 r1 r2) -> conditions_mixed a b m0 m1 m2 m3.
Proof.
  intros E0 E1 E2 E3 idb. destruct (sides_gives m0 r0 idb E0) as [(-> & A0)|(Ni & A0)].
  - right. exists 6%R, 6%R, 6%R. rewrite E0, E1, E2, E3. rewrite mix_same. auto.
  - left. destruct (sides_gives m1 r1 idb E1) as [(Q & _)|(_ & A1)]; [contradiction|]. destruct (sides_gives m2 r2 idb E2) as [(Q & _)|(_ & A2)]; [contradiction|]. destruct (sides_gives m3 _ idb E3) as [(Q & _)|(_ & A3)]; [contradiction|].
    do 3 eexists. split; [exact A0|]. split; [exact A1|]. split; [exact A2|]. destruct (Z.eqb idb 4); auto. now rewrite mix_same.
Qed.
(** C110: no well at 6; a well of rate 1 at 10; no well at 10; half of both changes. *)
Example ex_C110_case : exists g f unit dt l0 ob l0' l1' l3' st0 st1 st2 st3 m0 m1 m2 m3 ma0 ma1 ma2 ma3 s0 s1 s2 s3 r0 r1 r2 r3,
  simulated g f unit (Some 6%R) dt l0 ob l0' st0 m0 ma0 s0 /\ simulated g f unit (Some 10%R) dt l0 ob l1' st1 m1 ma1 s1 /\
  simulated g f unit (Some 10%R) dt l0 ob l0' st2 m2 ma2 s2 /\ simulated g f unit (Some (mix (1 / 2) (1 / 2) 6 10 10)) dt l0 ob l3' st3 m3 ma3 s3 /\
  (exists x y z u dx dy dz, model m0 x y z u dx dy dz) /\ b_cmp m0 = true /\ Forall2 same_path st0 st1 /\ Forall2 same_path st0 st2 /\ Forall2 same_path st0 st3 /\
  controls_mixed (1 / 2) (1 / 2) (prepared m0 l0 ob l0') (prepared m1 l0 ob l1') (prepared m2 l0 ob l0') (prepared m3 l0 ob l3') /\
  nth_error (s_p s0) 1 = Some r0 /\ nth_error (s_p s1) 1 = Some r1 /\ nth_error (s_p s2) 1 = Some r2 /\ nth_error (s_p s3) 1 = Some r3 /\
  value r0 3 = Some 6%R /\ value r1 3 = Some (88 / 9)%R /\ value r2 3 = Some (86 / 9)%R /\ value r3 3 = Some (29 / 3)%R.
Proof.
  destruct line3_made as (g & f & unit & dt & Hn).
  destruct (bare_run 6 6 6 6) as (p0 & ma0 & s0 & S0 & P0 & W0 & B0 & R0); try lra. destruct (pump_run 10 1 (71 / 9) (86 / 9) (88 / 9)) as (p1 & ma1 & s1 & w1 & S1 & P1 & W1 & A1 & B1 & R1); try lra.
  destruct (bare_run 10 (70 / 9) (82 / 9) (86 / 9)) as (p2 & ma2 & s2 & S2 & P2 & W2 & B2 & R2); try lra. destruct (pump_run (mix (1 / 2) (1 / 2) 6 10 10) (mix (1 / 2) (1 / 2) 0 1 0) (47 / 6) (28 / 3) (29 / 3)) as (p3 & ma3 & s3 & w3 & S3 & P3 & W3 & A3 & B3 & R3); try (unfold mix; lra).
  exists g, f, unit, dt, [], (Some (sides 0)), [], [pump 1], [pump (mix (1 / 2) (1 / 2) 0 1 0)], [reply 6 6 6], [reply (71 / 9) (86 / 9) (88 / 9)], [reply (70 / 9) (82 / 9) (86 / 9)], [reply (47 / 6) (28 / 3) (29 / 3)].
  exists (line3 (1 + 0) true (Some 6%R)), (line3 (1 + 0) true (Some 10%R)), (line3 (1 + 0) true (Some 10%R)), (line3 (1 + 0) true (Some (mix (1 / 2) (1 / 2) 6 10 10))), ma0, ma1, ma2, ma3, s0, s1, s2, s3. do 4 eexists.
  split; [split; [apply Hn|exact S0]|]. split; [split; [apply Hn|exact S1]|]. split; [split; [apply Hn|exact S2]|]. split; [split; [apply Hn|exact S3]|].
  split; [do 7 eexists; apply line3_model; intros; lra|]. split; [reflexivity|]. do 3 (split; [repeat constructor|]). split; [|split; [exact R0|split; [exact R1|split; [exact R2|split; [exact R3|auto]]]]].
  rewrite P0, P1, P2, P3. split.
  - intros id. left. destruct (Z.eqb_spec id 2) as [->|Ni]; [exists 0%R, 1%R, 0%R|exists 0%R, 0%R, 0%R; rewrite mix_same]; unfold well_gives; rewrite W0, W1, W2, W3; cbn [dget]; [auto|]. destruct (Z.eqb_spec id 2); [contradiction|auto].
  - apply (sides_mixed _ _ _ _ _ _ 0 0 0); auto. now rewrite mix_same.
Qed.
(** C110 incompressible: rates 2, 4, 6 on the right, and 2 + 3 (4 - 2) - (6 - 2). *)
Example ex_C110_steady_case : exists g f unit dt l0 l0' ob0 ob1 ob2 ob3 st0 st1 st2 st3 m0 m1 m2 m3 ma0 ma1 ma2 ma3 s0 s1 s2 s3 r0 r1 r2 r3,
  simulated g f unit (Some 6%R) dt l0 ob0 l0' st0 m0 ma0 s0 /\ simulated g f unit (Some 10%R) dt l0 ob1 l0' st1 m1 ma1 s1 /\
  simulated g f unit (Some 5%R) dt l0 ob2 l0' st2 m2 ma2 s2 /\ simulated g f unit (Some 3%R) dt l0 ob3 l0' st3 m3 ma3 s3 /\
  (exists x y z u dx dy dz, model m0 x y z u dx dy dz) /\ b_cmp m0 = false /\ anchored (prepared m0 l0 ob0 l0') /\
  Forall2 same_path st0 st1 /\ Forall2 same_path st0 st2 /\ Forall2 same_path st0 st3 /\
  controls_mixed 3 (- 1) (prepared m0 l0 ob0 l0') (prepared m1 l0 ob1 l0') (prepared m2 l0 ob2 l0') (prepared m3 l0 ob3 l0') /\
  nth_error (s_p s0) 1 = Some r0 /\ nth_error (s_p s1) 1 = Some r1 /\ nth_error (s_p s2) 1 = Some r2 /\ nth_error (s_p s3) 1 = Some r3 /\
  value r0 3 = Some 11%R /\ value r1 3 = Some 16%R /\ value r2 3 = Some 21%R /\ value r3 3 = Some 16%R.
Proof.
  destruct line3_made0 as (g & f & unit & dt & Hn).
  destruct (steady_any 6 2 7 9 11) as (p0 & ma0 & s0 & S0 & P0 & W0 & B0 & R0); try lra. destruct (steady_any 10 4 8 12 16) as (p1 & ma1 & s1 & S1 & P1 & W1 & B1 & R1); try lra.
  destruct (steady_any 5 6 9 15 21) as (p2 & ma2 & s2 & S2 & P2 & W2 & B2 & R2); try lra. destruct (steady_any 3 (mix 3 (- 1) 2 4 6) 8 12 16) as (p3 & ma3 & s3 & S3 & P3 & W3 & B3 & R3); try (unfold mix; lra).
  exists g, f, unit, dt, [], [], (Some (sides 2)), (Some (sides 4)), (Some (sides 6)), (Some (sides (mix 3 (- 1) 2 4 6))), [reply 7 9 11], [reply 8 12 16], [reply 9 15 21], [reply 8 12 16].
  exists (line3 0 false (Some 6%R)), (line3 0 false (Some 10%R)), (line3 0 false (Some 5%R)), (line3 0 false (Some 3%R)), ma0, ma1, ma2, ma3, s0, s1, s2, s3. do 4 eexists.
  split; [split; [apply Hn|exact S0]|]. split; [split; [apply Hn|exact S1]|]. split; [split; [apply Hn|exact S2]|]. split; [split; [apply Hn|exact S3]|].
  split; [do 7 eexists; apply line3_model; intros; lra|]. split; [reflexivity|]. rewrite P0, P1, P2, P3. split; [right; exists 0%Z, 6%R; rewrite B0; left; reflexivity|].
  do 3 (split; [repeat constructor|]). split; [|split; [exact R0|split; [exact R1|split; [exact R2|split; [exact R3|auto]]]]]. split.
  - intros id. left. exists 0%R, 0%R, 0%R. rewrite mix_same. unfold well_gives. rewrite W0, W1, W2, W3. cbn. auto.
  - now apply (sides_mixed _ _ _ _ _ _ 2 4 6).
Qed.
(** C110: wells of rates -1/2 and 1 in two cells, alone and together; half the first. *)
Example ex_C110_interference_case : exists g f unit dt l1 ob i qi ri j qj rj st0 st1 st2 st3 st4 m0 ma0 ma1 ma2 ma3 ma4 s0 s1 s2 s3 s4 r0 r1 r2 r3 r4,
  let wi := Set_well (Some i) (Some qi) None ri None in let wj := Set_well (Some j) (Some qj) None rj None in let wh := Set_well (Some i) (Some (1 / 2 * qi)%R) None ri None in
  simulated g f unit (Some 6%R) dt l1 ob [] st0 m0 ma0 s0 /\ simulated g f unit (Some 6%R) dt l1 ob ([] ++ [wi]) st1 m0 ma1 s1 /\
  simulated g f unit (Some 6%R) dt l1 ob ([] ++ [wj]) st2 m0 ma2 s2 /\ simulated g f unit (Some 6%R) dt l1 ob (([] ++ [wi]) ++ [wj]) st3 m0 ma3 s3 /\ simulated g f unit (Some 6%R) dt l1 ob ([] ++ [wh]) st4 m0 ma4 s4 /\
  (exists x y z u dx dy dz, model m0 x y z u dx dy dz) /\ b_cmp m0 = true /\ Forall2 same_path st0 st1 /\ Forall2 same_path st0 st2 /\ Forall2 same_path st0 st3 /\ Forall2 same_path st0 st4 /\
  (let p := prepared m0 l1 ob [] in conditioned p /\ operated p /\ i <> j /\ dget i (b_wells p) = None /\ dget j (b_wells p) = None) /\
  nth_error (s_p s0) 1 = Some r0 /\ nth_error (s_p s1) 1 = Some r1 /\ nth_error (s_p s2) 1 = Some r2 /\ nth_error (s_p s3) 1 = Some r3 /\ nth_error (s_p s4) 1 = Some r4 /\ In 3%Z (b_ids m0) /\
  value r0 3 = Some 6%R /\ value r1 3 = Some (53 / 9)%R /\ value r2 3 = Some (119 / 18)%R /\ value r3 3 = Some (13 / 2)%R /\ value r4 3 = Some (107 / 18)%R.
Proof.
  destruct line3_made as (g & f & unit & dt & Hn).
  destruct (bare_run 6 6 6 6) as (p0 & ma0 & s0 & S0 & P0 & W0 & B0 & R0); try lra. destruct (pump_run 6 (-1 / 2) (107 / 18) (52 / 9) (53 / 9)) as (p1 & ma1 & s1 & w1 & S1 & _ & _ & _ & _ & R1); try lra.
  destruct (far_run 6 1 (109 / 18) (56 / 9) (119 / 18)) as (p2 & ma2 & s2 & w2 & S2 & _ & _ & _ & _ & R2); try lra. destruct (both_run 6 (-1 / 2) 1 6 6 (13 / 2)) as (p3 & ma3 & s3 & S3 & _ & R3); try lra.
  destruct (pump_run 6 (1 / 2 * (-1 / 2)) (215 / 36) (53 / 9) (107 / 18)) as (p4 & ma4 & s4 & w4 & S4 & _ & _ & _ & _ & R4); try lra.
  exists g, f, unit, dt, [], (Some (sides 0)), 2%Z, (-1 / 2)%R, (Some (1 / 2)%R), 3%Z, 1%R, (Some (1 / 2)%R), [reply 6 6 6], [reply (107 / 18) (52 / 9) (53 / 9)], [reply (109 / 18) (56 / 9) (119 / 18)], [reply 6 6 (13 / 2)], [reply (215 / 36) (53 / 9) (107 / 18)].
  exists (line3 (1 + 0) true (Some 6%R)), ma0, ma1, ma2, ma3, ma4, s0, s1, s2, s3, s4. do 5 eexists. cbv zeta. cbn [app]. fold (pump (-1 / 2)) (pump (1 / 2 * (-1 / 2))) (far 1).
  split; [split; [apply Hn|exact S0]|]. split; [split; [apply Hn|exact S1]|]. split; [split; [apply Hn|exact S2]|]. split; [split; [apply Hn|exact S3]|]. split; [split; [apply Hn|exact S4]|].
  split; [do 7 eexists; apply line3_model; intros; lra|]. split; [reflexivity|]. do 4 (split; [repeat constructor|]). rewrite P0, W0. split; [|split; [exact R0|split; [exact R1|split; [exact R2|split; [exact R3|split; [exact R4|split; [cbn; auto|auto]]]]]]].
  split; [now apply (sides_conditioned _ 0)|]. split; [intros id w; rewrite W0; discriminate|]. split; [lia|]. auto.
Qed.
