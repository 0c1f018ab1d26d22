(** Comparing simulations of one reservoir, and bounds on the pressures. *)
From Coq Require Import String ZArith Bool Arith List Lia Reals Lra.
From Verif Require Import Prelude PreludeFacts Num GridModel GridSpec GeoModel GeoSpec PropModel PropSpec
  UnitsModel BlackOilModel FdmModel MonadFacts HistSpec InvFacts AsmFacts ModelSpec ModelFacts VectFacts AssemblyThm Samples SampleFacts SampleWell SampleBal SolverSpec SolveSpec StepSpec StepFacts WellStepFacts
  BalanceSpec FdmSpec BalFacts CanonFacts StepBal SetupFacts BalanceThm ClosedSpec ClosedThm LocalSpec LocalThm SampleLocal TotalSpec TotalHist ChangeSpec ChangeFacts ChangeThm CompareSpec CompareFacts SampleCompare.
Import ListNotations.
Close Scope R_scope.
Open Scope nat_scope.

(** ** The interior initial pressures survive the setup *)
Definition started (ids : list Z) (p : R) (x : ws R) : Prop := snd x = None /\ forall id, In id ids -> value (b_ip (fst x)) id = Some p.
Lemma sd_same ids p (x x' : ws R) : snd x' = snd x -> b_ip (fst x') = b_ip (fst x) -> started ids p x -> started ids p x'.
Proof. intros E1 E2 (H1 & H2). split; [congruence|]. now rewrite E2. Qed.
Lemma sd_well ids p c x : sets_well c -> started ids p x -> started ids p (fst (exec c x)).
Proof.
  intros S H. destruct c as [cell q pwf r sk| | | | | | |]; try contradiction. destruct cell as [id|]; cbn [exec]; [|exact H].
  pose proof (WellThm.same_run id q pwf r sk x) as Q. apply (sd_same ids p x); auto; [apply Q|now apply (WellThm.same_ip id)].
Qed.
Lemma sd_wells ids p l : forall x, Forall sets_well l -> started ids p x -> started ids p (after x l).
Proof. induction l as [|c l IH]; intros x F H; cbn [after fold_left]; auto. inversion F; subst. apply IH; auto. now apply sd_well. Qed.
Lemma sd_boundary ids p id c v : (0 <= id)%Z -> ~ In id ids -> (forall i, In i ids -> (0 <= i)%Z) -> inv (started ids p) (set_boundary id c v).
Proof.
  intros Pi Ni Ps.
  assert (H1 : forall q, inv (started ids p) (put_rate id q)).
  { intros q. unfold put_rate. apply i_set. intros [m o] x' (H1 & H2) E. cbn [fst snd] in *. subst o. destruct (pyset (b_ir m) id q); [|discriminate]. cbn [rbind] in E. injection E as <-. destruct m. split; auto. }
  assert (H2 : forall q, inv (started ids p) (put_pressure id q)).
  { intros q. unfold put_pressure. apply i_set. intros [m o] x' (H2 & H3) E. cbn [fst snd] in *. subst o. destruct (pyset (b_ip m) id q) as [row|] eqn:Er; [|discriminate]. cbn [rbind] in E. injection E as <-.
    apply pyset_nat in Er as (L & ->); auto. split; [reflexivity|]. intros i I. rewrite <- (H3 i I). cbn [fst]. replace (b_ip (set_ip (upd (b_ip m) (Z.to_nat id) q) m)) with (upd (b_ip m) (Z.to_nat id) q) by now destruct m.
    apply value_upd; auto. intros ->. contradiction. }
  unfold set_boundary. isplit; auto.
Qed.
Lemma sd_boundaries ids p bd : (forall i, In i ids -> (0 <= i)%Z) -> Forall (fun e => (0 <= fst e)%Z /\ ~ In (fst e) ids) bd -> inv (started ids p) (set_boundaries bd).
Proof.
  intros Ps F. unfold set_boundaries.
  isplit.
  - apply i_set. intros [[] o] x' H E. injection E as <-. exact H.
  - match goal with H : In ?e bd |- _ => destruct e as [id [c v]]; rewrite Forall_forall in F; destruct (F _ H) as (Q1 & Q2) end. isplit. now apply sd_boundary.
  - apply i_set. intros [[] o] x' H E. injection E as <-. exact H.
Qed.
Lemma setup_started (g : gobj R) f unit pi dt m0 x y z u dx dy dz l1 ob l2 :
  bo_new g f unit (Some pi) dt = Ok m0 -> model m0 x y z u dx dy dz -> plain m0 l1 ob l2 -> started (b_ids m0) pi (after (m0, None) (setup l1 ob l2)).
Proof.
  intros Hn K (H1 & H2 & H3 & _). destruct (ip_new _ _ _ _ _ _ _ _ _ _ _ _ _ Hn K) as (U & _).
  assert (S0 : started (b_ids m0) pi (m0, None)) by (split; auto). apply (sd_wells _ _ l1) in S0; auto. unfold setup. rewrite !after_app. apply sd_wells; auto.
  destruct ob as [bd|]; cbn [after fold_left]; auto. apply (sd_boundaries (b_ids m0) pi bd); auto.
  - intros i I. now apply (ids_facts K).
  - destruct H1 as (_ & H1). eapply Forall_impl; [|exact H1]. intros e Fe. destruct (face_facts K _ Fe) as (Q1 & Q2). split; [lia|auto].
Qed.

(** ** A simulation, from the set up model on *)
Lemma sim_start (g : gobj R) f unit pi dt l1 ob l2 st m0 m s x y z u dx dy dz : simulated g f unit pi dt l1 ob l2 st m0 m s -> model m0 x y z u dx dy dz ->
  let p := prepared m0 l1 ob l2 in core p = core m0 /\ ready (m := p) (fdm_new p) /\ all_ok (p, Some (fdm_new p)) st /\ along balanced_step (p, Some (fdm_new p)) st /\
    after (p, Some (fdm_new p)) st = (m, Some s) /\ s_p (fdm_new p) = [b_ip p] /\ forall v, pi = Some v -> uniform m0 v (b_ip p).
Proof.
  intros (Hn & P & A & L & E) K. apply all_ok_app in A as (A1 & A2). pose proof (setup_ready _ _ _ _ _ _ _ _ _ _ _ _ _ _ _ _ Hn K P A1) as H. cbn zeta in H.
  assert (St : forall v, pi = Some v -> started (b_ids m0) v (after (m0, None) (setup l1 ob l2))) by (intros v ->; eapply setup_started; eauto).
  unfold prepared. rewrite after_app in L, E. cbn [all_ok after fold_left] in A2, L, E. destruct A2 as (_ & A2). destruct (after (m0, None) (setup l1 ob l2)) as [p o]. cbn in A2, L, E, H, St |- *.
  destruct H as (C & R). repeat (split; auto). intros v Ev id I. now apply (St v Ev).
Qed.
Lemma rows_at {A} (Q : A -> A -> Prop) a1 a2 P1 P2 k r1 r2 : Q a1 a2 -> Forall2 Q P1 P2 -> nth_error ([a1] ++ P1) k = Some r1 -> nth_error ([a2] ++ P2) k = Some r2 -> Q r1 r2.
Proof.
  intros H0 F. destruct k as [|k]; cbn; [intros [= <-] [= <-]; auto|]. revert k. induction F as [|b1 b2 P1 P2 H F IH]; intros [|k] E1 E2; cbn in *; try discriminate; [congruence|eauto].
Qed.
Lemma rows_after {A} (Q : A -> A -> Prop) a1 a2 P1 P2 k r1 r2 : Forall2 Q P1 P2 -> nth_error ([a1] ++ P1) (S k) = Some r1 -> nth_error ([a2] ++ P2) (S k) = Some r2 -> Q r1 r2.
Proof.
  intros F. cbn. revert k. induction F as [|b1 b2 P1 P2 H F IH]; intros [|k] E1 E2; cbn in *; try discriminate; [congruence|eauto].
Qed.
Lemma sim_compare (g : gobj R) f unit pi1 pi2 dt l1 ob l2 l1' ob' l2' st1 st2 m1 m2 ma mb s1 s2 x y z u dx dy dz c :
  simulated g f unit pi1 dt l1 ob l2 st1 m1 ma s1 -> simulated g f unit pi2 dt l1' ob' l2' st2 m2 mb s2 ->
  model m1 x y z u dx dy dz -> Forall2 same_path st1 st2 -> controls_below c (prepared m1 l1 ob l2) (prepared m2 l1' ob' l2') ->
  (b_cmp m1 = true /\ (exists p1 p2, pi1 = Some p1 /\ pi2 = Some p2 /\ (p1 + c <= p2)%R) \/
   b_cmp m1 = false /\ anchored (prepared m1 l1 ob l2)) ->
  exists P1 P2, s_p s1 = ([b_ip (prepared m1 l1 ob l2)] ++ P1)%list /\ s_p s2 = ([b_ip (prepared m2 l1' ob' l2')] ++ P2)%list /\ Forall2 (below m1 c) P1 P2 /\
    (b_cmp m1 = true -> below m1 c (b_ip (prepared m1 l1 ob l2)) (b_ip (prepared m2 l1' ob' l2'))).
Proof.
  intros S1 S2 K Sp Cb Hc. assert (C12 : core m1 = core m2) by (eapply core_new; [apply S1|apply S2]). pose proof (model_core _ _ _ _ _ _ _ _ _ C12 K) as K2.
  destruct (sim_start _ _ _ _ _ _ _ _ _ _ _ _ _ _ _ _ _ _ _ S1 K) as (C1 & R1 & A1 & L1 & E1 & I1 & U1). destruct (sim_start _ _ _ _ _ _ _ _ _ _ _ _ _ _ _ _ _ _ _ S2 K2) as (C2 & R2 & A2 & L2 & E2 & I2 & U2).
  set (p1 := prepared m1 l1 ob l2) in *. set (p2 := prepared m2 l1' ob' l2') in *.
  assert (B0 : b_cmp m1 = true -> below m1 c (b_ip p1) (b_ip p2)).
  { intros Cm. destruct Hc as [(_ & v1 & v2 & -> & -> & Le)|(Q & _)]; [|congruence]. intros id I. exists v1, v2. split; [now apply (U1 v1)|]. split; auto. apply (U2 v2); auto. destruct (core_fields _ _ C12) as (_ & <- & _). exact I. }
  destruct (compare_history m1 x y z u dx dy dz K c st1 st2 Sp p1 (fdm_new p1) p2 (fdm_new p2) ma s1 mb s2) as (P1 & P2 & Q1 & Q2 & Q3); auto; [congruence| |].
  - destruct Hc as [(Cm & _)|Hc]; [left|right; auto]. split; [exact Cm|exact (B0 Cm)].
  - exists P1, P2. rewrite I1 in Q1. rewrite I2 in Q2. auto.
Qed.

(** C104: two simulations of one compressible reservoir, path by path alike. If the
    controls of the first draw more and its initial pressure is at least [c] smaller
    than that of the second, so is every pressure in every step. *)
Lemma L_C104_comparison :
  forall (g : gobj R) f unit pi1 pi2 dt l1 ob l2 l1' ob' l2' st1 st2 m1 m2 ma mb s1 s2 x y z u dx dy dz c k r1 r2,
  simulated g f unit (Some pi1) dt l1 ob l2 st1 m1 ma s1 -> simulated g f unit (Some pi2) dt l1' ob' l2' st2 m2 mb s2 ->
  model m1 x y z u dx dy dz -> b_cmp m1 = true -> Forall2 same_path st1 st2 ->
  controls_below c (prepared m1 l1 ob l2) (prepared m2 l1' ob' l2') -> (pi1 + c <= pi2)%R ->
  nth_error (s_p s1) k = Some r1 -> nth_error (s_p s2) k = Some r2 -> below m1 c r1 r2.
Proof.
  intros g f unit pi1 pi2 dt l1 ob l2 l1' ob' l2' st1 st2 m1 m2 ma mb s1 s2 x y z u dx dy dz c k r1 r2 S1 S2 K Cm Sp Cb Le N1 N2.
  destruct (sim_compare _ _ _ _ _ _ _ _ _ _ _ _ _ _ _ _ _ _ _ _ _ _ _ _ _ _ _ c S1 S2 K Sp Cb) as (P1 & P2 & Q1 & Q2 & Q3 & Q4); [left; eauto 7|].
  rewrite Q1 in N1. rewrite Q2 in N2. exact (rows_at (below m1 c) _ _ _ _ k r1 r2 (Q4 Cm) Q3 N1 N2).
Qed.
(** C104, incompressible: with a pressure held somewhere the controls alone decide,
    whatever the initial pressures. *)
Lemma L_C104_comparison_steady :
  forall (g : gobj R) f unit pi1 pi2 dt l1 ob l2 l1' ob' l2' st1 st2 m1 m2 ma mb s1 s2 x y z u dx dy dz c k r1 r2,
  simulated g f unit pi1 dt l1 ob l2 st1 m1 ma s1 -> simulated g f unit pi2 dt l1' ob' l2' st2 m2 mb s2 ->
  model m1 x y z u dx dy dz -> b_cmp m1 = false -> Forall2 same_path st1 st2 ->
  anchored (prepared m1 l1 ob l2) ->
  controls_below c (prepared m1 l1 ob l2) (prepared m2 l1' ob' l2') ->
  nth_error (s_p s1) (S k) = Some r1 -> nth_error (s_p s2) (S k) = Some r2 -> below m1 c r1 r2.
Proof.
  intros g f unit pi1 pi2 dt l1 ob l2 l1' ob' l2' st1 st2 m1 m2 ma mb s1 s2 x y z u dx dy dz c k r1 r2 S1 S2 K Cm Sp An Cb N1 N2.
  destruct (sim_compare _ _ _ _ _ _ _ _ _ _ _ _ _ _ _ _ _ _ _ _ _ _ _ _ _ _ _ c S1 S2 K Sp Cb) as (P1 & P2 & Q1 & Q2 & Q3 & _); [right; auto|].
  rewrite Q1 in N1. rewrite Q2 in N2. exact (rows_after (below m1 c) _ _ _ _ k r1 r2 Q3 N1 N2).
Qed.

(** ** The same controls *)
Lemma controls_refl c (p1 p2 : bo R) x y z u dx dy dz s : model p1 x y z u dx dy dz -> core p1 = core p2 -> ready (m := p1) s -> same_controls p1 p2 -> conditioned p1 -> operated p1 ->
  (c <= 0)%R \/ rates_only p1 -> controls_below c p1 p2 /\ controls_below c p2 p1.
Proof.
  intros K C Rd Sc Cn Op Hc.
  assert (W : forall id, match dget id (b_wells p1), dget id (b_wells p2) with
    | Some w1, Some w2 => (exists q, at_rate w1 q /\ at_rate w2 q) \/ ((c <= 0)%R /\ exists G p, at_bhp w1 G p /\ at_bhp w2 G p /\ (0 <= G)%R) | None, None => True | _, _ => False end).
  { intros id. pose proof (controls_get p1 p2 id Sc) as Q. destruct (dget id (b_wells p1)) as [w1|] eqn:E1, (dget id (b_wells p2)) as [w2|] eqn:E2; try contradiction; auto. destruct Q as (Q1 & Q2).
    destruct Hc as [Hc|(Hc & _)].
    - destruct (Op id w1 E1) as [(q & A)|(G & p & A & L)]; [left; exists q; split; auto; now apply Q1|right; split; auto; exists G, p; split; auto; split; auto; now apply Q2].
    - destruct (Hc id w1 E1) as (q & A). left; exists q; split; auto; now apply Q1. }
  assert (B : forall idb e, dget idb (b_bdict p1) = Some e -> (fst e = "pressure"%string /\ (c <= 0)%R) \/ exists r, rate_given p1 idb e r /\ rate_given p2 idb e r).
  { intros idb [cd v] E. apply dget_In in E. destruct (Cn _ E) as [Q|Q]; cbn [fst snd] in *.
    - left. split; auto. destruct Hc as [|(_ & Hc)]; auto. exfalso. exact (Hc _ E Q).
    - right. assert (R : exists r, rate_given p1 idb (cd, v) r).
      { destruct Q as [Q|Q]; [exists v; left; auto|]. destruct (gradient_ok K idb v (r_bf _ Rd _ E)) as (r & G1 & _). exists r. right. auto. }
      destruct R as (r & R). exists r. split; auto. now apply (rate_given_core p2 p1). }
  destruct Sc as (Eb & _). split; split.
  - intros id. specialize (W id). destruct (dget id (b_wells p1)), (dget id (b_wells p2)); try contradiction; auto. destruct W as [(q & A1 & A2)|(Le & G & p & A1 & A2 & A3)]; [left; exists q, q|right; exists G, p, p]; repeat (split; [assumption|]); lra.
  - intros idb. rewrite Eb. specialize (B idb). destruct (dget idb (b_bdict p1)) as [e|]; auto. destruct (B e eq_refl) as [(A1 & A2)|(r & A1 & A2)]; [left|right; exists r, r]; repeat (split; [assumption|]); lra.
  - intros id. specialize (W id). destruct (dget id (b_wells p1)), (dget id (b_wells p2)); try contradiction; auto. destruct W as [(q & A1 & A2)|(Le & G & p & A1 & A2 & A3)]; [left; exists q, q|right; exists G, p, p]; repeat (split; [assumption|]); lra.
  - intros idb. rewrite Eb. specialize (B idb). destruct (dget idb (b_bdict p1)) as [e|]; auto. destruct (B e eq_refl) as [(A1 & A2)|(r & A1 & A2)]; [left|right; exists r, r]; repeat (split; [assumption|]); lra.
Qed.
Lemma same_path_sym l l' : Forall2 same_path l l' -> Forall2 same_path l' l.
Proof. induction 1 as [|c c' l l' H F IH]; constructor; auto. destruct c, c'; try contradiction. cbn in *. congruence. Qed.
Lemma below_core m m' c r1 r2 : b_ids m = b_ids m' -> below m c r1 r2 -> below m' c r1 r2.
Proof. unfold below. now intros ->. Qed.

(** C105: the same controls on a compressible reservoir: the pressures of two
    simulations never differ by more than their initial pressures. *)
Lemma L_C105_initial_pressure :
  forall (g : gobj R) f unit pi1 pi2 dt l1 ob l2 l1' ob' l2' st1 st2 m1 m2 ma mb s1 s2 x y z u dx dy dz k r1 r2,
  simulated g f unit (Some pi1) dt l1 ob l2 st1 m1 ma s1 -> simulated g f unit (Some pi2) dt l1' ob' l2' st2 m2 mb s2 ->
  model m1 x y z u dx dy dz -> b_cmp m1 = true -> Forall2 same_path st1 st2 ->
  let p1 := prepared m1 l1 ob l2 in same_controls p1 (prepared m2 l1' ob' l2') -> conditioned p1 -> operated p1 ->
  nth_error (s_p s1) k = Some r1 -> nth_error (s_p s2) k = Some r2 -> near m1 (Rabs (pi1 - pi2)) r1 r2.
Proof.
  intros g f unit pi1 pi2 dt l1 ob l2 l1' ob' l2' st1 st2 m1 m2 ma mb s1 s2 x y z u dx dy dz k r1 r2 S1 S2 K Cm Sp p1 Sc Cn Op N1 N2.
  assert (C12 : core m1 = core m2) by (eapply core_new; [apply S1|apply S2]). pose proof (model_core _ _ _ _ _ _ _ _ _ C12 K) as K2. destruct (core_fields _ _ C12) as (_ & Ci & _ & _ & _ & _ & _ & _ & _ & Cc & _).
  destruct (sim_start _ _ _ _ _ _ _ _ _ _ _ _ _ _ _ _ _ _ _ S1 K) as (C1 & R1 & _). destruct (sim_start _ _ _ _ _ _ _ _ _ _ _ _ _ _ _ _ _ _ _ S2 K2) as (C2 & R2 & _).
  assert (Ha : (- Rabs (pi1 - pi2) <= 0)%R) by (pose proof (Rabs_pos (pi1 - pi2)); lra). pose proof (Rle_abs (pi1 - pi2)) as Hb. pose proof (Rle_abs (- (pi1 - pi2))) as Hd. rewrite Rabs_Ropp in Hd.
  destruct (controls_refl (- Rabs (pi1 - pi2)) p1 (prepared m2 l1' ob' l2') x y z u dx dy dz _ (model_core _ _ _ _ _ _ _ _ _ (eq_sym C1) K) ltac:(unfold p1; congruence) R1 Sc Cn Op (or_introl Ha)) as (B1 & B2).
  pose proof (L_C104_comparison _ _ _ _ _ _ _ _ _ _ _ _ _ _ _ _ _ _ _ _ _ _ _ _ _ _ _ (- Rabs (pi1 - pi2))%R k r1 r2 S1 S2 K Cm Sp B1 ltac:(lra) N1 N2) as Q1.
  pose proof (L_C104_comparison _ _ _ _ _ _ _ _ _ _ _ _ _ _ _ _ _ _ _ _ _ _ _ _ _ _ _ (- Rabs (pi1 - pi2))%R k r2 r1 S2 S1 K2 ltac:(congruence) (same_path_sym _ _ Sp) B2 ltac:(lra) N2 N1) as Q2.
  intros id I. destruct (Q1 id I) as (v1 & v2 & E1 & E2 & L). destruct (Q2 id) as (v2' & v1' & E2' & E1' & L'); [now rewrite <- Ci|]. rewrite E1 in E1'. rewrite E2 in E2'. injection E1' as <-. injection E2' as <-.
  exists v1, v2. split; auto. split; auto. apply Rabs_le. lra.
Qed.
(** C105: if moreover no control is a pressure, the difference of the initial
    pressures stays exactly, in every cell and step. *)
Lemma L_C105_shift :
  forall (g : gobj R) f unit pi1 pi2 dt l1 ob l2 l1' ob' l2' st1 st2 m1 m2 ma mb s1 s2 x y z u dx dy dz k r1 r2,
  simulated g f unit (Some pi1) dt l1 ob l2 st1 m1 ma s1 -> simulated g f unit (Some pi2) dt l1' ob' l2' st2 m2 mb s2 ->
  model m1 x y z u dx dy dz -> b_cmp m1 = true -> Forall2 same_path st1 st2 ->
  let p1 := prepared m1 l1 ob l2 in same_controls p1 (prepared m2 l1' ob' l2') -> conditioned p1 -> rates_only p1 ->
  nth_error (s_p s1) k = Some r1 -> nth_error (s_p s2) k = Some r2 -> shifted m1 (pi2 - pi1) r1 r2.
Proof.
  intros g f unit pi1 pi2 dt l1 ob l2 l1' ob' l2' st1 st2 m1 m2 ma mb s1 s2 x y z u dx dy dz k r1 r2 S1 S2 K Cm Sp p1 Sc Cn Ro N1 N2.
  assert (C12 : core m1 = core m2) by (eapply core_new; [apply S1|apply S2]). pose proof (model_core _ _ _ _ _ _ _ _ _ C12 K) as K2. destruct (core_fields _ _ C12) as (_ & Ci & _ & _ & _ & _ & _ & _ & _ & Cc & _).
  destruct (sim_start _ _ _ _ _ _ _ _ _ _ _ _ _ _ _ _ _ _ _ S1 K) as (C1 & R1 & _). destruct (sim_start _ _ _ _ _ _ _ _ _ _ _ _ _ _ _ _ _ _ _ S2 K2) as (C2 & R2 & _).
  assert (Op : operated p1) by (intros id w E; left; now apply (proj1 Ro id w)).
  assert (B : forall c, controls_below c p1 (prepared m2 l1' ob' l2') /\ controls_below c (prepared m2 l1' ob' l2') p1).
  { intros c. apply (controls_refl c p1 (prepared m2 l1' ob' l2') x y z u dx dy dz (fdm_new p1)); auto; [now apply (model_core m1); [symmetry|]|unfold p1; congruence]. }
  pose proof (L_C104_comparison _ _ _ _ _ _ _ _ _ _ _ _ _ _ _ _ _ _ _ _ _ _ _ _ _ _ _ (pi2 - pi1)%R k r1 r2 S1 S2 K Cm Sp (proj1 (B _)) ltac:(lra) N1 N2) as Q1.
  pose proof (L_C104_comparison _ _ _ _ _ _ _ _ _ _ _ _ _ _ _ _ _ _ _ _ _ _ _ _ _ _ _ (pi1 - pi2)%R k r2 r1 S2 S1 K2 ltac:(congruence) (same_path_sym _ _ Sp) (proj2 (B _)) ltac:(lra) N2 N1) as Q2.
  intros id I. destruct (Q1 id I) as (v1 & v2 & E1 & E2 & L). destruct (Q2 id) as (v2' & v1' & E2' & E1' & L'); [now rewrite <- Ci|]. rewrite E1 in E1'. rewrite E2 in E2'. injection E1' as <-. injection E2' as <-.
  exists v1. split; auto. rewrite E2. f_equal. lra.
Qed.
(** C105, incompressible with a pressure held somewhere: the same controls give the
    same pressures in every step, whatever the initial pressure, and whatever the
    steps before. *)
Lemma L_C105_steady :
  forall (g : gobj R) f unit pi1 pi2 dt l1 ob l2 l1' ob' l2' st1 st2 m1 m2 ma mb s1 s2 x y z u dx dy dz k r1 r2,
  simulated g f unit pi1 dt l1 ob l2 st1 m1 ma s1 -> simulated g f unit pi2 dt l1' ob' l2' st2 m2 mb s2 ->
  model m1 x y z u dx dy dz -> b_cmp m1 = false -> Forall2 same_path st1 st2 ->
  let p1 := prepared m1 l1 ob l2 in same_controls p1 (prepared m2 l1' ob' l2') -> anchored p1 -> conditioned p1 -> operated p1 ->
  nth_error (s_p s1) (S k) = Some r1 -> nth_error (s_p s2) (S k) = Some r2 -> same_pressures m1 r1 r2.
Proof.
  intros g f unit pi1 pi2 dt l1 ob l2 l1' ob' l2' st1 st2 m1 m2 ma mb s1 s2 x y z u dx dy dz k r1 r2 S1 S2 K Cm Sp p1 Sc An Cn Op N1 N2.
  assert (C12 : core m1 = core m2) by (eapply core_new; [apply S1|apply S2]). pose proof (model_core _ _ _ _ _ _ _ _ _ C12 K) as K2. destruct (core_fields _ _ C12) as (Cg & Ci & _ & _ & _ & _ & _ & _ & _ & Cc & _).
  destruct (sim_start _ _ _ _ _ _ _ _ _ _ _ _ _ _ _ _ _ _ _ S1 K) as (C1 & R1 & _). destruct (sim_start _ _ _ _ _ _ _ _ _ _ _ _ _ _ _ _ _ _ _ S2 K2) as (C2 & R2 & _).
  destruct (controls_refl 0 p1 (prepared m2 l1' ob' l2') x y z u dx dy dz _ (model_core _ _ _ _ _ _ _ _ _ (eq_sym C1) K) ltac:(unfold p1; congruence) R1 Sc Cn Op (or_introl (Rle_refl 0))) as (B1 & B2).
  pose proof (L_C104_comparison_steady _ _ _ _ _ _ _ _ _ _ _ _ _ _ _ _ _ _ _ _ _ _ _ _ _ _ _ 0%R k r1 r2 S1 S2 K Cm Sp An B1 N1 N2) as Q1.
  pose proof (L_C104_comparison_steady _ _ _ _ _ _ _ _ _ _ _ _ _ _ _ _ _ _ _ _ _ _ _ _ _ _ _ 0%R k r2 r1 S2 S1 K2 ltac:(congruence) (same_path_sym _ _ Sp) (anchored_kept _ _ Sc An) B2 N2 N1) as Q2.
  intros id I. destruct (Q1 id I) as (v1 & v2 & E1 & E2 & L). destruct (Q2 id) as (v2' & v1' & E2' & E1' & L'); [now rewrite <- Ci|]. rewrite E1 in E1'. rewrite E2 in E2'. injection E1' as <-. injection E2' as <-.
  exists v1. split; auto. rewrite E2. f_equal. lra.
Qed.

(** ** One step, after histories of any steps and changes of controls *)
(** C104, step by step: after any two histories of one reservoir, controls changed
    on the way, a step from pressures below pressures, under controls below
    controls, leads to pressures below pressures. *)
Lemma L_C104_comparison_step :
  forall (g : gobj R) f unit pi1 pi2 dt m0 m0' x y z u dx dy dz l1 ob l2 l1' ob' l2' hist hist' slv sc fuel sparse o slv' sc' fuel' sparse' o' ma sa mb sb ma' sa' mb' sb' c,
  bo_new g f unit pi1 dt = Ok m0 -> bo_new g f unit pi2 dt = Ok m0' -> model m0 x y z u dx dy dz -> plain m0 l1 ob l2 -> plain m0' l1' ob' l2' ->
  all_ok (m0, None) (setup l1 ob l2 ++ Compile :: hist ++ [Solve slv sc fuel sparse o]) ->
  all_ok (m0', None) (setup l1' ob' l2' ++ Compile :: hist' ++ [Solve slv' sc' fuel' sparse' o']) ->
  along live (after (m0, None) (setup l1 ob l2 ++ [Compile])) (hist ++ [Solve slv sc fuel sparse o]) ->
  along live (after (m0', None) (setup l1' ob' l2' ++ [Compile])) (hist' ++ [Solve slv' sc' fuel' sparse' o']) ->
  after (m0, None) (setup l1 ob l2 ++ Compile :: hist) = (ma, Some sa) ->
  after (m0, None) (setup l1 ob l2 ++ Compile :: hist ++ [Solve slv sc fuel sparse o]) = (mb, Some sb) ->
  after (m0', None) (setup l1' ob' l2' ++ Compile :: hist') = (ma', Some sa') ->
  after (m0', None) (setup l1' ob' l2' ++ Compile :: hist' ++ [Solve slv' sc' fuel' sparse' o']) = (mb', Some sb') ->
  controls_below c ma ma' -> (if b_cmp m0 then below m0 c (last (s_p sa) []) (last (s_p sa') []) else anchored ma) ->
  below m0 c (last (s_p sb) []) (last (s_p sb') []).
Proof.
  intros g f unit pi1 pi2 dt m0 m0' x y z u dx dy dz l1 ob l2 l1' ob' l2' hist hist' slv sc fuel sparse o slv' sc' fuel' sparse' o' ma sa mb sb ma' sa' mb' sb' c N1 N2 K P1 P2 A1 A2 L1 L2 Ea Eb Ea' Eb' Cb Hc.
  assert (C12 : core m0 = core m0') by (eapply core_new; eauto). pose proof (model_core _ _ _ _ _ _ _ _ _ C12 K) as K2.
  destruct (live_step _ _ _ _ _ _ _ _ _ _ _ _ _ _ _ _ _ _ _ _ _ _ _ _ _ _ N1 K P1 A1 L1 Ea Eb) as ((Ca & Ra & _) & (Cb1 & Rb & _) & Sc & V & new & rates & Q1 & Q2 & Q3 & _).
  destruct (live_step _ _ _ _ _ _ _ _ _ _ _ _ _ _ _ _ _ _ _ _ _ _ _ _ _ _ N2 K2 P2 A2 L2 Ea' Eb') as ((Ca' & Ra' & _) & (Cb' & Rb' & _) & Sc' & V' & new' & rates' & Q1' & Q2' & Q3' & _).
  rewrite Q1, Q1', !last_last.
  assert (T1 : stepped m0 true ma mb sa sb new rates) by (constructor; auto; [apply Sc|exists o; auto]).
  assert (T2 : stepped m0 true ma' mb' sa' sb' new' rates') by (constructor; auto; [congruence|congruence|apply Sc'|exists o'; auto]).
  apply (compare_step m0 x y z u dx dy dz K c true ma mb sa sb new rates ma' mb' sa' sb' new' rates' T1 T2); [apply (below_kept c ma ma'); auto; congruence|].
  destruct (b_cmp m0); [left; auto|right]. split; auto. now apply (anchored_kept ma).
Qed.

(** ** More production *)
Lemma setup_more {F} l1 ob l2 (c : call F) : setup l1 ob (l2 ++ [c]) = (setup l1 ob l2 ++ [c])%list.
Proof. unfold setup. now rewrite !app_assoc. Qed.
Lemma more_prepared m0 l1 ob l2 id q pwf r sk : snd (exec (Set_well (Some id) (Some q) pwf r sk) (after (m0, None) (setup l1 ob l2))) = Ok tt ->
  let p := prepared m0 l1 ob l2 in let p1 := prepared m0 l1 ob (l2 ++ [Set_well (Some id) (Some q) pwf r sk]) in
  (exists w, dget id (b_wells p1) = Some w /\ at_rate w q) /\ (forall i, i <> id -> dget i (b_wells p1) = dget i (b_wells p)) /\ b_bdict p1 = b_bdict p.
Proof.
  intros E p p1. unfold p1, p, prepared. rewrite setup_more, after_app. cbn [after fold_left exec] in *. set (X := after (m0, None) (setup l1 ob l2)) in *.
  destruct (W_given X id (Some q) pwf r sk E) as ((w & Ew & G1 & _ & G2) & _). pose proof (WellThm.same_run id (Some q) pwf r sk X) as (_ & Q2 & Q3). split; [exists w; split; [exact Ew|split; auto]|]. split.
  - intros i Ni. apply (Q3 i Ni).
  - apply (f_equal (@b_bdict R)) in Q2. destruct (fst X), (fst (fst (set_well (Some id) (Some q) pwf r sk X))). exact Q2.
Qed.
Lemma more_controls (g : gobj R) f unit pi dt l1 ob l2 id q pwf r sk st1 st2 m1 m2 ma mb s1 s2 x y z u dx dy dz :
  simulated g f unit pi dt l1 ob (l2 ++ [Set_well (Some id) (Some q) pwf r sk]) st1 m1 ma s1 -> simulated g f unit pi dt l1 ob l2 st2 m2 mb s2 ->
  model m1 x y z u dx dy dz -> let p := prepared m1 l1 ob l2 in conditioned p -> operated p ->
  m1 = m2 /\ let p1 := prepared m1 l1 ob (l2 ++ [Set_well (Some id) (Some q) pwf r sk]) in
  ((match dget id (b_wells p) with Some w => exists q', at_rate w q' /\ (q <= q')%R | None => (q <= 0)%R end) -> controls_below 0 p1 p) /\
  ((match dget id (b_wells p) with Some w => exists q', at_rate w q' /\ (q' <= q)%R | None => (0 <= q)%R end) -> controls_below 0 p p1).
Proof.
  intros S1 S2 K p Cn Op. assert (E12 : m1 = m2) by (destruct S1 as (A & _), S2 as (B & _); congruence). subst m2. split; auto. intros p1.
  destruct (sim_start _ _ _ _ _ _ _ _ _ _ _ _ _ _ _ _ _ _ _ S1 K) as (C1 & R1 & _). destruct (sim_start _ _ _ _ _ _ _ _ _ _ _ _ _ _ _ _ _ _ _ S2 K) as (C2 & R2 & _). fold p in C2, R2. fold p1 in C1, R1.
  assert (Ew : snd (exec (Set_well (Some id) (Some q) pwf r sk) (after (m1, None) (setup l1 ob l2))) = Ok tt).
  { destruct S1 as (_ & _ & A & _). rewrite setup_more, <- app_assoc in A. apply all_ok_app in A as (_ & A). cbn [app all_ok] in A. apply A. }
  destruct (more_prepared m1 l1 ob l2 id q pwf r sk Ew) as ((w & Wi & Wq) & We & Bd). fold p p1 in Wi, We, Bd.
  assert (Sc : same_controls p p) by (repeat split; auto; intros i v E; eauto).
  destruct (controls_refl 0 p p x y z u dx dy dz _ (model_core _ _ _ _ _ _ _ _ _ (eq_sym C2) K) eq_refl R2 Sc Cn Op (or_introl (Rle_refl 0))) as ((Bw & Bc) & _).
  split; intros Hq; split.
  - intros i. destruct (Z.eq_dec i id) as [->|Ni]; [|rewrite (We i Ni); apply Bw]. rewrite Wi. destruct (dget id (b_wells p)) as [w'|]; [|exists q; auto]. destruct Hq as (q' & A & L). left. exists q, q'. auto.
  - intros idb. rewrite Bd. specialize (Bc idb). destruct (dget idb (b_bdict p)); auto. destruct Bc as [A|(r1 & r2 & A1 & A2 & L)]; [left; auto|right]. exists r1, r2. split; auto. apply (rate_given_core p1 p); auto; congruence.
  - intros i. destruct (Z.eq_dec i id) as [->|Ni]; [|rewrite (We i Ni); apply Bw]. rewrite Wi. destruct (dget id (b_wells p)) as [w'|]; [|exists q; auto]. destruct Hq as (q' & A & L). left. exists q', q. auto.
  - intros idb. rewrite Bd. specialize (Bc idb). destruct (dget idb (b_bdict p)); auto. destruct Bc as [A|(r1 & r2 & A1 & A2 & L)]; [left; auto|right]. exists r1, r2. split; auto. split; auto. apply (rate_given_core p1 p); auto; congruence.
Qed.
(** C106: one more producing well, or a well set to produce more, leaves no cell with
    a higher pressure in any step. *)
Lemma L_C106_more_production :
  forall (g : gobj R) f unit pi dt l1 ob l2 id q pwf r sk st1 st2 m1 m2 ma mb s1 s2 x y z u dx dy dz k r1 r2,
  simulated g f unit (Some pi) dt l1 ob (l2 ++ [Set_well (Some id) (Some q) pwf r sk]) st1 m1 ma s1 -> simulated g f unit (Some pi) dt l1 ob l2 st2 m2 mb s2 ->
  model m1 x y z u dx dy dz -> b_cmp m1 = true -> Forall2 same_path st1 st2 ->
  let p := prepared m1 l1 ob l2 in conditioned p -> operated p ->
  (match dget id (b_wells p) with Some w => exists q', at_rate w q' /\ (q <= q')%R | None => (q <= 0)%R end) ->
  nth_error (s_p s1) k = Some r1 -> nth_error (s_p s2) k = Some r2 -> below m1 0 r1 r2.
Proof.
  intros g f unit pi dt l1 ob l2 id q pwf r sk st1 st2 m1 m2 ma mb s1 s2 x y z u dx dy dz k r1 r2 S1 S2 K Cm Sp p Cn Op Hq N1 N2.
  destruct (more_controls _ _ _ _ _ _ _ _ _ _ _ _ _ _ _ _ _ _ _ _ _ _ _ _ _ _ _ _ S1 S2 K Cn Op) as (<- & B & _).
  exact (L_C104_comparison _ _ _ _ _ _ _ _ _ _ _ _ _ _ _ _ _ _ _ _ _ _ _ _ _ _ _ 0%R k r1 r2 S1 S2 K Cm Sp (B Hq) ltac:(lra) N1 N2).
Qed.
(** C106: one more injecting well, or a well set to inject more, leaves no cell with a
    lower pressure in any step. *)
Lemma L_C106_more_injection :
  forall (g : gobj R) f unit pi dt l1 ob l2 id q pwf r sk st1 st2 m1 m2 ma mb s1 s2 x y z u dx dy dz k r1 r2,
  simulated g f unit (Some pi) dt l1 ob (l2 ++ [Set_well (Some id) (Some q) pwf r sk]) st1 m1 ma s1 -> simulated g f unit (Some pi) dt l1 ob l2 st2 m2 mb s2 ->
  model m1 x y z u dx dy dz -> b_cmp m1 = true -> Forall2 same_path st1 st2 ->
  let p := prepared m1 l1 ob l2 in conditioned p -> operated p ->
  (match dget id (b_wells p) with Some w => exists q', at_rate w q' /\ (q' <= q)%R | None => (0 <= q)%R end) ->
  nth_error (s_p s1) k = Some r1 -> nth_error (s_p s2) k = Some r2 -> below m1 0 r2 r1.
Proof.
  intros g f unit pi dt l1 ob l2 id q pwf r sk st1 st2 m1 m2 ma mb s1 s2 x y z u dx dy dz k r1 r2 S1 S2 K Cm Sp p Cn Op Hq N1 N2.
  destruct (more_controls _ _ _ _ _ _ _ _ _ _ _ _ _ _ _ _ _ _ _ _ _ _ _ _ _ _ _ _ S1 S2 K Cn Op) as (<- & _ & B).
  exact (L_C104_comparison _ _ _ _ _ _ _ _ _ _ _ _ _ _ _ _ _ _ _ _ _ _ _ _ _ _ _ 0%R k r2 r1 S2 S1 K Cm (same_path_sym _ _ Sp) (B Hq) ltac:(lra) N2 N1).
Qed.

(** ** Bounds *)
Lemma rows_all {A} (Q : A -> Prop) a P k r : Q a \/ k <> 0 -> Forall Q P -> nth_error ([a] ++ P) k = Some r -> Q r.
Proof. intros H0 F E. destruct k as [|k]; cbn in E; [injection E as <-; destruct H0; [auto|congruence]|]. rewrite Forall_forall in F. apply F. eapply nth_error_In; eauto. Qed.
Lemma sim_bound sg M (g : gobj R) f unit pi dt l1 ob l2 st m0 m s x y z u dx dy dz k row : (sg = 1 \/ sg = -1)%R ->
  simulated g f unit pi dt l1 ob l2 st m0 m s -> model m0 x y z u dx dy dz -> flat m0 -> bounded sg M (prepared m0 l1 ob l2) ->
  (b_cmp m0 = true /\ (exists p, pi = Some p /\ (sg * p <= sg * M)%R) \/ b_cmp m0 = false /\ anchored (prepared m0 l1 ob l2) /\ k <> 0) ->
  nth_error (s_p s) k = Some row -> on_side m0 sg M row.
Proof.
  intros Sg S K Ft B Hc N. destruct (sim_start _ _ _ _ _ _ _ _ _ _ _ _ _ _ _ _ _ _ _ S K) as (C & R & A & L & E & I & U). set (p := prepared m0 l1 ob l2) in *.
  assert (B0 : b_cmp m0 = true -> on_side m0 sg M (b_ip p)).
  { intros Cm. destruct Hc as [(_ & v & -> & Le)|(Q & _)]; [|congruence]. intros id Iid. exists v. split; auto. now apply (U v). }
  destruct (bound_history m0 x y z u dx dy dz K sg M Sg Ft st p (fdm_new p) m s) as (P & Q1 & Q2); auto.
  - destruct Hc as [(Cm & _)|(Cm & An & _)]; [left|right; auto]. split; [exact Cm|exact (B0 Cm)].
  - rewrite Q1, I in N. apply (rows_all (on_side m0 sg M) (b_ip p) P k row); auto. destruct Hc as [(Cm & _)|(_ & _ & Q)]; auto.
Qed.
Lemma pushed_bounded M m : pushed_at_most M m -> bounded 1 M m.
Proof.
  intros (H1 & H2). split.
  - intros id w E. destruct (H1 id w E) as [(q & A & L)|(G & p & A & L & L')]; [left; exists q|right; exists G, p]; repeat (split; [assumption|]); lra.
  - intros idb e I. destruct (H2 idb e I) as [(A & L)|(r & A & L)]; [left|right; exists r]; (split; [assumption|]); lra.
Qed.
Lemma drawn_bounded M m : drawn_at_least M m -> bounded (-1) M m.
Proof.
  intros (H1 & H2). split.
  - intros id w E. destruct (H1 id w E) as [(q & A & L)|(G & p & A & L & L')]; [left; exists q|right; exists G, p]; repeat (split; [assumption|]); lra.
  - intros idb e I. destruct (H2 idb e I) as [(A & L)|(r & A & L)]; [left|right; exists r]; (split; [assumption|]); lra.
Qed.
(** C107: in a flat compressible reservoir no pressure ever exceeds the initial one and
    those the controls push with. *)
Lemma L_C107_upper_bound :
  forall (g : gobj R) f unit pi dt l1 ob l2 st m0 m s x y z u dx dy dz M k row,
  simulated g f unit (Some pi) dt l1 ob l2 st m0 m s -> model m0 x y z u dx dy dz -> flat m0 -> b_cmp m0 = true ->
  pushed_at_most M (prepared m0 l1 ob l2) -> (pi <= M)%R -> nth_error (s_p s) k = Some row -> at_most m0 M row.
Proof.
  intros g f unit pi dt l1 ob l2 st m0 m s x y z u dx dy dz M k row S K Ft Cm B Le N.
  assert (Q : on_side m0 1 M row) by (refine (sim_bound 1 M _ _ _ _ _ _ _ _ _ _ _ _ _ _ _ _ _ _ _ k row _ S K Ft (pushed_bounded _ _ B) _ N); [auto|left; split; auto; exists pi; split; auto; lra]).
  intros id I. destruct (Q id I) as (v & E & L). exists v. split; auto. lra.
Qed.
(** C107: none ever falls below the initial one and those the controls draw with. *)
Lemma L_C107_lower_bound :
  forall (g : gobj R) f unit pi dt l1 ob l2 st m0 m s x y z u dx dy dz M k row,
  simulated g f unit (Some pi) dt l1 ob l2 st m0 m s -> model m0 x y z u dx dy dz -> flat m0 -> b_cmp m0 = true ->
  drawn_at_least M (prepared m0 l1 ob l2) -> (M <= pi)%R -> nth_error (s_p s) k = Some row -> at_least m0 M row.
Proof.
  intros g f unit pi dt l1 ob l2 st m0 m s x y z u dx dy dz M k row S K Ft Cm B Le N.
  assert (Q : on_side m0 (-1) M row) by (refine (sim_bound (-1) M _ _ _ _ _ _ _ _ _ _ _ _ _ _ _ _ _ _ _ k row _ S K Ft (drawn_bounded _ _ B) _ N); [auto|left; split; auto; exists pi; split; auto; lra]).
  intros id I. destruct (Q id I) as (v & E & L). exists v. split; auto. lra.
Qed.
(** C107, incompressible with a pressure held somewhere: the controls alone bound the
    pressures of every step. *)
Lemma L_C107_steady_bounds :
  forall (g : gobj R) f unit pi dt l1 ob l2 st m0 m s x y z u dx dy dz M k row,
  simulated g f unit pi dt l1 ob l2 st m0 m s -> model m0 x y z u dx dy dz -> flat m0 -> b_cmp m0 = false ->
  anchored (prepared m0 l1 ob l2) -> nth_error (s_p s) (S k) = Some row ->
  (pushed_at_most M (prepared m0 l1 ob l2) -> at_most m0 M row) /\ (drawn_at_least M (prepared m0 l1 ob l2) -> at_least m0 M row).
Proof.
  intros g f unit pi dt l1 ob l2 st m0 m s x y z u dx dy dz M k row S K Ft Cm An N. split; intros B.
  - assert (Q : on_side m0 1 M row) by (refine (sim_bound 1 M _ _ _ _ _ _ _ _ _ _ _ _ _ _ _ _ _ _ _ (Datatypes.S k) row _ S K Ft (pushed_bounded _ _ B) _ N); [auto|right; auto]).
    intros id I. destruct (Q id I) as (v & E & L). exists v. split; auto. lra.
  - assert (Q : on_side m0 (-1) M row) by (refine (sim_bound (-1) M _ _ _ _ _ _ _ _ _ _ _ _ _ _ _ _ _ _ _ (Datatypes.S k) row _ S K Ft (drawn_bounded _ _ B) _ N); [auto|right; auto]).
    intros id I. destruct (Q id I) as (v & E & L). exists v. split; auto. lra.
Qed.

(** ** Cases *)
Lemma sides_conditioned m r : b_bdict m = sides r -> conditioned m.
Proof. intros E e. rewrite E. unfold sides. intros [<-|[<-|[]]]; cbn; auto. Qed.
Lemma tap_conditioned m r : b_bdict m = tap r -> conditioned m.
Proof. intros E e. rewrite E. unfold tap. intros [<-|[]]; cbn; auto. Qed.
Lemma same_sides m1 m2 w1 w2 q1 q2 r : b_wells m1 = [(2%Z, w1)] -> b_wells m2 = [(2%Z, w2)] -> at_rate w1 q1 -> at_rate w2 q2 -> (q1 <= q2)%R -> b_bdict m1 = sides r -> b_bdict m2 = sides r -> controls_below 0 m1 m2.
Proof.
  intros E1 E2 A1 A2 L B1 B2. split; [intros id; rewrite E1, E2; cbn; destruct (Z.eqb id 2); auto; left; eauto|].
  intros idb. rewrite B1, B2. cbn. destruct (Z.eqb idb 0); [left; cbn; repeat split; lra|]. destruct (Z.eqb idb 4); [|auto]. right. exists r, r. repeat split; try lra; left; split; reflexivity.
Qed.
(** C104, C106: two wells of rates -1/2 and 1, initial pressures 6 and 10. *)
Example ex_C104_case : exists g f unit dt l1 ob l2 l1' l2' st1 st2 m1 m2 ma mb s1 s2 r1 r2,
  simulated g f unit (Some 6%R) dt l1 ob l2 st1 m1 ma s1 /\ simulated g f unit (Some 10%R) dt l1' ob l2' st2 m2 mb s2 /\
  (exists x y z u dx dy dz, model m1 x y z u dx dy dz) /\ b_cmp m1 = true /\ Forall2 same_path st1 st2 /\
  controls_below 0 (prepared m1 l1 ob l2) (prepared m2 l1' ob l2') /\ (6 + 0 <= 10)%R /\
  nth_error (s_p s1) 1 = Some r1 /\ nth_error (s_p s2) 1 = Some r2 /\ r1 = [Some 6; Some (107 / 18); Some (52 / 9); Some (53 / 9); None]%R /\ r2 = [Some 6; Some (71 / 9); Some (86 / 9); Some (88 / 9); None]%R.
Proof.
  destruct line3_made as (g & f & unit & dt & Hn).
  destruct (pump_run 6 (-1 / 2) (107 / 18) (52 / 9) (53 / 9)) as (p1 & ma & s1 & w1 & S1 & P1 & W1 & A1 & B1 & R1); try lra.
  destruct (pump_run 10 1 (71 / 9) (86 / 9) (88 / 9)) as (p2 & mb & s2 & w2 & S2 & P2 & W2 & A2 & B2 & R2); try lra.
  exists g, f, unit, dt, [], (Some (sides 0)), [pump (-1 / 2)], [], [pump 1], [reply (107 / 18) (52 / 9) (53 / 9)], [reply (71 / 9) (86 / 9) (88 / 9)], (line3 (1 + 0) true (Some 6%R)), (line3 (1 + 0) true (Some 10%R)), ma, mb, s1, s2. do 2 eexists.
  split; [split; [apply Hn|exact S1]|]. split; [split; [apply Hn|exact S2]|]. split; [do 7 eexists; apply line3_model; intros; lra|]. split; [reflexivity|]. split; [repeat constructor|].
  split; [rewrite P1, P2; eapply same_sides; eauto; lra|]. split; [lra|]. split; [exact R1|]. split; [exact R2|]. split; reflexivity.
Qed.
Example ex_C104_step_case : exists g f unit dt m0 m0' l2 l2' slv slv' ma sa mb sb ma' sa' mb' sb',
  let sv := Solve slv SampleWell.one 9 true omb in let sv' := Solve slv' SampleWell.one 9 true omb in let ob := Some (sides 0) in
  bo_new g f unit (Some 6%R) dt = Ok m0 /\ bo_new g f unit (Some 10%R) dt = Ok m0' /\ (exists x y z u dx dy dz, model m0 x y z u dx dy dz) /\ plain m0 [] ob l2 /\ plain m0' [] ob l2' /\
  all_ok (m0, None) (setup [] ob l2 ++ Compile :: [] ++ [sv]) /\ all_ok (m0', None) (setup [] ob l2' ++ Compile :: [] ++ [sv']) /\
  along live (after (m0, None) (setup [] ob l2 ++ [Compile])) ([] ++ [sv]) /\ along live (after (m0', None) (setup [] ob l2' ++ [Compile])) ([] ++ [sv']) /\
  after (m0, None) (setup [] ob l2 ++ Compile :: []) = (ma, Some sa) /\ after (m0, None) (setup [] ob l2 ++ Compile :: [] ++ [sv]) = (mb, Some sb) /\
  after (m0', None) (setup [] ob l2' ++ Compile :: []) = (ma', Some sa') /\ after (m0', None) (setup [] ob l2' ++ Compile :: [] ++ [sv']) = (mb', Some sb') /\
  controls_below 0 ma ma' /\ b_cmp m0 = true /\ below m0 0 (last (s_p sa) []) (last (s_p sa') []) /\ s_p sb <> s_p sb'.
Proof.
  destruct line3_made as (g & f & unit & dt & Hn).
  destruct (pump_run 6 (-1 / 2) (107 / 18) (52 / 9) (53 / 9)) as (p1 & ma & s1 & w1 & S1 & P1 & W1 & A1 & B1 & R1); try lra.
  destruct (pump_run 10 1 (71 / 9) (86 / 9) (88 / 9)) as (p2 & mb & s2 & w2 & S2 & P2 & W2 & A2 & B2 & R2); try lra.
  assert (T1 : simulated g f unit (Some 6%R) dt [] (Some (sides 0)) [pump (-1 / 2)] [reply (107 / 18) (52 / 9) (53 / 9)] (line3 (1 + 0) true (Some 6%R)) ma s1) by (split; [apply Hn|exact S1]).
  assert (T2 : simulated g f unit (Some 10%R) dt [] (Some (sides 0)) [pump 1] [reply (71 / 9) (86 / 9) (88 / 9)] (line3 (1 + 0) true (Some 10%R)) mb s2) by (split; [apply Hn|exact S2]).
  assert (K : forall pi, model (line3 (1 + 0) true (Some pi)) 3 1 1 true (Scalar 1%R) (Scalar 1%R) (Scalar 1%R)) by (intros; apply line3_model; intros; lra).
  destruct (sim_start _ _ _ _ _ _ _ _ _ _ _ _ _ _ _ _ _ _ _ T1 (K _)) as (_ & _ & _ & _ & _ & _ & U1). destruct (sim_start _ _ _ _ _ _ _ _ _ _ _ _ _ _ _ _ _ _ _ T2 (K _)) as (_ & _ & _ & _ & _ & _ & U2).
  assert (N1 : snd (after (line3 (1 + 0) true (Some 6%R), None) (setup [] (Some (sides 0)) [pump (-1 / 2)])) = None) by exact (proj1 (setup_started _ _ _ _ _ _ _ _ _ _ _ _ _ _ _ _ (proj1 T1) (K _) (proj1 (proj2 T1)))).
  assert (N2 : snd (after (line3 (1 + 0) true (Some 10%R), None) (setup [] (Some (sides 0)) [pump 1])) = None) by exact (proj1 (setup_started _ _ _ _ _ _ _ _ _ _ _ _ _ _ _ _ (proj1 T2) (K _) (proj1 (proj2 T2)))).
  exists g, f, unit, dt, (line3 (1 + 0) true (Some 6%R)), (line3 (1 + 0) true (Some 10%R)), [pump (-1 / 2)], [pump 1], (trial [[107 / 18; 52 / 9; 53 / 9]]%R), (trial [[71 / 9; 86 / 9; 88 / 9]]%R), p1, (fdm_new p1), ma, s1, p2, (fdm_new p2), mb, s2. cbv zeta.
  destruct T1 as (M1 & Q1 & Q2 & Q3 & Q4), T2 as (M2 & Q1' & Q2' & Q3' & Q4'). unfold prepared in *. destruct (after (line3 (1 + 0) true (Some 6%R), None) (setup [] (Some (sides 0)) [pump (-1 / 2)])) as [pp1 o1] eqn:X1. destruct (after (line3 (1 + 0) true (Some 10%R), None) (setup [] (Some (sides 0)) [pump 1])) as [pp2 o2] eqn:X2.
  cbn [fst snd] in *. subst pp1 o1 pp2 o2.
  do 2 (split; [apply Hn|]). split; [do 7 eexists; apply K|]. split; [exact Q1|]. split; [exact Q1'|]. split; [exact Q2|]. split; [exact Q2'|].
  split; [clear -Q3; cbn [app along] in *; split; [split; [reflexivity|apply Q3]|exact I]|]. split; [clear -Q3'; cbn [app along] in *; split; [split; [reflexivity|apply Q3']|exact I]|].
  split; [rewrite after_app, X1; reflexivity|]. split; [exact Q4|]. split; [rewrite after_app, X2; reflexivity|]. split; [exact Q4'|]. split; [eapply same_sides; eauto; lra|]. split; [reflexivity|]. split.
  - intros id I. exists 6%R, 10%R. split; [now apply (U1 6%R)|]. split; [now apply (U2 10%R)|lra].
  - intros E. rewrite E, R2 in R1. injection R1 as _ E2 _. lra.
Qed.
(** C104, C105 incompressible: pressure 6 on the left, rate 2 on the right, initial
    pressures 10 and 3, two steps. *)
Example ex_C105_steady_case : exists g f unit dt l1 ob l2 st1 st2 m1 m2 ma mb s1 s2 r1 r2,
  simulated g f unit (Some 10%R) dt l1 ob l2 st1 m1 ma s1 /\ simulated g f unit (Some 3%R) dt l1 ob l2 st2 m2 mb s2 /\
  (exists x y z u dx dy dz, model m1 x y z u dx dy dz) /\ b_cmp m1 = false /\ Forall2 same_path st1 st2 /\ ~ three_d (gr (geom (b_grid m1))) /\ Forall (path true) st1 /\
  (let p1 := prepared m1 l1 ob l2 in same_controls p1 (prepared m2 l1 ob l2) /\ controls_below 0 p1 (prepared m2 l1 ob l2) /\ anchored p1 /\ conditioned p1 /\ operated p1) /\
  nth_error (s_p s1) 2 = Some r1 /\ nth_error (s_p s2) 2 = Some r2 /\ flat m1 /\ drawn_at_least 6 (prepared m1 l1 ob l2) /\ r1 = [Some 6; Some 7; Some 9; Some 11; None]%R.
Proof.
  destruct line3_made0 as (g & f & unit & dt & Hn). destruct (steady_run 10) as (p1 & ma & s1 & S1 & P1 & W1 & B1 & _ & R1). destruct (steady_run 3) as (p2 & mb & s2 & S2 & P2 & W2 & B2 & _ & R2).
  exists g, f, unit, dt, [], (Some (sides 2)), [], [reply 7 9 11; reply 7 9 11], [reply 7 9 11; reply 7 9 11], (line3 0 false (Some 10%R)), (line3 0 false (Some 3%R)), ma, mb, s1, s2. do 2 eexists.
  split; [split; [apply Hn|exact S1]|]. split; [split; [apply Hn|exact S2]|]. split; [do 7 eexists; apply line3_model; discriminate|]. split; [reflexivity|]. split; [repeat constructor|]. split; [intros (_ & F & _); unfold flows in F; cbn in F; lia|]. split; [repeat constructor|].
  cbv zeta. rewrite P1, P2. split; [split; [|split; [|split; [|split]]]|].
  - split; [congruence|]. rewrite W1, W2. split; [auto|]. cbn. discriminate.
  - split; [intros id; rewrite W1, W2; exact I|]. intros idb. rewrite B1, B2. cbn. destruct (Z.eqb idb 0); [left; cbn; repeat split; lra|]. destruct (Z.eqb idb 4); [|auto]. right. exists 2%R, 2%R. repeat split; try lra; left; split; reflexivity.
  - right. exists 0%Z, 6%R. rewrite B1. now left.
  - now apply (sides_conditioned _ 2).
  - intros id w. rewrite W1. discriminate.
  - split; [exact R1|]. split; [exact R2|]. split; [exists (repeat 0%R 5), 0%R; split; [reflexivity|repeat constructor]|]. split; [|reflexivity]. split; [intros id w; rewrite W1; discriminate|].
    intros idb e. rewrite B1. unfold sides. intros [[= <- <-]|[[= <- <-]|[]]]; [left; cbn; split; [reflexivity|lra]|right; exists 2%R; split; [left; split; reflexivity|lra]].
Qed.
(** C105: the same well and boundaries, initial pressures 6 and 10. *)
Example ex_C105_case : exists g f unit dt l1 ob l2 st1 st2 m1 m2 ma mb s1 s2 r1 r2,
  simulated g f unit (Some 6%R) dt l1 ob l2 st1 m1 ma s1 /\ simulated g f unit (Some 10%R) dt l1 ob l2 st2 m2 mb s2 /\
  (exists x y z u dx dy dz, model m1 x y z u dx dy dz) /\ b_cmp m1 = true /\ Forall2 same_path st1 st2 /\
  (let p1 := prepared m1 l1 ob l2 in same_controls p1 (prepared m2 l1 ob l2) /\ conditioned p1 /\ operated p1) /\
  nth_error (s_p s1) 1 = Some r1 /\ nth_error (s_p s2) 1 = Some r2 /\ r1 = [Some 6; Some 6; Some 6; Some 6; None]%R /\ r2 = [Some 6; Some (70 / 9); Some (82 / 9); Some (86 / 9); None]%R.
Proof.
  destruct line3_made as (g & f & unit & dt & Hn). destruct (bare_run 6 6 6 6) as (p1 & ma & s1 & S1 & P1 & W1 & B1 & R1); try lra. destruct (bare_run 10 (70 / 9) (82 / 9) (86 / 9)) as (p2 & mb & s2 & S2 & P2 & W2 & B2 & R2); try lra.
  exists g, f, unit, dt, [], (Some (sides 0)), [], [reply 6 6 6], [reply (70 / 9) (82 / 9) (86 / 9)], (line3 (1 + 0) true (Some 6%R)), (line3 (1 + 0) true (Some 10%R)), ma, mb, s1, s2. do 2 eexists.
  split; [split; [apply Hn|exact S1]|]. split; [split; [apply Hn|exact S2]|]. split; [do 7 eexists; apply line3_model; intros; lra|]. split; [reflexivity|]. split; [repeat constructor|].
  cbv zeta. rewrite P1, P2. split; [split; [|split]|].
  - split; [congruence|]. rewrite W1, W2. split; [auto|]. cbn. discriminate.
  - now apply (sides_conditioned _ 0).
  - intros id w. rewrite W1. discriminate.
  - split; [exact R1|]. split; [exact R2|]. split; reflexivity.
Qed.
(** C105, rates only: a rate of 1 on the right, initial pressures 10 and 12. *)
Example ex_C105_shift_case : exists g f unit dt l1 ob l2 st1 st2 m1 m2 ma mb s1 s2 r1 r2,
  simulated g f unit (Some 10%R) dt l1 ob l2 st1 m1 ma s1 /\ simulated g f unit (Some 12%R) dt l1 ob l2 st2 m2 mb s2 /\
  (exists x y z u dx dy dz, model m1 x y z u dx dy dz) /\ b_cmp m1 = true /\ Forall2 same_path st1 st2 /\
  (let p1 := prepared m1 l1 ob l2 in same_controls p1 (prepared m2 l1 ob l2) /\ conditioned p1 /\ rates_only p1) /\
  nth_error (s_p s1) 1 = Some r1 /\ nth_error (s_p s2) 1 = Some r2 /\ r1 = [None; Some (81 / 8); Some (41 / 4); Some (85 / 8); None]%R /\ r2 = [None; Some (97 / 8); Some (49 / 4); Some (101 / 8); None]%R.
Proof.
  destruct line3_made as (g & f & unit & dt & Hn). destruct (tap_run 10 1 (81 / 8) (41 / 4) (85 / 8)) as (p1 & ma & s1 & S1 & P1 & W1 & B1 & R1); try lra. destruct (tap_run 12 1 (97 / 8) (49 / 4) (101 / 8)) as (p2 & mb & s2 & S2 & P2 & W2 & B2 & R2); try lra.
  exists g, f, unit, dt, [], (Some (tap 1)), [], [reply (81 / 8) (41 / 4) (85 / 8)], [reply (97 / 8) (49 / 4) (101 / 8)], (line3 (1 + 0) true (Some 10%R)), (line3 (1 + 0) true (Some 12%R)), ma, mb, s1, s2. do 2 eexists.
  split; [split; [apply Hn|exact S1]|]. split; [split; [apply Hn|exact S2]|]. split; [do 7 eexists; apply line3_model; intros; lra|]. split; [reflexivity|]. split; [repeat constructor|].
  cbv zeta. rewrite P1, P2. split; [split; [|split]|].
  - split; [congruence|]. rewrite W1, W2. split; [auto|]. cbn. discriminate.
  - now apply (tap_conditioned _ 1).
  - split; [intros id w; rewrite W1; discriminate|]. intros e. rewrite B1. unfold tap. intros [<-|[]]. cbn. discriminate.
  - split; [exact R1|]. split; [exact R2|]. split; reflexivity.
Qed.
(** C106: a producer of rate -1/2, an injector of rate 1, against none. C107 too. *)
Example ex_C106_case : exists g f unit dt l1 ob l2 id q r sk st1 st2 m1 m2 ma mb s1 s2 r1 r2,
  simulated g f unit (Some 6%R) dt l1 ob (l2 ++ [Set_well (Some id) (Some q) None r sk]) st1 m1 ma s1 /\ simulated g f unit (Some 6%R) dt l1 ob l2 st2 m2 mb s2 /\
  (exists x y z u dx dy dz, model m1 x y z u dx dy dz) /\ b_cmp m1 = true /\ Forall2 same_path st1 st2 /\
  (let p := prepared m1 l1 ob l2 in conditioned p /\ operated p /\ dget id (b_wells p) = None /\ (q < 0)%R) /\
  nth_error (s_p s1) 1 = Some r1 /\ nth_error (s_p s2) 1 = Some r2 /\ r1 = [Some 6; Some (107 / 18); Some (52 / 9); Some (53 / 9); None]%R /\ r2 = [Some 6; Some 6; Some 6; Some 6; None]%R /\
  flat m1 /\ pushed_at_most 6 (prepared m1 l1 ob (l2 ++ [Set_well (Some id) (Some q) None r sk])) /\ pushed_at_most 6 (prepared m1 l1 ob l2) /\ drawn_at_least 6 (prepared m1 l1 ob l2).
Proof.
  destruct line3_made as (g & f & unit & dt & Hn). destruct (pump_run 6 (-1 / 2) (107 / 18) (52 / 9) (53 / 9)) as (p1 & ma & s1 & w1 & S1 & P1 & W1 & A1 & B1 & R1); try lra.
  destruct (bare_run 6 6 6 6) as (p2 & mb & s2 & S2 & P2 & W2 & B2 & R2); try lra.
  exists g, f, unit, dt, [], (Some (sides 0)), [], 2%Z, (-1 / 2)%R, (Some (1 / 2)%R), None, [reply (107 / 18) (52 / 9) (53 / 9)], [reply 6 6 6], (line3 (1 + 0) true (Some 6%R)), (line3 (1 + 0) true (Some 6%R)), ma, mb, s1, s2. do 2 eexists. cbn [app]. fold (pump (-1 / 2)).
  split; [split; [apply Hn|exact S1]|]. split; [split; [apply Hn|exact S2]|]. split; [do 7 eexists; apply line3_model; intros; lra|]. split; [reflexivity|]. split; [repeat constructor|].
  cbv zeta. rewrite P1, P2. split; [split; [|split; [|split]]|].
  - now apply (sides_conditioned _ 0).
  - intros id w. rewrite W2. discriminate.
  - now rewrite W2.
  - lra.
  - assert (Q : forall m, b_bdict m = sides 0 -> forall idb e, In (idb, e) (b_bdict m) -> (fst e = "pressure"%string /\ snd e = 6%R) \/ rate_given m idb e 0).
    { intros m -> idb e. unfold sides. intros [[= <- <-]|[[= <- <-]|[]]]; [left; split; reflexivity|right; left; split; reflexivity]. }
    split; [exact R1|]. split; [exact R2|]. split; [reflexivity|]. split; [reflexivity|]. split; [exists (repeat 0%R 5), 0%R; split; [reflexivity|repeat constructor]|]. split; [|split].
    + split; [intros id w; rewrite W1; cbn; destruct (Z.eqb id 2); [|discriminate]; intros [= <-]; left; exists (-1 / 2)%R; split; [exact A1|lra]|]. intros idb e I. destruct (Q _ B1 idb e I) as [(E1 & E2)|E]; [left; split; [auto|lra]|right; exists 0%R; split; [auto|lra]].
    + split; [intros id w; rewrite W2; discriminate|]. intros idb e I. destruct (Q _ B2 idb e I) as [(E1 & E2)|E]; [left; split; [auto|lra]|right; exists 0%R; split; [auto|lra]].
    + split; [intros id w; rewrite W2; discriminate|]. intros idb e I. destruct (Q _ B2 idb e I) as [(E1 & E2)|E]; [left; split; [auto|lra]|right; exists 0%R; split; [auto|lra]].
Qed.
