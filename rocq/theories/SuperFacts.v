(** Facts behind the superposition of simulations. *)
From Coq Require Import String ZArith Bool Arith List Lia Reals Lra.
From Verif Require Import Prelude PreludeFacts Num GridModel GridSpec GeoModel GeoSpec PropModel PropSpec
  GeoProofs TransProofs UnitsModel BlackOilModel FdmModel MonadFacts HistSpec InvFacts SumFacts ModelSpec ModelFacts VectFacts AsmFacts SolverSpec SolveSpec StepSpec StepFacts WellStepFacts
  MatrixProofs BalanceSpec FdmSpec CanonFacts NbrFacts SymbFacts BalFacts FormFacts StepBal SetupFacts LocalSpec LocalThm ChangeSpec ChangeFacts TotalHist TotalSpec ClosedSpec CompareSpec CompareFacts SuperSpec.
Import ListNotations.
Close Scope R_scope.
Open Scope nat_scope.

Lemma flux_mix n T a b (y0 y1 y2 y3 w : nat -> R) p :
  (flux n T (fun q => y3 q - w q) p - mix a b (flux n T (fun q => y0 q - w q) p) (flux n T (fun q => y1 q - w q) p) (flux n T (fun q => y2 q - w q) p) = flux n T (fun q => y3 q - mix a b (y0 q) (y1 q) (y2 q)) p)%R.
Proof. unfold flux, mix. generalize 0 as lo. induction n as [|k IH]; intros lo; cbn [rsum]; [lra|]. specialize (IH (S lo)). lra. Qed.
Lemma flux_neg n T (y : nat -> R) p : flux n T (fun q => - y q)%R p = (- flux n T y p)%R.
Proof. unfold flux. generalize 0 as lo. induction n as [|k IH]; intros lo; cbn [rsum]; [lra|]. rewrite IH. lra. Qed.
Lemma sumR_mix {A} a b (f0 f1 f2 f3 : A -> R) s : (sumR (map f3 s) - mix a b (sumR (map f0 s)) (sumR (map f1 s)) (sumR (map f2 s)) = sumR (map (fun c => f3 c - mix a b (f0 c) (f1 c) (f2 c)) s))%R.
Proof. unfold mix. induction s as [|c s IH]; cbn [map sumR]; lra. Qed.
Lemma sumR_pull {A} (f : A -> R) U s : (forall a, In a s -> exists k, (0 <= k)%R /\ f a = (- k * U)%R) -> exists k, (0 <= k)%R /\ sumR (map f s) = (- k * U)%R.
Proof.
  induction s as [|a s IH]; intros H; cbn [map sumR]; [exists 0%R; lra|]. destruct (H a (or_introl eq_refl)) as (k1 & P1 & ->). destruct (IH (fun b Hb => H b (or_intror Hb))) as (k2 & P2 & ->).
  exists (k1 + k2)%R. lra.
Qed.
Lemma sumR_pull_pos {A} (f : A -> R) U s a : (forall a, In a s -> exists k, (0 <= k)%R /\ f a = (- k * U)%R) -> In a s -> (exists k, (0 < k)%R /\ f a = (- k * U)%R) -> exists k, (0 < k)%R /\ sumR (map f s) = (- k * U)%R.
Proof.
  induction s as [|b s IH]; intros H I P; [destruct I|]; cbn [map sumR]. destruct I as [->|I].
  - destruct P as (k1 & P1 & ->). destruct (sumR_pull f U s (fun b Hb => H b (or_intror Hb))) as (k2 & P2 & ->). exists (k1 + k2)%R. lra.
  - destruct (H b (or_introl eq_refl)) as (k1 & P1 & ->). destruct (IH (fun b Hb => H b (or_intror Hb)) I P) as (k2 & P2 & ->). exists (k1 + k2)%R. lra.
Qed.
(** A difference that is driven back to 0 is 0. *)
Section zero.
Variables (n : nat) (T : nat -> nat -> R).
Hypothesis (Tn : forall p q, p < n -> q < n -> (0 <= T p q)%R).
Lemma zero_acc (u a h : nat -> R) : (forall p, p < n -> (0 < a p)%R) -> (forall p, p < n -> exists k, (0 <= k)%R /\ h p = (- k * u p)%R) ->
  (forall p, p < n -> (flux n T u p + h p = a p * u p)%R) -> forall p, p < n -> u p = 0%R.
Proof.
  intros Ha Hh E p Hp.
  assert (Q1 : (0 <= u p)%R).
  { apply (compare_acc n T Tn u (fun _ => 0%R) a h); auto; [intros; lra| |intros q Hq; rewrite E by auto; lra].
    intros q Hq L. destruct (Hh q Hq) as (k & Pk & ->). assert (0 <= k * - u q)%R by (apply Rmult_le_pos; lra). lra. }
  assert (Q2 : (0 <= - u p)%R).
  { apply (compare_acc n T Tn (fun q => - u q)%R (fun _ => 0%R) a (fun q => - h q)%R); auto; [intros; lra| |intros q Hq; rewrite flux_neg; specialize (E q Hq); lra].
    intros q Hq L. destruct (Hh q Hq) as (k & Pk & ->). assert (0 <= k * u q)%R by (apply Rmult_le_pos; lra). lra. }
  lra.
Qed.
Hypothesis (conn : forall S : nat -> Prop, (exists p, p < n /\ S p) ->
  (forall p q, p < n -> q < n -> S p -> (0 < T p q)%R -> S q) -> forall p, p < n -> S p).
Lemma zero_tied (u h : nat -> R) p0 : p0 < n -> (exists k, (0 < k)%R /\ h p0 = (- k * u p0)%R) -> (forall p, p < n -> exists k, (0 <= k)%R /\ h p = (- k * u p)%R) ->
  (forall p, p < n -> (flux n T u p + h p = 0)%R) -> forall p, p < n -> u p = 0%R.
Proof.
  intros H0 (k0 & P0 & E0) Hh E p Hp.
  assert (Q1 : (0 <= u p)%R).
  { apply (compare_tied n T Tn conn u h p0); auto.
    - intros L. rewrite E0. assert (0 < k0 * - u p0)%R by (apply Rmult_lt_0_compat; lra). lra.
    - intros q Hq L. destruct (Hh q Hq) as (k & Pk & ->). assert (0 <= k * - u q)%R by (apply Rmult_le_pos; lra). lra. }
  assert (Q2 : (0 <= - u p)%R).
  { apply (compare_tied n T Tn conn (fun q => - u q)%R (fun q => - h q)%R p0); auto.
    - intros L. rewrite E0. assert (0 < k0 * u p0)%R by (apply Rmult_lt_0_compat; lra). lra.
    - intros q Hq L. destruct (Hh q Hq) as (k & Pk & ->). assert (0 <= k * u q)%R by (apply Rmult_le_pos; lra). lra.
    - intros q Hq. rewrite flux_neg. specialize (E q Hq). lra. }
  lra.
Qed.
End zero.

(** ** The rates of mixed controls *)
Section rates.
Context (m : bo R) (x y z : nat) (u : bool) (dx dy dz : dinput R) (K : model m x y z u dx dy dz).
Context (m0 m1 m2 m3 : bo R) (C0 : core m0 = core m) (C1 : core m1 = core m) (C2 : core m2 = core m) (C3 : core m3 = core m).
Context (n0 n1 n2 n3 r0 r1 r2 r3 : list (fl R)) (F0 : follows_controls m0 n0 r0) (F1 : follows_controls m1 n1 r1) (F2 : follows_controls m2 n2 r2) (F3 : follows_controls m3 n3 r3) (a b : R).
Lemma well_rate (m' : bo R) n r id q : core m' = core m -> follows_controls m' n r -> In id (b_ids m) -> dget id (b_bdict m') = None -> well_gives m' id q -> rv r id = q.
Proof.
  intros C F I B W. unfold well_gives in W. pose proof (proj1 (proj2 (ids_facts K)) id I) as Pid. pose proof (proj1 F id) as O. destruct (dget id (b_wells m')) as [w|] eqn:E.
  - specialize (O w eq_refl). destruct W as (A1 & A2). unfold rv. destruct O as [(_ & q' & Q1 & ->)|(Q & _)]; congruence.
  - subst q. exact (no_rate m m' n r id C F Pid E B).
Qed.
Lemma well_rate_bhp (m' : bo R) n r id w G p v : core m' = core m -> follows_controls m' n r -> dget id (b_wells m') = Some w -> at_bhp w G p -> value n id = Some v -> rv r id = (G / (b_B m * b_mu m) * (p - v))%R.
Proof.
  intros C F E (A1 & A2 & A3) V. pose proof (proj1 F id w E) as O. destruct (core_fields _ _ C) as (_ & _ & Cm & CB & _). unfold rv. rewrite V in O. destruct O as [(Q & _)|(_ & G' & pw & pp & Q1 & Q2 & Q3 & ->)]; [congruence|].
  assert (G' = G) by congruence. assert (pw = p) by congruence. assert (pp = v) by congruence. subst. rewrite Cm, CB. lra.
Qed.
Lemma well_mix id v0 v1 v2 v3 : wells_mixed a b m0 m1 m2 m3 -> In id (b_ids m) -> dget id (b_bdict m0) = None -> dget id (b_bdict m1) = None -> dget id (b_bdict m2) = None -> dget id (b_bdict m3) = None ->
  value n0 id = Some v0 -> value n1 id = Some v1 -> value n2 id = Some v2 -> value n3 id = Some v3 ->
  (exists k, (0 <= k)%R /\ (rv r3 id - mix a b (rv r0 id) (rv r1 id) (rv r2 id) = - k * (v3 - mix a b v0 v1 v2))%R) /\
  (forall w G p, dget id (b_wells m0) = Some w -> at_bhp w G p -> (0 < G)%R -> exists k, (0 < k)%R /\ (rv r3 id - mix a b (rv r0 id) (rv r1 id) (rv r2 id) = - k * (v3 - mix a b v0 v1 v2))%R).
Proof.
  intros W I B0 B1 B2 B3 V0 V1 V2 V3. pose proof (md_mu _ _ _ _ _ _ _ _ K) as Hmu. pose proof (md_B _ _ _ _ _ _ _ _ K) as HB.
  assert (HP : (0 < / (b_B m * b_mu m))%R) by (apply Rinv_0_lt_compat, Rmult_lt_0_compat; auto).
  destruct (W id) as [(q0 & q1 & q2 & W0 & W1 & W2 & W3)|(w0 & w1 & w2 & w3 & G & p0 & p1 & p2 & E0 & E1 & E2 & E3 & A0 & A1 & A2 & A3 & Gp)].
  - rewrite (well_rate m0 n0 r0 id q0), (well_rate m1 n1 r1 id q1), (well_rate m2 n2 r2 id q2), (well_rate m3 n3 r3 id (mix a b q0 q1 q2)); auto. split; [exists 0%R; lra|].
    intros w G p E A _. unfold well_gives in W0. rewrite E in W0. destruct W0 as (Q & _), A as (Q' & _). congruence.
  - rewrite (well_rate_bhp m0 n0 r0 id w0 G p0 v0), (well_rate_bhp m1 n1 r1 id w1 G p1 v1), (well_rate_bhp m2 n2 r2 id w2 G p2 v2), (well_rate_bhp m3 n3 r3 id w3 G (mix a b p0 p1 p2) v3); auto. split.
    + exists (G / (b_B m * b_mu m))%R. split; [apply Rmult_le_pos; lra|unfold mix; ring].
    + intros w G' p E A G0. rewrite E0 in E. injection E as <-. assert (G' = G) by (destruct A as (_ & _ & Q), A0 as (_ & _ & Q'); congruence). subst G'. exists (G / (b_B m * b_mu m))%R. split; [apply Rmult_lt_0_compat; lra|unfold mix; ring].
Qed.
Lemma bound_rate (m' : bo R) n r idb q : core m' = core m -> follows_controls m' n r -> face_id m idb -> dget idb (b_wells m') = None -> bound_gives m' idb q -> rv r idb = q.
Proof.
  intros C F Fb W B. unfold bound_gives in B. destruct (dget idb (b_bdict m')) as [e|] eqn:E.
  - exact (given_rate m x y z u dx dy dz K m' n r idb e q C F E Fb B).
  - subst q. apply (no_rate m m' n r idb); auto. now apply (face_facts K).
Qed.
Lemma bound_rate_p (m' : bo R) n r idb id p v : core m' = core m -> follows_controls m' n r -> In id (b_ids m) -> In idb (bns m id) -> dget idb (b_bdict m') = Some ("pressure"%string, p) -> value n id = Some v ->
  exists zs d, gz m = Ok zs /\ fsub (entry_of zs idb) (entry_of zs id) = Some d /\ rv r idb = (2 * snd (edge (m := m) idb) * ((p - v) - b_g m * d))%R.
Proof.
  intros C F I J E V. pose proof (bns_face K id idb I J) as Fb.
  destruct (edge_bns K idb id Fb I) as (Q1 & _). apply Q1 in J as Ee. destruct (edge_face K idb Fb) as (E0 & Tp & _).
  assert (HT : get_cell_trans m idb false = Ok [(id, snd (edge (m := m) idb))]).
  { destruct (get_cell_trans m idb false) as [T|] eqn:ET; cbn [rbind] in E0; [|discriminate]. destruct T as [|e0 [|? ?]]; try discriminate. cbn [the_only] in E0. injection E0 as E0. rewrite E0. rewrite <- Ee. now destruct (edge (m := m) idb). }
  set (T := snd (edge (m := m) idb)) in *. destruct (core_fields _ _ C) as (_ & _ & _ & _ & Cg & _).
  apply dget_In in E. destruct (proj1 (proj2 F) _ _ E) as (i1 & T1 & zs1 & H1 & H2 & H3 & H4).
  rewrite (core_trans _ _ _ _ C), HT in H1. injection H1 as <- <-. rewrite (core_z _ _ C) in H2. rewrite Cg, V in H3. unfold rv. rewrite H3. rewrite H3 in H4.
  destruct (fsub (entry_of zs1 idb) (entry_of zs1 id)) as [d|] eqn:D; [|now exfalso; apply H4]. exists zs1, d. split; [exact H2|]. split; [exact D|]. reflexivity.
Qed.
Lemma cond_mix id idb v0 v1 v2 v3 : conditions_mixed a b m0 m1 m2 m3 -> In id (b_ids m) -> In idb (bns m id) -> dget idb (b_wells m0) = None -> dget idb (b_wells m1) = None -> dget idb (b_wells m2) = None -> dget idb (b_wells m3) = None ->
  value n0 id = Some v0 -> value n1 id = Some v1 -> value n2 id = Some v2 -> value n3 id = Some v3 ->
  (exists k, (0 <= k)%R /\ (rv r3 idb - mix a b (rv r0 idb) (rv r1 idb) (rv r2 idb) = - k * (v3 - mix a b v0 v1 v2))%R) /\
  (forall v, In (idb, ("pressure"%string, v)) (b_bdict m0) -> NoDup (dkeys (b_bdict m0)) -> exists k, (0 < k)%R /\ (rv r3 idb - mix a b (rv r0 idb) (rv r1 idb) (rv r2 idb) = - k * (v3 - mix a b v0 v1 v2))%R).
Proof.
  intros W I J B0 B1 B2 B3 V0 V1 V2 V3. pose proof (bns_face K id idb I J) as Fb. destruct (edge_face K idb Fb) as (_ & Tp & _).
  destruct (W idb) as [(q0 & q1 & q2 & W0 & W1 & W2 & W3)|(p0 & p1 & p2 & E0 & E1 & E2 & E3)].
  - rewrite (bound_rate m0 n0 r0 idb q0), (bound_rate m1 n1 r1 idb q1), (bound_rate m2 n2 r2 idb q2), (bound_rate m3 n3 r3 idb (mix a b q0 q1 q2)); auto. split; [exists 0%R; lra|].
    intros v H Nd. unfold bound_gives in W0. rewrite (dget_In_nodup _ _ _ Nd H) in W0. exfalso. destruct W0 as [(Q & _)|(Q & _)]; discriminate.
  - destruct (bound_rate_p m0 n0 r0 idb id p0 v0 C0 F0 I J E0 V0) as (z0 & d0 & Z0 & D0 & ->). destruct (bound_rate_p m1 n1 r1 idb id p1 v1 C1 F1 I J E1 V1) as (z1 & d1 & Z1 & D1 & ->).
    destruct (bound_rate_p m2 n2 r2 idb id p2 v2 C2 F2 I J E2 V2) as (z2 & d2 & Z2 & D2 & ->). destruct (bound_rate_p m3 n3 r3 idb id (mix a b p0 p1 p2) v3 C3 F3 I J E3 V3) as (z3 & d3 & Z3 & D3 & ->).
    assert (z1 = z0) by congruence. assert (z2 = z0) by congruence. assert (z3 = z0) by congruence. subst z1 z2 z3. assert (d1 = d0) by congruence. assert (d2 = d0) by congruence. assert (d3 = d0) by congruence. subst.
    split; [|intros _ _ _]; exists (2 * snd (edge (m := m) idb))%R; (split; [lra|]); unfold mix; ring.
Qed.
End rates.

(** ** One step *)
Section step.
Context (m : bo R) (x y z : nat) (u : bool) (dx dy dz : dinput R) (K : model m x y z u dx dy dz).
Notation g := (gr (geom (b_grid m))).
Notation N := (length (b_ids m)).
Lemma mix_step a b v ma0 mb0 sa0 sb0 n0 r0 ma1 mb1 sa1 sb1 n1 r1 ma2 mb2 sa2 sb2 n2 r2 ma3 mb3 sa3 sb3 n3 r3 :
  stepped m v ma0 mb0 sa0 sb0 n0 r0 -> stepped m v ma1 mb1 sa1 sb1 n1 r1 -> stepped m v ma2 mb2 sa2 sb2 n2 r2 -> stepped m v ma3 mb3 sa3 sb3 n3 r3 -> controls_mixed a b mb0 mb1 mb2 mb3 ->
  (b_cmp m = true /\ row_mixed m a b (last (s_p sa0) []) (last (s_p sa1) []) (last (s_p sa2) []) (last (s_p sa3) []) \/ b_cmp m = false /\ anchored mb0) ->
  row_mixed m a b n0 n1 n2 n3.
Proof.
  intros S0 S1 S2 S3 (Cw & Cc) Hc.
  destruct (stepped_eq m x y z u dx dy dz K _ _ _ _ _ _ _ S0) as (F0 & y0 & o0 & Y0 & O0 & E0). destruct (stepped_eq m x y z u dx dy dz K _ _ _ _ _ _ _ S1) as (F1 & y1 & o1 & Y1 & O1 & E1).
  destruct (stepped_eq m x y z u dx dy dz K _ _ _ _ _ _ _ S2) as (F2 & y2 & o2 & Y2 & O2 & E2). destruct (stepped_eq m x y z u dx dy dz K _ _ _ _ _ _ _ S3) as (F3 & y3 & o3 & Y3 & O3 & E3).
  assert (C0 := sp_cb _ _ _ _ _ _ _ _ S0). assert (C1 := sp_cb _ _ _ _ _ _ _ _ S1). assert (C2 := sp_cb _ _ _ _ _ _ _ _ S2). assert (C3 := sp_cb _ _ _ _ _ _ _ _ S3).
  assert (R0 := sp_rb _ _ _ _ _ _ _ _ S0). assert (R1 := sp_rb _ _ _ _ _ _ _ _ S1). assert (R2 := sp_rb _ _ _ _ _ _ _ _ S2). assert (R3 := sp_rb _ _ _ _ _ _ _ _ S3).
  pose proof (model_core _ _ _ _ _ _ _ _ _ (eq_sym C0) K) as K0. destruct (core_fields _ _ C0) as (_ & Ci0 & _).
  set (uu := fun p => (y3 p - mix a b (y0 p) (y1 p) (y2 p))%R). set (cell := fun p => nth p (b_ids m) 0%Z). set (tot := fun r p => (rv r (cell p) + sumR (map (rv r) (bns m (cell p))))%R).
  set (h := fun p => (tot r3 p - mix a b (tot r0 p) (tot r1 p) (tot r2 p))%R).
  assert (Nbd : forall m' s id, ready (m := m') s -> core m' = core m -> In id (b_ids m) -> dget id (b_bdict m') = None).
  { intros m' s id Rm Cm I. pose proof (model_core _ _ _ _ _ _ _ _ _ (eq_sym Cm) K) as Km. destruct (core_fields _ _ Cm) as (_ & Ci & _). destruct (dget id (b_bdict m')) as [e|] eqn:Q; auto. exfalso. apply dget_In in Q. apply (face_facts Km _ (r_bf _ Rm _ Q)). now rewrite Ci. }
  assert (Nwl : forall m' s idb, ready (m := m') s -> core m' = core m -> face_id m idb -> dget idb (b_wells m') = None).
  { intros m' s idb Rm Cm Fb. destruct (core_fields _ _ Cm) as (_ & Ci & _). destruct (dget idb (b_wells m')) as [w|] eqn:Q; auto. exfalso. apply (face_facts K idb Fb). rewrite <- Ci. apply (r_wi _ Rm). apply dget_keys. congruence. }
  set (W := fun id => (rv r3 id - mix a b (rv r0 id) (rv r1 id) (rv r2 id))%R).
  assert (Hw : forall p id, nth_error (b_ids m) p = Some id -> (exists k, (0 <= k)%R /\ W id = (- k * uu p)%R) /\ (forall w G pw, dget id (b_wells mb0) = Some w -> at_bhp w G pw -> (0 < G)%R -> exists k, (0 < k)%R /\ W id = (- k * uu p)%R)).
  { intros p id E. assert (I : In id (b_ids m)) by (eapply nth_error_In; eauto). apply (well_mix m x y z u dx dy dz K mb0 mb1 mb2 mb3 C0 C1 C2 C3 n0 n1 n2 n3 r0 r1 r2 r3 F0 F1 F2 F3 a b id (y0 p) (y1 p) (y2 p) (y3 p)); eauto. }
  assert (Hb : forall p id j, nth_error (b_ids m) p = Some id -> In j (bns m id) -> (exists k, (0 <= k)%R /\ W j = (- k * uu p)%R) /\ (forall v, In (j, ("pressure"%string, v)) (b_bdict mb0) -> NoDup (dkeys (b_bdict mb0)) -> exists k, (0 < k)%R /\ W j = (- k * uu p)%R)).
  { intros p id j E J. assert (I : In id (b_ids m)) by (eapply nth_error_In; eauto). pose proof (bns_face K id j I J) as Fj.
    apply (cond_mix m x y z u dx dy dz K mb0 mb1 mb2 mb3 C0 C1 C2 C3 n0 n1 n2 n3 r0 r1 r2 r3 F0 F1 F2 F3 a b id j (y0 p) (y1 p) (y2 p) (y3 p)); eauto. }
  assert (Hs : forall p id, nth_error (b_ids m) p = Some id -> h p = (W id + sumR (map W (bns m id)))%R).
  { intros p id E. unfold h, tot, cell. rewrite (nth_error_nth _ _ _ E). unfold W at 2. rewrite <- sumR_mix. unfold W, mix. ring. }
  assert (H0 : forall p, p < N -> exists k, (0 <= k)%R /\ h p = (- k * uu p)%R).
  { intros p Hp. destruct (nth_error (b_ids m) p) as [id|] eqn:E; [|apply nth_error_None in E; lia]. rewrite (Hs p id E). destruct (proj1 (Hw p id E)) as (k1 & P1 & ->). destruct (sumR_pull W (uu p) (bns m id) (fun j J => proj1 (Hb p id j E J))) as (k2 & P2 & ->). exists (k1 + k2)%R. lra. }
  assert (Eq : forall p, p < N -> (flux N (Cp m v) uu p + h p = acc m p * (uu p - (o3 p - mix a b (o0 p) (o1 p) (o2 p))))%R).
  { intros p Hp. destruct (nth_error (b_ids m) p) as [id|] eqn:E; [|apply nth_error_None in E; lia]. specialize (E0 p id E). specialize (E1 p id E). specialize (E2 p id E). specialize (E3 p id E). unfold h, tot, cell. rewrite (nth_error_nth _ _ _ E).
    pose proof (flux_mix N (Cp m v) a b y0 y1 y2 y3 (wt m v) p) as Fd'. fold uu in Fd'. rewrite <- Fd'. unfold uu.
    set (f0 := flux N (Cp m v) (fun q => y0 q - wt m v q)%R p) in *. set (f1 := flux N (Cp m v) (fun q => y1 q - wt m v q)%R p) in *. set (f2 := flux N (Cp m v) (fun q => y2 q - wt m v q)%R p) in *. set (f3 := flux N (Cp m v) (fun q => y3 q - wt m v q)%R p) in *.
    set (t0 := (rv r0 id + sumR (map (rv r0) (bns m id)))%R) in *. set (t1 := (rv r1 id + sumR (map (rv r1) (bns m id)))%R) in *. set (t2 := (rv r2 id + sumR (map (rv r2) (bns m id)))%R) in *. set (t3 := (rv r3 id + sumR (map (rv r3) (bns m id)))%R) in *.
    replace (f3 - mix a b f0 f1 f2 + (t3 - mix a b t0 t1 t2))%R with ((f3 + t3) - mix a b (f0 + t0) (f1 + t1) (f2 + t2))%R by (unfold mix; ring). rewrite E0, E1, E2, E3. unfold mix. ring. }
  assert (Up : forall p, p < N -> uu p = 0%R).
  { destruct Hc as [(Cm & Bl)|(Cm & An)].
    - apply (zero_acc N (Cp m v) (Cp_nonneg m x y z u dx dy dz K v) uu (acc m) h); auto.
      + intros p Hp. pose proof (acc_sign K p Hp) as Q. now rewrite Cm in Q.
      + intros p Hp. rewrite (Eq p Hp). destruct (nth_error (b_ids m) p) as [id|] eqn:E; [|apply nth_error_None in E; lia]. assert (I : In id (b_ids m)) by (eapply nth_error_In; eauto).
        destruct (Bl id I) as (c0 & c1 & c2 & A0 & A1 & A2 & A3). rewrite (O0 Cm p id E) in A0. rewrite (O1 Cm p id E) in A1. rewrite (O2 Cm p id E) in A2. rewrite (O3 Cm p id E) in A3. injection A0 as <-. injection A1 as <-. injection A2 as <-. injection A3 as ->. lra.
    - assert (Z : forall p, p < N -> acc m p = 0%R) by (intros p Hp; pose proof (acc_sign K p Hp) as Q; now rewrite Cm in Q).
      assert (Pz : exists p0, p0 < N /\ exists k, (0 < k)%R /\ h p0 = (- k * uu p0)%R).
      { destruct An as [(id & w & G & pw & Ew & At & Gp)|(idb & w & Ib)].
        - assert (I : In id (b_ids m)). { rewrite <- Ci0. apply (r_wi _ R0), dget_keys. congruence. }
          destruct (In_nth_error _ _ I) as (p & E). assert (Hp : p < N) by (apply nth_error_Some; congruence). exists p. split; auto. rewrite (Hs p id E).
          destruct (proj2 (Hw p id E) w G pw Ew At Gp) as (k1 & P1 & ->). destruct (sumR_pull W (uu p) (bns m id) (fun j J => proj1 (Hb p id j E J))) as (k2 & P2 & ->). exists (k1 + k2)%R. lra.
        - pose proof (r_bf _ R0 _ Ib) as Fb. cbn [fst] in Fb. destruct (edge_face K0 idb Fb) as (_ & _ & Ie & _). set (id := fst (edge (m := mb0) idb)) in *.
          pose proof (proj2 (proj1 (edge_bns K0 idb id Fb Ie)) eq_refl) as J. rewrite (bns_core mb0 m id C0) in J. rewrite Ci0 in Ie.
          destruct (In_nth_error _ _ Ie) as (p & E). assert (Hp : p < N) by (apply nth_error_Some; congruence). exists p. split; auto. rewrite (Hs p id E).
          destruct (proj1 (Hw p id E)) as (k1 & P1 & ->). destruct (sumR_pull_pos W (uu p) (bns m id) idb (fun j J => proj1 (Hb p id j E J)) J (proj2 (Hb p id idb E J) w Ib (r_bk _ R0))) as (k2 & P2 & ->). exists (k1 + k2)%R. lra. }
      destruct Pz as (p0 & Hp0 & Ps). apply (zero_tied N (Cp m v) (Cp_nonneg m x y z u dx dy dz K v) (Cp_connected m x y z u dx dy dz K v) uu h p0); auto. intros p Hp. rewrite (Eq p Hp), (Z p Hp). lra. }
  intros id I. destruct (In_nth_error _ _ I) as (p & E). assert (Hp : p < N) by (apply nth_error_Some; congruence). exists (y0 p), (y1 p), (y2 p). split; [auto|]. split; [auto|]. split; [auto|]. specialize (Up p Hp). unfold uu in Up. rewrite (Y3 p id E). f_equal. lra.
Qed.
End step.

(** ** Histories *)
Lemma gives_kept (m m' : bo R) id q : same_controls m m' -> well_gives m id q -> well_gives m' id q.
Proof.
  intros S. unfold well_gives. pose proof (controls_get m m' id S) as Q. destruct (dget id (b_wells m)), (dget id (b_wells m')); try contradiction; auto. apply Q.
Qed.
Lemma bhp_kept (m m' : bo R) id w G p : same_controls m m' -> dget id (b_wells m) = Some w -> at_bhp w G p -> exists w', dget id (b_wells m') = Some w' /\ at_bhp w' G p.
Proof.
  intros S E A. pose proof (controls_get m m' id S) as Q. rewrite E in Q. destruct (dget id (b_wells m')) as [w'|]; [|contradiction]. exists w'. split; auto. now apply Q.
Qed.
Lemma bound_kept (m m' : bo R) idb r : core m' = core m -> same_controls m m' -> bound_gives m idb r -> bound_gives m' idb r.
Proof. intros C (E & _). unfold bound_gives. rewrite E. destruct (dget idb (b_bdict m)); auto. apply (rate_given_core m' m). exact C. Qed.
Lemma mixed_kept a b m0 m1 m2 m3 m0' m1' m2' m3' : core m0' = core m0 -> core m1' = core m1 -> core m2' = core m2 -> core m3' = core m3 ->
  same_controls m0 m0' -> same_controls m1 m1' -> same_controls m2 m2' -> same_controls m3 m3' -> controls_mixed a b m0 m1 m2 m3 -> controls_mixed a b m0' m1' m2' m3'.
Proof.
  intros C0 C1 C2 C3 S0 S1 S2 S3 (W & B). split.
  - intros id. destruct (W id) as [(q0 & q1 & q2 & W0 & W1 & W2 & W3)|(w0 & w1 & w2 & w3 & G & p0 & p1 & p2 & E0 & E1 & E2 & E3 & A0 & A1 & A2 & A3 & Gp)]; [left|right].
    + exists q0, q1, q2. split; [now apply (gives_kept m0)|]. split; [now apply (gives_kept m1)|]. split; [now apply (gives_kept m2)|now apply (gives_kept m3)].
    + destruct (bhp_kept m0 m0' id w0 G p0) as (w0' & ? & ?); auto. destruct (bhp_kept m1 m1' id w1 G p1) as (w1' & ? & ?); auto. destruct (bhp_kept m2 m2' id w2 G p2) as (w2' & ? & ?); auto. destruct (bhp_kept m3 m3' id w3 G _ S3 E3 A3) as (w3' & ? & ?).
      exists w0', w1', w2', w3', G, p0, p1, p2. auto 10.
  - intros idb. destruct (B idb) as [(q0 & q1 & q2 & W0 & W1 & W2 & W3)|(p0 & p1 & p2 & E0 & E1 & E2 & E3)]; [left|right].
    + exists q0, q1, q2. split; [now apply (bound_kept m0)|]. split; [now apply (bound_kept m1)|]. split; [now apply (bound_kept m2)|now apply (bound_kept m3)].
    + exists p0, p1, p2. destruct S0 as (-> & _), S1 as (-> & _), S2 as (-> & _), S3 as (-> & _). auto.
Qed.
(** Four lists of calls, path by path alike. *)
Inductive Forall4 {A} (Q : A -> A -> A -> A -> Prop) : list A -> list A -> list A -> list A -> Prop :=
| F4_nil : Forall4 Q [] [] [] []
| F4_cons a b c d la lb lc ld : Q a b c d -> Forall4 Q la lb lc ld -> Forall4 Q (a :: la) (b :: lb) (c :: lc) (d :: ld).
Section histories.
Context (m : bo R) (x y z : nat) (u : bool) (dx dy dz : dinput R) (K : model m x y z u dx dy dz).
Notation g := (gr (geom (b_grid m))).
Lemma mix_history a b : forall st0 st1 st2 st3, Forall2 same_path st0 st1 -> Forall2 same_path st0 st2 -> Forall2 same_path st0 st3 -> forall ma0 sa0 ma1 sa1 ma2 sa2 ma3 sa3 mb0 sb0 mb1 sb1 mb2 sb2 mb3 sb3,
  core ma0 = core m -> core ma1 = core m -> core ma2 = core m -> core ma3 = core m ->
  ready (m := ma0) sa0 -> ready (m := ma1) sa1 -> ready (m := ma2) sa2 -> ready (m := ma3) sa3 -> controls_mixed a b ma0 ma1 ma2 ma3 ->
  (b_cmp m = true /\ row_mixed m a b (last (s_p sa0) []) (last (s_p sa1) []) (last (s_p sa2) []) (last (s_p sa3) []) \/ b_cmp m = false /\ anchored ma0) ->
  all_ok (ma0, Some sa0) st0 -> all_ok (ma1, Some sa1) st1 -> all_ok (ma2, Some sa2) st2 -> all_ok (ma3, Some sa3) st3 ->
  along balanced_step (ma0, Some sa0) st0 -> along balanced_step (ma1, Some sa1) st1 -> along balanced_step (ma2, Some sa2) st2 -> along balanced_step (ma3, Some sa3) st3 ->
  after (ma0, Some sa0) st0 = (mb0, Some sb0) -> after (ma1, Some sa1) st1 = (mb1, Some sb1) -> after (ma2, Some sa2) st2 = (mb2, Some sb2) -> after (ma3, Some sa3) st3 = (mb3, Some sb3) ->
  exists P0 P1 P2 P3, s_p sb0 = (s_p sa0 ++ P0)%list /\ s_p sb1 = (s_p sa1 ++ P1)%list /\ s_p sb2 = (s_p sa2 ++ P2)%list /\ s_p sb3 = (s_p sa3 ++ P3)%list /\ Forall4 (row_mixed m a b) P0 P1 P2 P3.
Proof.
  induction st0 as [|c0 st0 IH]; intros st1 st2 st3 X1 X2 X3 ma0 sa0 ma1 sa1 ma2 sa2 ma3 sa3 mb0 sb0 mb1 sb1 mb2 sb2 mb3 sb3 C0 C1 C2 C3 R0 R1 R2 R3 Cb Hc A0 A1 A2 A3 L0 L1 L2 L3 E0 E1 E2 E3.
  - inversion X1; subst. inversion X2; subst. inversion X3; subst. injection E0 as <- <-. injection E1 as <- <-. injection E2 as <- <-. injection E3 as <- <-. exists [], [], [], []. rewrite !app_nil_r. repeat split. constructor.
  - inversion X1 as [|? c1 ? st1' Sp1 Y1]; subst. inversion X2 as [|? c2 ? st2' Sp2 Y2]; subst. inversion X3 as [|? c3 ? st3' Sp3 Y3]; subst. clear X1 X2 X3.
    cbn [all_ok along after fold_left] in *. destruct A0 as (A0 & A0'), A1 as (A1 & A1'), A2 as (A2 & A2'), A3 as (A3 & A3'), L0 as (L0 & L0'), L1 as (L1 & L1'), L2 as (L2 & L2'), L3 as (L3 & L3').
    destruct (solve_stepped m x y z u dx dy dz K c0 ma0 sa0 C0 R0 A0 L0) as (slv0 & sc0 & fu0 & spr0 & o0 & mc0 & sc0' & n0 & r0 & Ec0 & F0 & S0 & SC0).
    destruct (solve_stepped m x y z u dx dy dz K c1 ma1 sa1 C1 R1 A1 L1) as (slv1 & sc1 & fu1 & spr1 & o1 & mc1 & sc1' & n1 & r1 & Ec1 & F1 & S1 & SC1).
    destruct (solve_stepped m x y z u dx dy dz K c2 ma2 sa2 C2 R2 A2 L2) as (slv2 & sc2 & fu2 & spr2 & o2 & mc2 & sc2' & n2 & r2 & Ec2 & F2 & S2 & SC2).
    destruct (solve_stepped m x y z u dx dy dz K c3 ma3 sa3 C3 R3 A3 L3) as (slv3 & sc3 & fu3 & spr3 & o3 & mc3 & sc3' & n3 & r3 & Ec3 & F3 & S3 & SC3).
    rewrite F0 in *. rewrite F1 in *. rewrite F2 in *. rewrite F3 in *. subst c0 c1 c2 c3. cbn [same_path] in Sp1, Sp2, Sp3. rewrite <- Sp1 in S1. rewrite <- Sp2 in S2. rewrite <- Sp3 in S3.
    assert (D0 := sp_cb _ _ _ _ _ _ _ _ S0). assert (D1 := sp_cb _ _ _ _ _ _ _ _ S1). assert (D2 := sp_cb _ _ _ _ _ _ _ _ S2). assert (D3 := sp_cb _ _ _ _ _ _ _ _ S3).
    assert (Cb' : controls_mixed a b mc0 mc1 mc2 mc3) by (apply (mixed_kept a b ma0 ma1 ma2 ma3); auto; congruence).
    assert (Bl : row_mixed m a b n0 n1 n2 n3).
    { apply (mix_step m x y z u dx dy dz K a b (o_vect o0) ma0 mc0 sa0 sc0' n0 r0 ma1 mc1 sa1 sc1' n1 r1 ma2 mc2 sa2 sc2' n2 r2 ma3 mc3 sa3 sc3' n3 r3); auto.
      destruct Hc as [Hc|(Cm & An)]; [left; auto|right]. split; auto. now apply (anchored_kept ma0). }
    destruct (IH st1' st2' st3' Y1 Y2 Y3 mc0 sc0' mc1 sc1' mc2 sc2' mc3 sc3' mb0 sb0 mb1 sb1 mb2 sb2 mb3 sb3) as (P0 & P1 & P2 & P3 & Q0 & Q1 & Q2 & Q3 & Q4); auto; [apply S0|apply S1|apply S2|apply S3| |].
    + destruct Hc as [(Cm & Hc)|(Cm & An)]; [left|right]; split; auto.
      * rewrite (sp_p _ _ _ _ _ _ _ _ S0), (sp_p _ _ _ _ _ _ _ _ S1), (sp_p _ _ _ _ _ _ _ _ S2), (sp_p _ _ _ _ _ _ _ _ S3), !last_last. exact Bl.
      * now apply (anchored_kept ma0).
    + exists (n0 :: P0), (n1 :: P1), (n2 :: P2), (n3 :: P3). rewrite Q0, Q1, Q2, Q3, (sp_p _ _ _ _ _ _ _ _ S0), (sp_p _ _ _ _ _ _ _ _ S1), (sp_p _ _ _ _ _ _ _ _ S2), (sp_p _ _ _ _ _ _ _ _ S3), <- !app_assoc. repeat split. constructor; auto.
Qed.
End histories.
