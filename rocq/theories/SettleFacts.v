(** Facts behind the settling of pressures. *)
From Coq Require Import String ZArith Bool Arith List Lia Reals Lra.
From Verif Require Import Prelude PreludeFacts Num GridModel GridSpec GeoModel GeoSpec PropModel PropSpec
  GeoProofs TransProofs UnitsModel BlackOilModel FdmModel MonadFacts HistSpec InvFacts SumFacts ModelSpec ModelFacts VectFacts AsmFacts SolverSpec SolveSpec StepSpec StepFacts WellStepFacts
  MatrixProofs BalanceSpec FdmSpec CanonFacts NbrFacts SymbFacts BalFacts FormFacts StepBal SetupFacts LocalSpec LocalThm ChangeSpec ChangeFacts TotalHist TotalSpec ClosedSpec CompareSpec CompareFacts SuperSpec SuperFacts RecipSpec RecipFacts EvolveSpec EvolveFacts SettleSpec.
Import ListNotations.
Close Scope R_scope.
Open Scope nat_scope.

(** ** A step shrinks differences *)
Lemma rsum_mono f h lo n : (forall i, lo <= i < lo + n -> (f i <= h i)%R) -> (rsum f lo n <= rsum h lo n)%R.
Proof.
  intros H. assert (Q : (0 <= rsum (fun i => h i - f i)%R lo n)%R) by (apply rsum_nonneg; intros i Hi; specialize (H i Hi); lra). rewrite rsum_minus in Q. lra.
Qed.
Lemma largest (f : nat -> R) : forall n, 0 < n -> exists p, p < n /\ forall q, q < n -> (f q <= f p)%R.
Proof.
  induction n as [|n IH]; [lia|]. intros _. destruct n as [|n]; [exists 0; split; [lia|]; intros q Hq; replace q with 0 by lia; lra|].
  destruct (IH ltac:(lia)) as (p & Hp & Q). destruct (Rle_dec (f p) (f (S n))) as [L|L].
  - exists (S n). split; [lia|]. intros q Hq. destruct (Nat.eq_dec q (S n)) as [->|]; [lra|]. specialize (Q q ltac:(lia)). lra.
  - exists p. split; [lia|]. intros q Hq. destruct (Nat.eq_dec q (S n)) as [->|]; [lra|]. apply Q. lia.
Qed.
Section shrink.
Variables (n : nat) (T : nat -> nat -> R) (a k : nat -> R).
Hypothesis (T0 : forall p q, p < n -> q < n -> (0 <= T p q)%R) (Ts : forall p q, p < n -> q < n -> T p q = T q p) (a0 : forall p, p < n -> (0 < a p)%R) (k0 : forall p, p < n -> (0 <= k p)%R).
(** [w'] is the difference after a step, [w] the one before, at most [c]. *)
Definition step_of (c : R) (w w' : nat -> R) : Prop := (0 <= c)%R /\ (forall p, p < n -> (w p <= c)%R) /\ forall p, p < n -> oper n T a k w' p = (a p * w p)%R.
Definition tau (p : nat) : R := rsum (T p) 0 n.
Lemma tau_nonneg p : p < n -> (0 <= tau p)%R.
Proof using T0. intros Hp. apply rsum_nonneg. intros q Hq. apply T0; lia. Qed.
Lemma oper_tau w' p : oper n T a k w' p = ((a p + k p + tau p) * w' p - rsum (fun q => (T p q * w' q)%R) 0 n)%R.
Proof using.
  clear. unfold oper, flux, tau. rewrite (rsum_ext (fun q => (T p q * (w' q - w' p))%R) (fun q => (T p q * w' q - w' p * T p q)%R)) by (intros; ring). rewrite rsum_minus, rsum_scal. ring.
Qed.
Lemma step_most c w w' : step_of c w w' -> forall p, p < n -> (w' p <= c)%R.
Proof using T0 a0 k0.
  intros (C0 & Hw & E) p Hp. destruct (largest w' n ltac:(lia)) as (q & Hq & Q). specialize (E q Hq). rewrite oper_tau in E. specialize (Hw q Hq). specialize (a0 q Hq). specialize (k0 q Hq).
  assert (S : (rsum (fun r => (T q r * w' r)%R) 0 n <= w' q * tau q)%R).
  { unfold tau. rewrite <- rsum_scal. apply rsum_mono. intros r Hr. rewrite (Rmult_comm (w' q)). apply Rmult_le_compat_l; [apply T0; lia|apply Q; lia]. }
  specialize (Q p Hp). destruct (Rle_dec (w' q) c) as [L|L]; [lra|]. exfalso. assert (L' : (c < w' q)%R) by lra.
  assert (H1 : (a q * w q <= a q * c)%R) by (apply Rmult_le_compat_l; lra). assert (H2 : (a q * c < a q * w' q)%R) by (apply Rmult_lt_compat_l; lra). assert (H3 : (0 <= k q * w' q)%R) by (apply Rmult_le_pos; lra). lra.
Qed.
Definition strict (p : nat) : Prop := exists th, (0 <= th < 1)%R /\ forall c w w', step_of c w w' -> (w' p <= th * c)%R.
Lemma strict_held p : p < n -> (0 < k p)%R -> strict p.
Proof using T0 a0 k0.
  intros Hp Kp. pose proof (tau_nonneg p Hp) as Tp. specialize (a0 p Hp) as Ap. exists ((a p + tau p) / (a p + tau p + k p))%R.
  assert (D : (0 < a p + tau p + k p)%R) by lra. split.
  { split; [apply Rmult_le_pos; [lra|left; now apply Rinv_0_lt_compat]|apply (Rmult_lt_reg_r (a p + tau p + k p)); auto; unfold Rdiv; rewrite Rmult_assoc, Rinv_l by lra; lra]. }
  intros c w w' St. pose proof (step_most c w w' St) as M. destruct St as (C0 & Hw & E). specialize (E p Hp). rewrite oper_tau in E. specialize (Hw p Hp).
  assert (S : (rsum (fun r => (T p r * w' r)%R) 0 n <= c * tau p)%R).
  { unfold tau. rewrite <- rsum_scal. apply rsum_mono. intros r Hr. rewrite (Rmult_comm c). apply Rmult_le_compat_l; [apply T0; lia|apply M; lia]. }
  assert (H1 : (a p * w p <= a p * c)%R) by (apply Rmult_le_compat_l; lra).
  apply (Rmult_le_reg_l (a p + tau p + k p)); auto. replace ((a p + tau p + k p) * ((a p + tau p) / (a p + tau p + k p) * c))%R with ((a p + tau p) * c)%R by (field; lra). lra.
Qed.
Lemma strict_next p q : p < n -> q < n -> strict p -> (0 < T p q)%R -> strict q.
Proof using T0 Ts a0 k0.
  intros Hp Hq (th & (H0 & H1) & H) Tp. rewrite (Ts p q Hp Hq) in Tp. pose proof (tau_nonneg q Hq) as Tq. specialize (a0 q Hq) as Aq. specialize (k0 q Hq) as Kq.
  assert (Tl : (T q p <= tau q)%R).
  { unfold tau. rewrite <- (rsum_single 0 n p (T q)) by lia. apply rsum_mono. intros i Hi. destruct (p =? i) eqn:Q; [apply Nat.eqb_eq in Q; subst; lra|apply T0; lia]. }
  set (b := (T q p * (1 - th))%R). assert (B0 : (0 < b)%R) by (apply Rmult_lt_0_compat; lra). assert (B1 : (b <= tau q)%R). { apply Rle_trans with (T q p); auto. unfold b. rewrite <- (Rmult_1_r (T q p)) at 2. apply Rmult_le_compat_l; lra. }
  exists ((a q + tau q - b) / (a q + tau q))%R. assert (D : (0 < a q + tau q)%R) by lra. split.
  { split; [apply Rmult_le_pos; [lra|left; now apply Rinv_0_lt_compat]|apply (Rmult_lt_reg_r (a q + tau q)); auto; unfold Rdiv; rewrite Rmult_assoc, Rinv_l by lra; lra]. }
  intros c w w' St. pose proof (step_most c w w' St) as M. pose proof (H c w w' St) as Hc. destruct St as (C0 & Hw & E). specialize (E q Hq). rewrite oper_tau in E. specialize (Hw q Hq).
  assert (S : (rsum (fun r => (T q r * w' r)%R) 0 n <= c * tau q - b * c)%R).
  { replace (c * tau q - b * c)%R with (rsum (fun r => (c * T q r - (if p =? r then b * c else 0))%R) 0 n).
    - apply rsum_mono. intros r Hr. rewrite (Rmult_comm c). destruct (p =? r) eqn:Q.
      + apply Nat.eqb_eq in Q. subst r. unfold b. assert ((T q p * w' p <= T q p * (th * c))%R) by (apply Rmult_le_compat_l; lra). lra.
      + assert ((T q r * w' r <= T q r * c)%R) by (apply Rmult_le_compat_l; [apply T0; lia|apply M; lia]). lra.
    - rewrite rsum_minus, rsum_scal. unfold tau. f_equal. rewrite (rsum_single 0 n p (fun _ => (b * c)%R)) by lia. reflexivity. }
  assert (H2 : (a q * w q <= a q * c)%R) by (apply Rmult_le_compat_l; lra).
  assert (P0 : (0 <= (a q + tau q - b) * c)%R) by (apply Rmult_le_pos; lra).
  apply (Rmult_le_reg_l (a q + tau q)); auto. replace ((a q + tau q) * ((a q + tau q - b) / (a q + tau q) * c))%R with ((a q + tau q - b) * c)%R by (field; lra).
  destruct (Rle_dec (w' q) 0) as [L|L]; [apply Rle_trans with 0%R; auto; rewrite <- (Rmult_0_r (a q + tau q)); apply Rmult_le_compat_l; lra|].
  assert (0 <= k q * w' q)%R by (apply Rmult_le_pos; lra). lra.
Qed.
Hypothesis (conn : forall S : nat -> Prop, (exists p, p < n /\ S p) -> (forall p q, p < n -> q < n -> S p -> (0 < T p q)%R -> S q) -> forall p, p < n -> S p).
Lemma shrinks p0 : p0 < n -> (0 < k p0)%R -> exists rho, (0 <= rho < 1)%R /\ forall c w w', (0 <= c)%R -> (forall p, p < n -> (Rabs (w p) <= c)%R) ->
  (forall p, p < n -> oper n T a k w' p = (a p * w p)%R) -> forall p, p < n -> (Rabs (w' p) <= rho * c)%R.
Proof using T0 Ts a0 k0 conn.
  intros H0 K0. assert (A : forall p, p < n -> strict p).
  { apply conn; [exists p0; split; auto; now apply strict_held|]. intros p q Hp Hq. now apply strict_next. }
  assert (U : forall j, j <= n -> exists rho, (0 <= rho < 1)%R /\ forall p, p < j -> forall c w w', step_of c w w' -> (w' p <= rho * c)%R).
  { induction j as [|j IH]; intros Hj; [exists 0%R; split; [lra|lia]|]. destruct (IH ltac:(lia)) as (rho & R1 & R2). destruct (A j ltac:(lia)) as (th & T1 & T2).
    exists (Rmax rho th). split; [split; [apply Rle_trans with rho; [lra|apply Rmax_l]|apply Rmax_lub_lt; lra]|]. intros p Hp c w w' St. pose proof (proj1 St) as C0.
    destruct (Nat.eq_dec p j) as [->|Np]; [apply Rle_trans with (th * c)%R; [now apply (T2 c w w')|apply Rmult_le_compat_r; [auto|apply Rmax_r]]|].
    apply Rle_trans with (rho * c)%R; [apply (R2 p ltac:(lia) c w w' St)|apply Rmult_le_compat_r; [auto|apply Rmax_l]]. }
  destruct (U n (le_n n)) as (rho & R1 & R2). exists rho. split; auto. intros c w w' C0 Hw E p Hp. apply Rabs_le. split.
  - assert (St : step_of c (fun q => - w q)%R (fun q => - w' q)%R).
    { split; auto. split; [intros q Hq; specialize (Hw q Hq); pose proof (Rle_abs (- w q)) as Q; rewrite Rabs_Ropp in Q; lra|].
      intros q Hq. specialize (E q Hq). unfold oper in *. rewrite flux_opp. lra. }
    pose proof (R2 p Hp _ _ _ St) as Q. cbv beta in Q. lra.
  - apply (R2 p Hp c w w'). split; auto. split; auto. intros q Hq. specialize (Hw q Hq). pose proof (Rle_abs (w q)). lra.
Qed.
End shrink.

(** ** What holds the pressures *)
Section held.
Context (m : bo R) (x y z : nat) (u : bool) (dx dy dz : dinput R) (K : model m x y z u dx dy dz).
Notation N := (length (b_ids m)).
Context (p : bo R) (C : core p = core m) (s : fs R) (Rd : ready (m := p) s) (Op : operated p).
Lemma Bmu_pos : (0 < b_B m * b_mu m)%R.
Proof using K. clear -K. destruct K. apply Rmult_lt_0_compat; auto. Qed.
Lemma kw_nonneg id : (0 <= kw m p id)%R.
Proof using K Op.
  unfold kw. destruct (dget id (b_wells p)) as [w|] eqn:E; [|lra]. destruct (Op id w E) as [(q & A1 & _)|(G & pw & (A1 & _ & A2) & L)]; rewrite A1; [cbn; destruct (w_G w); lra|].
  rewrite A2. cbn. apply Rmult_le_pos; auto. left. apply Rinv_0_lt_compat, Bmu_pos.
Qed.
Lemma face_kept idb : face_id p idb -> face_id m idb.
Proof using C. destruct (core_fields _ _ C) as (Cg & _). unfold face_id. now rewrite Cg. Qed.
Lemma kb_nonneg idb : (0 <= kb m p idb)%R.
Proof using K C Rd.
  unfold kb. destruct (dget idb (b_bdict p)) as [[c v]|] eqn:E; [|lra]. destruct (String.eqb c "pressure"); [|lra].
  apply dget_In in E. pose proof (face_kept idb (r_bf _ Rd _ E)) as Fb. destruct (edge_face K idb Fb) as (_ & Q & _). lra.
Qed.
Lemma kbs_nonneg l : (0 <= sumR (map (kb m p) l))%R.
Proof using K C Rd. induction l as [|j l IH]; cbn [map sumR]; [lra|]. pose proof (kb_nonneg j). lra. Qed.
Lemma kap_nonneg q : (0 <= kap m p q)%R.
Proof using K C Rd Op. unfold kap. pose proof (kw_nonneg (nth q (b_ids m) 0%Z)). pose proof (kbs_nonneg (bns m (nth q (b_ids m) 0%Z))). lra. Qed.
Lemma kbs_pos l j : In j l -> (0 < kb m p j)%R -> (0 < sumR (map (kb m p) l))%R.
Proof using K C Rd. induction l as [|i l IH]; intros I H; [destruct I|]. cbn [map sumR]. destruct I as [->|I]; [pose proof (kbs_nonneg l); lra|]. specialize (IH I H). pose proof (kb_nonneg i). lra. Qed.
Lemma kap_held : anchored p -> exists q, q < N /\ (0 < kap m p q)%R.
Proof using K C Rd Op.
  destruct (core_fields _ _ C) as (Cg & Ci & _).
  intros [(id & w & G & pw & Ew & (A1 & _ & A2) & Gp)|(idb & w & Ib)].
  - assert (I : In id (b_ids m)). { rewrite <- Ci. apply (r_wi _ Rd), dget_keys. congruence. }
    destruct (In_nth_error _ _ I) as (q & E). exists q. split; [apply nth_error_Some; congruence|]. unfold kap. rewrite (nth_error_nth _ _ _ E).
    assert ((0 < kw m p id)%R). { unfold kw. rewrite Ew, A1, A2. cbn. apply Rmult_lt_0_compat; auto. apply Rinv_0_lt_compat, Bmu_pos. }
    pose proof (kbs_nonneg (bns m id)). lra.
  - pose proof (face_kept idb (r_bf _ Rd _ Ib)) as Fb. destruct (edge_face K idb Fb) as (_ & Q & Ie & _). set (id := fst (edge (m := m) idb)) in *.
    pose proof (proj2 (proj1 (edge_bns K idb id Fb Ie)) eq_refl) as J. destruct (In_nth_error _ _ Ie) as (q & E). exists q. split; [apply nth_error_Some; congruence|]. unfold kap. rewrite (nth_error_nth _ _ _ E).
    assert ((0 < kb m p idb)%R). { unfold kb. rewrite (dget_In_nodup _ _ _ (r_bk _ Rd) Ib). cbn. lra. }
    pose proof (kbs_pos _ idb J ltac:(assumption)). pose proof (kw_nonneg id). lra.
Qed.
Lemma model_shrinks v : b_cmp m = true -> anchored p ->
  exists rho, (0 <= rho < 1)%R /\ forall c w w', (0 <= c)%R -> (forall q, q < N -> (Rabs (w q) <= c)%R) ->
  (forall q, q < N -> oper N (Cp m v) (acc m) (kap m p) w' q = (acc m q * w q)%R) -> forall q, q < N -> (Rabs (w' q) <= rho * c)%R.
Proof using K C Rd Op.
  intros Cm An. destruct (kap_held An) as (q0 & H0 & Hk).
  apply (shrinks N (Cp m v) (acc m) (kap m p)) with (p0 := q0); auto.
  - intros; now apply (Cp_nonneg m x y z u dx dy dz K).
  - intros a b Ha Hb. destruct v; cbn; [now apply (cp_sym K)|now apply (scoup_sym K)].
  - intros a Ha. pose proof (acc_sign K a Ha) as Q. now rewrite Cm in Q.
  - intros a Ha. apply kap_nonneg.
  - exact (Cp_connected m x y z u dx dy dz K v).
Qed.
End held.

(** ** Steps of one simulation, one after another *)
Fixpoint triples (E : list (fl R) -> list (fl R) -> list (fl R) -> Prop) a b (P : list (list (fl R))) : Prop :=
  match P with [] => True | n :: P => E a b n /\ triples E b n P end.
(** Two models in which fluid flows alike: they may differ in what they store. *)
Definition same_flow (m m' : bo R) : Prop := b_grid m' = b_grid m /\ b_ids m' = b_ids m /\ b_mu m' = b_mu m /\ b_B m' = b_B m /\ b_g m' = b_g m.
Lemma core_flow (m m' : bo R) : core m' = core m -> same_flow m m'.
Proof. intros C. destruct (core_fields _ _ C) as (C1 & C2 & C3 & C4 & C5 & _). repeat split; auto. Qed.
Lemma flow_trans (m m' : bo R) id b : same_flow m m' -> get_cell_trans m' id b = get_cell_trans m id b.
Proof. intros (E1 & _ & E2 & E3 & _). unfold get_cell_trans, muB. now rewrite E1, E2, E3. Qed.
Lemma flow_Cp (m m' : bo R) v : same_flow m m' -> Cp m' v = Cp m v.
Proof.
  intros H. destruct v; cbn [Cp].
  - destruct H as (E1 & _ & E2 & E3 & _). unfold coupling, get_cells_trans, muB. now rewrite E1, E2, E3.
  - destruct m, m'; destruct H as (E1 & E2 & E3 & E4 & E5). cbn in E1, E2, E3, E4, E5. subst. reflexivity.
Qed.
Lemma flow_wt (m m' : bo R) v : same_flow m m' -> wt m' v = wt m v.
Proof. intros H. destruct v; [reflexivity|]. destruct m, m'; destruct H as (E1 & E2 & E3 & E4 & E5). cbn in E1, E2, E3, E4, E5. subst. reflexivity. Qed.
Lemma flow_bns (m m' : bo R) id : same_flow m m' -> bns m' id = bns m id.
Proof. intros (E & _). unfold bns, bgrid. now rewrite E. Qed.
Lemma flow_edge (m m' : bo R) idb : same_flow m m' -> edge (m := m') idb = edge (m := m) idb.
Proof. intros H. unfold edge. now rewrite (flow_trans _ _ _ _ H). Qed.
Lemma flow_given (m m' : bo R) idb e r : same_flow m m' -> rate_given m idb e r -> rate_given m' idb e r.
Proof. intros H. unfold rate_given, gradient_rate. rewrite (flow_trans _ _ _ _ H). destruct H as (E & _). unfold bgrid, gd. now rewrite E. Qed.
Lemma no_rates m m' x y z u dx dy dz s : model m x y z u dx dy dz -> same_flow m m' -> ready (m := m) s -> same_controls m m' -> conditioned m -> operated m -> rates_added (fun _ => 0%R) m m'.
Proof.
  intros K C Rd Sc Cn Op. split.
  - intros id. pose proof (controls_get m m' id Sc) as Q. destruct (dget id (b_wells m)) as [w|] eqn:E1, (dget id (b_wells m')) as [w'|] eqn:E2; try contradiction.
    + destruct Q as (Q1 & Q2). destruct (Op id w E1) as [(q & A)|(G & pw & A & _)].
      * left. exists q. unfold well_gives. rewrite E1, E2, Rplus_0_r. split; auto. now apply Q1.
      * right. split; auto. exists w, w', G, pw. split; [reflexivity|]. split; [reflexivity|]. split; [exact A|now apply Q2].
    + left. exists 0%R. unfold well_gives. rewrite E1, E2, Rplus_0_r. auto.
  - intros idb. destruct Sc as (B & _). destruct (dget idb (b_bdict m)) as [[c v]|] eqn:E.
    + pose proof (dget_In _ _ _ E) as I. destruct (Cn _ I) as [Q|Q]; cbn [fst snd] in Q.
      * subst c. right. exists v. rewrite B. auto.
      * left. assert (R : exists r, rate_given m idb (c, v) r).
        { destruct Q as [Q|Q]; [exists v; left; auto|]. destruct (gradient_ok K idb v (r_bf _ Rd _ I)) as (r & G1 & _). exists r. right. auto. }
        destruct R as (r & R). exists r. unfold bound_gives. rewrite B, E. split; auto. now apply (flow_given m m').
    + left. exists 0%R. unfold bound_gives. rewrite B, E. auto.
Qed.
Section single.
Context (m0 : bo R) (x y z : nat) (u : bool) (dx dy dz : dinput R) (K : model m0 x y z u dx dy dz).
Notation N := (length (b_ids m0)).
Definition follows (v : bool) (kp : nat -> R) (a b n : list (fl R)) : Prop :=
  valued (b_ids m0) n /\ forall p, p < N -> oper N (Cp m0 v) (acc m0) kp (ch (b_ids m0) b n) p = (acc m0 p * ch (b_ids m0) a b p)%R.
Lemma single_history v kp : forall st pm ps m s mb sb prow rrow,
  stepped m0 v pm m ps s prow rrow -> conditioned m -> operated m -> (forall p, kap m0 m p = kp p) -> Forall (path v) st ->
  all_ok (m, Some s) st -> along balanced_step (m, Some s) st -> after (m, Some s) st = (mb, Some sb) ->
  exists P, s_p sb = (s_p s ++ P)%list /\ triples (follows v kp) (last (s_p ps) []) prow P.
Proof.
  induction st as [|call st IH]; intros pm ps m s mb sb prow rrow S Cn Op Hk F A L E.
  - injection E as <- <-. exists []. rewrite app_nil_r. split; [auto|exact I].
  - cbn [all_ok along after fold_left] in *. destruct A as (A & A'), L as (L & L'). inversion F as [|? ? Fp F']; subst.
    destruct (solve_stepped m0 x y z u dx dy dz K call m s (sp_cb _ _ _ _ _ _ _ _ S) (sp_rb _ _ _ _ _ _ _ _ S) A L) as (slv & sc & fu & spr & o & mc & sc' & n & r & Ec & Fx & S' & SC). rewrite Fx in *. subst call. cbn [path] in Fp. rewrite Fp in S'.
    assert (Rb := sp_rb _ _ _ _ _ _ _ _ S). assert (Cb := sp_cb _ _ _ _ _ _ _ _ S). assert (Cb' := sp_cb _ _ _ _ _ _ _ _ S').
    assert (Ad : rates_added (fun _ => 0%R) m mc) by (apply (no_rates m mc x y z u dx dy dz s); auto; [exact (model_core _ _ _ _ _ _ _ _ _ (eq_sym Cb) K)|apply core_flow; congruence]).
    assert (El : last (s_p s) [] = prow) by now rewrite (sp_p _ _ _ _ _ _ _ _ S), last_last.
    pose proof (added_step m0 x y z u dx dy dz K (fun _ => 0%R) v pm m ps s prow rrow m mc s sc' n r S S' Ad) as Bl. rewrite El in Bl.
    destruct (IH m s mc sc' mb sb n r S') as (P & Q1 & Q2); auto.
    + now apply (conditioned_kept m).
    + now apply (operated_kept m).
    + intros p. rewrite (kap_kept m0 m mc p SC). apply Hk.
    + exists (n :: P). rewrite Q1, (sp_p _ _ _ _ _ _ _ _ S'), <- app_assoc. split; [reflexivity|]. rewrite El in Q2. split; auto.
      split; [exact (stepped_valued m0 x y z u dx dy dz K _ _ _ _ _ _ _ S')|]. intros p Hp. specialize (Bl p Hp). unfold oper in Bl |- *. rewrite Hk in Bl. rewrite Bl. ring.
Qed.
(** From the start. *)
Lemma single_from v kp st m s mb sb h : core m = core m0 -> ready (m := m) s -> conditioned m -> operated m -> (forall p, kap m0 m p = kp p) -> Forall (path v) st ->
  all_ok (m, Some s) st -> along balanced_step (m, Some s) st -> after (m, Some s) st = (mb, Some sb) -> s_p s = [h] ->
  exists P, s_p sb = h :: P /\ match P with [] => True | n :: P => valued (b_ids m0) n /\ triples (follows v kp) h n P end.
Proof.
  intros C R Cn Op Hk F A L E Hs. destruct st as [|call st]; [injection E as <- <-; exists []; auto|].
  cbn [all_ok along after fold_left] in *. destruct A as (A & A'), L as (L & L'). inversion F as [|? ? Fp F']; subst.
  destruct (solve_stepped m0 x y z u dx dy dz K call m s C R A L) as (slv & sc & fu & spr & o & mc & sc' & n & r & Ec & Fx & S' & SC). rewrite Fx in *. subst call. cbn [path] in Fp. rewrite Fp in S'.
  destruct (single_history v kp st m s mc sc' mb sb n r S') as (P & E1 & E2); auto.
  - now apply (conditioned_kept m).
  - now apply (operated_kept m).
  - intros p. rewrite (kap_kept m0 m mc p SC). apply Hk.
  - exists (n :: P). rewrite E1, (sp_p _ _ _ _ _ _ _ _ S'), Hs. split; [reflexivity|]. rewrite Hs in E2. split; auto. exact (stepped_valued m0 x y z u dx dy dz K _ _ _ _ _ _ _ S').
Qed.
End single.

(** ** Rows that settle *)
Lemma near_ch m d r0 r1 : near m d r0 r1 -> forall p, p < length (b_ids m) -> (Rabs (ch (b_ids m) r0 r1 p) <= d)%R.
Proof. intros H p Hp. destruct (H (nth p (b_ids m) 0%Z)) as (v0 & v1 & V0 & V1 & Q); [now apply nth_In|]. unfold ch, rv. rewrite V0, V1, Rabs_minus_sym. exact Q. Qed.
Lemma ch_near m d r0 r1 : valued (b_ids m) r0 -> valued (b_ids m) r1 -> (forall p, p < length (b_ids m) -> (Rabs (ch (b_ids m) r0 r1 p) <= d)%R) -> near m d r0 r1.
Proof.
  intros V0 V1 H id I. destruct (V0 id I) as (v0 & E0). destruct (V1 id I) as (v1 & E1). exists v0, v1. split; auto. split; auto.
  destruct (In_nth_error _ _ I) as (p & E). specialize (H p ltac:(apply nth_error_Some; congruence)). unfold ch, rv in H. rewrite (nth_error_nth _ _ _ E), E0, E1, Rabs_minus_sym in H. exact H.
Qed.
Lemma near_valued m d r0 r1 : near m d r0 r1 -> valued (b_ids m) r0 /\ valued (b_ids m) r1.
Proof. intros H. split; intros id I; destruct (H id I) as (v0 & v1 & V0 & V1 & _); eauto. Qed.
Lemma near_trans m d d' r0 r1 r2 : near m d r0 r1 -> near m d' r1 r2 -> near m (d + d') r0 r2.
Proof.
  intros H1 H2 id I. destruct (H1 id I) as (v0 & v1 & V0 & V1 & Q). destruct (H2 id I) as (v1' & v2 & V1' & V2 & Q'). rewrite V1 in V1'. injection V1' as <-. exists v0, v2. repeat (split; [assumption|]).
  replace (v0 - v2)%R with ((v0 - v1) + (v1 - v2))%R by ring. apply Rle_trans with (1 := Rabs_triang _ _). lra.
Qed.
Lemma near_more m d d' r0 r1 : (d <= d')%R -> near m d r0 r1 -> near m d' r0 r1.
Proof. intros L H id I. destruct (H id I) as (v0 & v1 & V0 & V1 & Q). exists v0, v1. repeat (split; [assumption|]). lra. Qed.
(** Changes that shrink by a factor in every step stay within a geometric series. *)
Fixpoint shrinking (m : bo R) (rho d : R) (a : list (fl R)) (P : list (list (fl R))) : Prop :=
  match P with [] => True | n :: P => near m d a n /\ shrinking m rho (rho * d) n P end.
Lemma triples_shrink m v kp rho : (0 <= rho)%R ->
  (forall c w w', (0 <= c)%R -> (forall q, q < length (b_ids m) -> (Rabs (w q) <= c)%R) ->
    (forall q, q < length (b_ids m) -> oper (length (b_ids m)) (Cp m v) (acc m) kp w' q = (acc m q * w q)%R) -> forall q, q < length (b_ids m) -> (Rabs (w' q) <= rho * c)%R) ->
  forall P a b d, (0 <= d)%R -> near m d a b -> triples (follows m v kp) a b P -> shrinking m rho d a (b :: P).
Proof.
  intros R0 H. induction P as [|n P IH]; intros a b d D0 Nr Tr; [split; [exact Nr|exact I]|]. destruct Tr as ((Vn & E) & Tr). split; [exact Nr|]. apply IH; [now apply Rmult_le_pos| |exact Tr].
  apply ch_near; [apply (near_valued _ _ _ _ Nr)|exact Vn|]. apply (H d (ch (b_ids m) a b)); auto. now apply near_ch.
Qed.
Lemma shrinking_sum m rho : (0 <= rho < 1)%R -> forall P a d n r, (0 <= d)%R -> shrinking m rho d a P -> valued (b_ids m) a -> nth_error (a :: P) n = Some r -> near m (d / (1 - rho)) a r.
Proof.
  intros R0. assert (I0 : (0 < / (1 - rho))%R) by (apply Rinv_0_lt_compat; lra). induction P as [|b P IH]; intros a d n r D0 Sh Va Hn.
  - destruct n as [|n]; [|destruct n; discriminate]. injection Hn as <-. intros id I. destruct (Va id I) as (v & E). exists v, v. repeat (split; [exact E|]). rewrite Rminus_diag_eq, Rabs_R0 by reflexivity. apply Rmult_le_pos; lra.
  - destruct n as [|n].
    + injection Hn as <-. intros id I. destruct (Va id I) as (v & E). exists v, v. repeat (split; [exact E|]). rewrite Rminus_diag_eq, Rabs_R0 by reflexivity. apply Rmult_le_pos; lra.
    + destruct Sh as (Nr & Sh). replace (d / (1 - rho))%R with (d + rho * d / (1 - rho))%R by (field; lra). apply (near_trans m d _ a b r Nr). apply (IH b (rho * d)%R n r); auto; [apply Rmult_le_pos; lra|apply (near_valued _ _ _ _ Nr)].
Qed.
Lemma shrinking_tail m rho : (0 <= rho < 1)%R -> forall P a d k n r r', (0 <= d)%R -> shrinking m rho d a P -> valued (b_ids m) a -> k <= n -> nth_error (a :: P) k = Some r -> nth_error (a :: P) n = Some r' ->
  near m (rho ^ k * d / (1 - rho)) r r'.
Proof.
  intros R0. induction P as [|b P IH]; intros a d k n r r' D0 Sh Va Le Hk Hn.
  - destruct k as [|k]; [|destruct k; discriminate]. injection Hk as <-. rewrite Rmult_1_l. exact (shrinking_sum m rho R0 [] a d n r' D0 Sh Va Hn).
  - destruct k as [|k]; [injection Hk as <-; rewrite Rmult_1_l; exact (shrinking_sum m rho R0 (b :: P) a d n r' D0 Sh Va Hn)|]. destruct n as [|n]; [lia|]. destruct Sh as (Nr & Sh).
    replace (rho ^ S k * d / (1 - rho))%R with (rho ^ k * (rho * d) / (1 - rho))%R by (cbn; field; lra). apply (IH b (rho * d)%R k n r r'); auto; [apply Rmult_le_pos; lra|apply (near_valued _ _ _ _ Nr)|lia].
Qed.
(** Two simulations. *)
Lemma chain_shrink m v kp rho : (0 <= rho)%R ->
  (forall c w w', (0 <= c)%R -> (forall q, q < length (b_ids m) -> (Rabs (w q) <= c)%R) ->
    (forall q, q < length (b_ids m) -> oper (length (b_ids m)) (Cp m v) (acc m) kp w' q = (acc m q * w q)%R) -> forall q, q < length (b_ids m) -> (Rabs (w' q) <= rho * c)%R) ->
  forall P0 P1 h0 h1 d, (0 <= d)%R -> near m d h0 h1 ->
  chain (fun h0 h1 n0 n1 => valued (b_ids m) n0 /\ valued (b_ids m) n1 /\ forall p, p < length (b_ids m) -> oper (length (b_ids m)) (Cp m v) (acc m) kp (ch (b_ids m) n0 n1) p = (acc m p * ch (b_ids m) h0 h1 p + 0)%R) h0 h1 P0 P1 ->
  forall k r0 r1, nth_error (h0 :: P0) k = Some r0 -> nth_error (h1 :: P1) k = Some r1 -> near m (rho ^ k * d) r0 r1.
Proof.
  intros R0 H. induction P0 as [|n0 P0 IH]; intros P1 h0 h1 d D0 Nr Ch k r0 r1 N0 N1.
  - destruct k as [|k]; [|destruct k; discriminate]. injection N0 as <-. injection N1 as <-. now rewrite Rmult_1_l.
  - destruct P1 as [|n1 P1]; [contradiction|]. destruct k as [|k]; [injection N0 as <-; injection N1 as <-; now rewrite Rmult_1_l|]. destruct Ch as ((V0 & V1 & E) & Ch).
    replace (rho ^ S k * d)%R with (rho ^ k * (rho * d))%R by (cbn; ring). apply (IH P1 n0 n1 (rho * d)%R); auto; [now apply Rmult_le_pos|].
    apply ch_near; auto. apply (H d (ch (b_ids m) h0 h1)); auto; [now apply near_ch|]. intros q Hq. rewrite (E q Hq). ring.
Qed.

(** ** Towards the steady state *)
Lemma same_controls_trans (m1 m2 m3 : bo R) : same_controls m1 m2 -> same_controls m2 m3 -> same_controls m1 m3.
Proof.
  intros (B1 & N1 & W1) (B2 & N2 & W2). split; [congruence|]. split; [auto|]. intros id w E. destruct (W1 id w E) as (w' & E' & Q'). destruct (W2 id w' E') as (w'' & E'' & Q''). exists w''. split; auto. congruence.
Qed.
Lemma row_stepped m0 x y z u dx dy dz (K : model m0 x y z u dx dy dz) v : forall st m s mb sb, core m = core m0 -> ready (m := m) s -> Forall (path v) st ->
  all_ok (m, Some s) st -> along balanced_step (m, Some s) st -> after (m, Some s) st = (mb, Some sb) ->
  forall j n, nth_error (s_p sb) (length (s_p s) + j) = Some n -> exists ma' mb' sa' sb' r, stepped m0 v ma' mb' sa' sb' n r /\ same_controls m mb'.
Proof.
  induction st as [|call st IH]; intros m s mb sb C R F A L E j n Hn.
  - injection E as <- <-. exfalso. assert (Q : nth_error (s_p s) (length (s_p s) + j) = None) by (apply nth_error_None; lia). rewrite Q in Hn. discriminate.
  - cbn [all_ok along after fold_left] in *. destruct A as (A & A'), L as (L & L'). inversion F as [|? ? Fp F']; subst.
    destruct (solve_stepped m0 x y z u dx dy dz K call m s C R A L) as (slv & sc & fu & spr & o & mc & sc' & n' & r & Ec & Fx & S' & SC). rewrite Fx in *. subst call. cbn [path] in Fp. rewrite Fp in S'.
    assert (Cb := sp_cb _ _ _ _ _ _ _ _ S'). assert (Rb := sp_rb _ _ _ _ _ _ _ _ S'). destruct j as [|j].
    + destruct (rows_grow m0 x y z u dx dy dz K st mc sc' mb sb Cb Rb A' L' E) as (P & EP). rewrite EP, (sp_p _ _ _ _ _ _ _ _ S'), <- app_assoc, nth_error_app2, Nat.add_0_r, Nat.sub_diag in Hn by lia. cbn in Hn. injection Hn as ->. do 5 eexists. eauto.
    + destruct (IH mc sc' mb sb Cb Rb F' A' L' E j n) as (ma' & mb' & sa' & sb' & r' & S1 & S2).
      { rewrite (sp_p _ _ _ _ _ _ _ _ S'), app_length. cbn [length]. rewrite <- Hn. f_equal. lia. }
      exists ma', mb', sa', sb', r'. split; auto. eapply same_controls_trans; eauto.
Qed.
Section towards.
Context (m ms : bo R) (x y z : nat) (u : bool) (dx dy dz : dinput R) (K : model m x y z u dx dy dz) (Ks : model ms x y z u dx dy dz) (Sf : same_flow m ms) (Cs : b_cmp ms = false).
Notation N := (length (b_ids m)).
Lemma steady_step v ma mb sa sb n r mas mbs sas sbs ns rs :
  stepped m v ma mb sa sb n r -> stepped ms v mas mbs sas sbs ns rs -> rates_added (fun _ => 0%R) mb mbs -> forall p, p < N ->
  oper N (Cp m v) (acc m) (kap m mb) (ch (b_ids m) ns n) p = (acc m p * ch (b_ids m) ns (last (s_p sa) []) p)%R.
Proof.
  intros S0 S1 (Cw & Cc) p Hp.
  destruct (stepped_eq m x y z u dx dy dz K _ _ _ _ _ _ _ S0) as (F0 & y0 & o0 & Y0 & O0 & E0). destruct (stepped_eq ms x y z u dx dy dz Ks _ _ _ _ _ _ _ S1) as (F1 & y1 & o1 & Y1 & _ & E1).
  rewrite (flow_Cp m ms v Sf), (flow_wt m ms v Sf) in E1.
  assert (Ei : b_ids ms = b_ids m) by apply Sf. 
  assert (C0 := sp_cb _ _ _ _ _ _ _ _ S0). assert (C1 := sp_cb _ _ _ _ _ _ _ _ S1).
  assert (R0 := sp_rb _ _ _ _ _ _ _ _ S0). assert (R1 := sp_rb _ _ _ _ _ _ _ _ S1).
  assert (Nbd : forall mm (Km : model mm x y z u dx dy dz) m' s id, ready (m := m') s -> core m' = core mm -> In id (b_ids mm) -> dget id (b_bdict m') = None).
  { intros mm Kmm m' s id Rm Cm I. pose proof (model_core _ _ _ _ _ _ _ _ _ (eq_sym Cm) Kmm) as Km. destruct (core_fields _ _ Cm) as (_ & Ci & _). destruct (dget id (b_bdict m')) as [e|] eqn:Q; auto. exfalso. apply dget_In in Q. apply (face_facts Km _ (r_bf _ Rm _ Q)). now rewrite Ci. }
  assert (Nwl : forall mm (Km : model mm x y z u dx dy dz) m' s idb, ready (m := m') s -> core m' = core mm -> face_id mm idb -> dget idb (b_wells m') = None).
  { intros mm Kmm m' s idb Rm Cm Fb. destruct (core_fields _ _ Cm) as (_ & Ci & _). destruct (dget idb (b_wells m')) as [w|] eqn:Q; auto. exfalso. apply (face_facts Kmm idb Fb). rewrite <- Ci. apply (r_wi _ Rm). apply dget_keys. congruence. }
  assert (Yc : forall q, q < N -> ch (b_ids m) ns n q = (y0 q - y1 q)%R).
  { intros q Hq. destruct (nth_error (b_ids m) q) as [id|] eqn:E; [|apply nth_error_None in E; lia]. unfold ch, rv. rewrite (nth_error_nth _ _ _ E), (Y0 q id E), (Y1 q id); [reflexivity|]. now rewrite Ei. }
  destruct (nth_error (b_ids m) p) as [id|] eqn:E; [|apply nth_error_None in E; lia]. assert (Es : nth_error (b_ids ms) p = Some id) by now rewrite Ei.
  assert (I : In id (b_ids m)) by (eapply nth_error_In; eauto). assert (Is : In id (b_ids ms)) by now rewrite Ei.
  unfold oper, kap. rewrite (nth_error_nth _ _ _ E), (Yc p Hp). rewrite (flux_ext N (Cp m v) (Cp m v) (ch (b_ids m) ns n) (fun q => y0 q - y1 q - 0)%R p) by (auto; intros q Hq; rewrite Yc by auto; ring).
  rewrite <- (flux_diff N (Cp m v) y1 y0 (wt m v) 0 p). specialize (E0 p id E). specialize (E1 p id Es). specialize (Y0 p id E). specialize (Y1 p id Es).
  rewrite (flow_bns m ms id Sf), Ei in E1.
  assert (A1 : acc ms p = 0%R). { pose proof (acc_sign Ks p ltac:(now rewrite Ei)) as Q. now rewrite Cs in Q. }
  rewrite A1 in E1.
  assert (Hw : (rv r id - rv rs id = - kw m mb id * (y0 p - y1 p))%R).
  { destruct (Cw id) as [(q & W0 & W1)|(D0 & w0 & w1 & G & pw & G0 & G1 & B0 & B1)].
    - rewrite Rplus_0_r in W1. rewrite (well_rate m x y z u dx dy dz K mb n r id q), (well_rate ms x y z u dx dy dz Ks mbs ns rs id q), (gives_kw m mb id q) by eauto. ring.
    - rewrite (well_rate_bhp m mb n r id w0 G pw (y0 p)), (well_rate_bhp ms mbs ns rs id w1 G pw (y1 p)) by auto. destruct Sf as (_ & _ & -> & -> & _). unfold kw. rewrite G0. destruct B0 as (-> & _ & ->). cbn. ring. }
  assert (Hb : forall j, In j (bns m id) -> (rv r j - rv rs j = - (y0 p - y1 p) * kb m mb j)%R).
  { intros j J. pose proof (bns_face K id j I J) as Fb. assert (Js : In j (bns ms id)) by now rewrite (flow_bns m ms id Sf). pose proof (bns_face Ks id j Is Js) as Fs. destruct (Cc j) as [(q & W0 & W1)|(pp & G0 & G1)].
    - rewrite (bound_rate m x y z u dx dy dz K mb n r j q), (bound_rate ms x y z u dx dy dz Ks mbs ns rs j q), (gives_kb m mb j q) by eauto. ring.
    - destruct (bound_rate_p m x y z u dx dy dz K mb n r j id pp (y0 p) C0 F0 I J G0 Y0) as (z0 & d0 & Z0 & D0 & ->). destruct (bound_rate_p ms x y z u dx dy dz Ks mbs ns rs j id pp (y1 p) C1 F1 Is Js G1 Y1) as (z1 & d1 & Z1 & D1 & ->).
      rewrite (flow_edge m ms j Sf). assert (Zz : gz ms = gz m) by (unfold gz; destruct Sf as (-> & _); reflexivity). assert (z1 = z0) by congruence. subst z1. assert (d1 = d0) by congruence. subst d1. destruct Sf as (_ & _ & _ & _ & ->). unfold kb. rewrite G0. cbn. ring. }
  assert (Hs : (sumR (map (rv r) (bns m id)) - sumR (map (rv rs) (bns m id)) = - (y0 p - y1 p) * sumR (map (kb m mb) (bns m id)))%R).
  { rewrite <- sumR_minus. revert Hb. generalize (bns m id). induction l as [|j l IH]; intros Hb; cbn [map sumR]; [ring|]. rewrite (Hb j (or_introl eq_refl)), (IH (fun i Hi => Hb i (or_intror Hi))). ring. }
  assert (Ha : (acc m p * ch (b_ids m) ns (last (s_p sa) []) p = acc m p * (o0 p - y1 p))%R).
  { pose proof (acc_sign K p Hp) as Q. destruct (b_cmp m) eqn:Cm; [|rewrite Q; ring]. unfold ch, rv. rewrite (nth_error_nth _ _ _ E), (O0 eq_refl p id E), Y1. reflexivity. }
  rewrite Ha.
  set (f0 := flux N (Cp m v) (fun q => y0 q - wt m v q)%R p) in *. set (f1 := flux N (Cp m v) (fun q => y1 q - wt m v q)%R p) in *. lra.
Qed.
Lemma towards_history v kp mas mbs sas sbs ns rs : stepped ms v mas mbs sas sbs ns rs -> forall st, Forall (path v) st -> forall ma sa mb sb,
  core ma = core m -> ready (m := ma) sa -> rates_added (fun _ => 0%R) ma mbs -> (forall p, kap m ma p = kp p) ->
  all_ok (ma, Some sa) st -> along balanced_step (ma, Some sa) st -> after (ma, Some sa) st = (mb, Some sb) ->
  exists P, s_p sb = (s_p sa ++ P)%list /\ linked (fun h n => valued (b_ids m) n /\ forall p, p < N -> oper N (Cp m v) (acc m) kp (ch (b_ids m) ns n) p = (acc m p * ch (b_ids m) ns h p)%R) (last (s_p sa) []) P.
Proof.
  intros Ss. induction st as [|c0 st IH]; intros F ma sa mb sb C0 R0 Cb Hk A0 L0 E0.
  - injection E0 as <- <-. exists []. rewrite app_nil_r. split; [auto|exact I].
  - inversion F as [|? ? V0 V1]; subst. cbn [all_ok along after fold_left] in *. destruct A0 as (A0 & A0'), L0 as (L0 & L0').
    destruct (solve_stepped m x y z u dx dy dz K c0 ma sa C0 R0 A0 L0) as (slv0 & sc0 & fu0 & spr0 & o0 & mc & sc' & n & r & Ec0 & F0 & S0 & SC0). rewrite F0 in *. subst c0. cbn [path] in V0. rewrite V0 in S0.
    assert (D0 := sp_cb _ _ _ _ _ _ _ _ S0).
    assert (Cb' : rates_added (fun _ => 0%R) mc mbs) by (apply (added_kept _ ma mbs); auto; [congruence|split; [reflexivity|split; [auto|intros i w Ew; eauto]]]).
    assert (Hk' : forall p, kap m mc p = kp p) by (intros p; rewrite (kap_kept m ma mc p SC0); apply Hk).
    pose proof (steady_step v ma mc sa sc' n r mas mbs sas sbs ns rs S0 Ss Cb') as Bl.
    destruct (IH V1 mc sc' mb sb) as (P & Q0 & Q4); auto; [apply S0|]. exists (n :: P). rewrite Q0, (sp_p _ _ _ _ _ _ _ _ S0), <- app_assoc. split; [reflexivity|].
    rewrite (sp_p _ _ _ _ _ _ _ _ S0), last_last in Q4. split; auto. split; [exact (stepped_valued m x y z u dx dy dz K _ _ _ _ _ _ _ S0)|].
    intros p Hp. specialize (Bl p Hp). unfold oper in Bl |- *. rewrite Hk' in Bl. exact Bl.
Qed.
Lemma towards_shrink v kp ns rho : (0 <= rho)%R -> valued (b_ids m) ns ->
  (forall c w w', (0 <= c)%R -> (forall q, q < N -> (Rabs (w q) <= c)%R) -> (forall q, q < N -> oper N (Cp m v) (acc m) kp w' q = (acc m q * w q)%R) -> forall q, q < N -> (Rabs (w' q) <= rho * c)%R) ->
  forall P h d, (0 <= d)%R -> near m d ns h ->
  linked (fun h n => valued (b_ids m) n /\ forall p, p < N -> oper N (Cp m v) (acc m) kp (ch (b_ids m) ns n) p = (acc m p * ch (b_ids m) ns h p)%R) h P ->
  forall k r, nth_error (h :: P) k = Some r -> near m (rho ^ k * d) ns r.
Proof using.
  clear. intros R0 Vs H. induction P as [|n P IH]; intros h d D0 Nr Lk k r Hn.
  - destruct k as [|k]; [|destruct k; discriminate]. injection Hn as <-. now rewrite Rmult_1_l.
  - destruct k as [|k]; [injection Hn as <-; now rewrite Rmult_1_l|]. destruct Lk as ((Vn & E) & Lk).
    replace (rho ^ S k * d)%R with (rho ^ k * (rho * d))%R by (cbn; ring). apply (IH n (rho * d)%R); auto; [now apply Rmult_le_pos|].
    apply ch_near; auto. apply (H d (ch (b_ids m) ns h)); auto. now apply near_ch.
Qed.
End towards.
Lemma flow_new (g : gobj R) f f' unit unit' pi pi' dt dt' m m' : but_comp f f' -> bo_new g f unit pi dt = Ok m -> bo_new g f' unit' pi' dt' = Ok m' -> same_flow m m'.
Proof.
  intros (M & B & G). unfold bo_new. rewrite M, B, G. 
  destruct (set_units uobj0 unit) as [u1 [[]|e]]; [|discriminate]. destruct (factor u1 "transmissibility conversion"); cbn [rbind]; [|discriminate]. destruct (factor u1 "volume conversion"); cbn [rbind]; [|discriminate].
  destruct (set_units uobj0 unit') as [u2 [[]|e]]; [|discriminate]. destruct (factor u2 "transmissibility conversion"); cbn [rbind]; [|discriminate]. destruct (factor u2 "volume conversion"); cbn [rbind]; [|discriminate].
  destruct (get_cells_id (ggrid g) false); cbn [rbind]; [|discriminate].
  intros H1 H2. match type of H1 with rbind ?t _ = _ => destruct t; cbn [rbind] in H1; [|discriminate] end. match type of H2 with rbind ?t _ = _ => destruct t; cbn [rbind] in H2; [|discriminate] end.
  destruct (calc_comp g f); cbn [rbind] in *; [|discriminate]. destruct (calc_comp g f'); cbn [rbind] in *; [|discriminate].
  destruct (attrE (f_mu f)); cbn [rbind] in *; [|discriminate]. destruct (attrE (f_B f)); cbn [rbind] in *; [|discriminate]. destruct (attrE (f_g f)); cbn [rbind] in *; [|discriminate].
  match type of H1 with rbind ?t _ = _ => destruct t; cbn [rbind] in *; [|discriminate] end. match type of H2 with rbind ?t _ = _ => destruct t; cbn [rbind] in *; [|discriminate] end. injection H1 as <-. injection H2 as <-. repeat split.
Qed.
