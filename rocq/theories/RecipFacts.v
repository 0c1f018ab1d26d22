(** Facts behind the reciprocity of wells. *)
From Coq Require Import String ZArith Bool Arith List Lia Reals Lra.
From Verif Require Import Prelude PreludeFacts Num GridModel GridSpec GeoModel GeoSpec PropModel PropSpec
  GeoProofs TransProofs UnitsModel BlackOilModel FdmModel MonadFacts HistSpec InvFacts SumFacts ModelSpec ModelFacts VectFacts AsmFacts SolverSpec SolveSpec StepSpec StepFacts WellStepFacts
  MatrixProofs BalanceSpec FdmSpec CanonFacts NbrFacts SymbFacts BalFacts FormFacts StepBal SetupFacts LocalSpec LocalThm ChangeSpec ChangeFacts TotalHist TotalSpec ClosedSpec CompareSpec CompareFacts SuperSpec SuperFacts RecipSpec.
Import ListNotations.
Close Scope R_scope.
Open Scope nat_scope.

(** ** Symmetric couplings *)
Section symmetric.
Variables (n : nat) (T : nat -> nat -> R) (a k : nat -> R).
Hypothesis (Ts : forall p q, p < n -> q < n -> T p q = T q p).
Definition dot (u v : nat -> R) : R := rsum (fun p => (u p * v p)%R) 0 n.
Lemma dot_comm u v : dot u v = dot v u.
Proof using. apply rsum_ext. intros. ring. Qed.
Lemma dot_plus u v w : dot u (fun p => v p + w p)%R = (dot u v + dot u w)%R.
Proof using. unfold dot. rewrite <- rsum_plus. apply rsum_ext. intros. ring. Qed.
Lemma dot_ext u v w : (forall p, p < n -> v p = w p) -> dot u v = dot u w.
Proof using. intros H. apply rsum_ext. intros p Hp. rewrite H by lia. reflexivity. Qed.
Lemma dot_zero u v : (forall p, p < n -> u p = 0%R) -> dot u v = 0%R.
Proof using. intros H. apply rsum_zero. intros p Hp. rewrite H by lia. ring. Qed.
Lemma flux_sym u v : dot v (flux n T u) = dot u (flux n T v).
Proof using Ts.
  assert (E : forall u v, dot v (flux n T u) = (rsum (fun p => rsum (fun q => T p q * (u q * v p))%R 0 n) 0 n - rsum (fun p => rsum (fun q => T p q * (u p * v p))%R 0 n) 0 n)%R).
  { intros u0 v0. unfold dot, flux. rewrite <- rsum_minus. apply rsum_ext. intros p Hp. rewrite <- rsum_minus, <- rsum_scal. apply rsum_ext. intros q Hq. ring. }
  rewrite !E. f_equal; [|apply rsum_ext; intros p Hp; apply rsum_ext; intros; ring].
  rewrite rsum_swap. apply rsum_ext. intros p Hp. apply rsum_ext. intros q Hq. rewrite (Ts q p) by lia. ring.
Qed.
(** The operator of a step. *)
Definition oper (u : nat -> R) (p : nat) : R := (a p * u p - flux n T u p + k p * u p)%R.
Lemma oper_sym u v : dot v (oper u) = dot u (oper v).
Proof using Ts.
  assert (E : forall u v, dot v (oper u) = (rsum (fun p => (a p + k p) * (u p * v p))%R 0 n - dot v (flux n T u))%R).
  { intros u0 v0. unfold dot, oper. rewrite <- rsum_minus. apply rsum_ext. intros. ring. }
  rewrite !E, flux_sym. f_equal. apply rsum_ext. intros. ring.
Qed.
Lemma rsum_rev (f : nat -> R) : forall j lo, rsum f lo j = rsum (fun i => f (lo + (lo + j) - S i))%nat lo j.
Proof using.
  induction j as [|j IH]; intros lo; [reflexivity|]. rewrite rsum_last. cbn [rsum]. replace (lo + (lo + S j) - S lo) with (lo + j) by lia. rewrite Rplus_comm. f_equal.
  rewrite (IH lo), rsum_shift. apply rsum_ext. intros i Hi. f_equal. lia.
Qed.
(** Two sequences of changes, driven by [d1] and by [d2]. *)
Variables (U V : nat -> nat -> R) (d1 d2 : nat -> R) (L : nat).
Hypothesis (HU : forall j p, j < L -> p < n -> oper (U (S j)) p = (a p * U j p + d1 p)%R).
Hypothesis (HV : forall j p, j < L -> p < n -> oper (V (S j)) p = (a p * V j p + d2 p)%R).
Notation pair i j := (dot (V j) (oper (U i))).
Lemma pair_U i j : i < L -> pair (S i) j = (dot (V j) (fun p => a p * U i p) + dot d1 (V j))%R.
Proof using HU. clear -HU. intros H. rewrite (dot_comm d1), <- dot_plus. apply dot_ext. intros p Hp. now apply HU. Qed.
Lemma pair_V i j : j < L -> pair i (S j) = (dot (U i) (fun p => a p * V j p) + dot d2 (U i))%R.
Proof using HV Ts. intros H. rewrite oper_sym, (dot_comm d2), <- dot_plus. apply dot_ext. intros p Hp. now apply HV. Qed.
Lemma pair_shift i j : i < L -> j < L -> (pair (S i) j - pair i (S j) = dot d1 (V j) - dot d2 (U i))%R.
Proof using HU HV Ts.
  intros Hi Hj. rewrite pair_U, pair_V by auto. replace (dot (V j) (fun p => a p * U i p)%R) with (dot (U i) (fun p => a p * V j p)%R); [lra|]. apply rsum_ext. intros. ring.
Qed.
(** From changes that are 0 at first. *)
Lemma reciprocal : (forall p, p < n -> U 0 p = 0%R) -> (forall p, p < n -> V 0 p = 0%R) -> forall j, j <= L -> dot d1 (V j) = dot d2 (U j).
Proof using HU HV Ts.
  intros U0 V0. induction j as [j IH] using (well_founded_induction lt_wf). intros Hj. destruct j as [|j].
  { rewrite !(dot_comm _ (_ 0)), !dot_zero; auto. }
  assert (S1 : forall i, i <= j -> pair (S i) (S j - i) = (dot d1 (V (S j)) + rsum (fun i => dot d1 (V (S j - i)) - dot d2 (U i)) 1 i)%R).
  { induction i as [|i IHi]; intros Hi.
    - rewrite pair_U by lia. rewrite dot_comm, dot_zero; [cbn [rsum Nat.sub]; lra|]. intros p Hp. rewrite U0 by auto. ring.
    - rewrite rsum_last. change (1 + i) with (S i). specialize (IHi ltac:(lia)). pose proof (pair_shift (S i) (S j - S i) ltac:(lia) ltac:(lia)) as Q. replace (S (S j - S i)) with (S j - i) in Q by lia. lra. }
  specialize (S1 j ltac:(lia)). replace (S j - j) with 1 in S1 by lia. rewrite pair_V in S1 by lia.
  rewrite (dot_comm (U (S j))), dot_zero in S1 by (intros p Hp; rewrite V0 by auto; ring). rewrite Rplus_0_l in S1. rewrite S1.
  rewrite rsum_minus. rewrite (rsum_ext (fun i => dot d2 (U i)) (fun i => dot d1 (V i)) 1 j) by (intros i Hi; symmetry; apply IH; lia).
  rewrite (rsum_rev (fun i => dot d1 (V i)) j 1). rewrite (rsum_ext (fun i => dot d1 (V (S j - i))) (fun i => dot d1 (V (1 + (1 + j) - S i))) 1 j) by (intros i Hi; do 2 f_equal; lia). lra.
Qed.
(** Nothing accumulates. *)
Lemma reciprocal_steady : (forall p, p < n -> a p = 0%R) -> forall j, j < L -> dot d1 (V (S j)) = dot d2 (U (S j)).
Proof using HU HV Ts.
  intros A0 j Hj. pose proof (pair_U j (S j) Hj) as Q1. pose proof (pair_V (S j) j Hj) as Q2. rewrite Q1 in Q2.
  assert (Z : forall w X, dot w (fun p => a p * X p)%R = 0%R) by (intros w X; apply rsum_zero; intros p Hp; rewrite A0 by lia; ring).
  rewrite (Z _ (U j)), (Z _ (V j)) in Q2. lra.
Qed.
End symmetric.

(** ** The rates of controls with rates added *)
Definition kw (m m' : bo R) (id : Z) : R :=
  match dget id (b_wells m') with
  | Some w => match w_con w, w_G w with Some (Some c), Some G => if String.eqb c "pwf" then (G / (b_B m * b_mu m))%R else 0%R | _, _ => 0%R end
  | None => 0%R end.
Definition kb (m m' : bo R) (idb : Z) : R :=
  match dget idb (b_bdict m') with Some (c, _) => if String.eqb c "pressure" then (2 * snd (edge (m := m) idb))%R else 0%R | None => 0%R end.
Definition kap (m m' : bo R) (p : nat) : R := (kw m m' (nth p (b_ids m) 0%Z) + sumR (map (kb m m') (bns m (nth p (b_ids m) 0%Z))))%R.
Lemma kap_kept m m1 m2 p : same_controls m1 m2 -> kap m m2 p = kap m m1 p.
Proof.
  intros (B & N & W). unfold kap. f_equal; [|unfold kb; now rewrite B]. unfold kw. destruct (dget _ (b_wells m1)) as [w|] eqn:E; [|now rewrite (N _ E)].
  destruct (W _ w E) as (w' & -> & Q). injection Q as -> _ _ ->. reflexivity.
Qed.
Lemma gives_kw m m' id q : well_gives m' id q -> kw m m' id = 0%R.
Proof. unfold well_gives, kw. destruct (dget id (b_wells m')) as [w|]; auto. intros (-> & _). now destruct (w_G w). Qed.
Lemma gives_kb m m' idb r : bound_gives m' idb r -> kb m m' idb = 0%R.
Proof.
  unfold bound_gives, kb. destruct (dget idb (b_bdict m')) as [[c v]|]; auto. destruct (String.eqb_spec c "pressure") as [->|]; auto. intros [(Q & _)|(Q & _)]; discriminate.
Qed.
Lemma added_kept d m0 m1 m0' m1' : core m0' = core m0 -> core m1' = core m1 -> same_controls m0 m0' -> same_controls m1 m1' -> rates_added d m0 m1 -> rates_added d m0' m1'.
Proof.
  intros C0 C1 S0 S1 (W & B). split.
  - intros id. destruct (W id) as [(q & W0 & W1)|(D0 & w0 & w1 & G & p & E0 & E1 & A0 & A1)]; [left|right].
    + exists q. split; [now apply (gives_kept m0)|now apply (gives_kept m1)].
    + split; auto. destruct (bhp_kept m0 m0' id w0 G p) as (w0' & ? & ?); auto. destruct (bhp_kept m1 m1' id w1 G p) as (w1' & ? & ?); auto. exists w0', w1', G, p. auto.
  - intros idb. destruct (B idb) as [(r & W0 & W1)|(p & E0 & E1)]; [left|right].
    + exists r. split; [now apply (bound_kept m0)|now apply (bound_kept m1)].
    + exists p. destruct S0 as (-> & _), S1 as (-> & _). auto.
Qed.

(** ** One step *)
Definition ch (ids : list Z) (r0 r1 : list (fl R)) (p : nat) : R := (rv r1 (nth p ids 0%Z) - rv r0 (nth p ids 0%Z))%R.
Section step.
Context (m : bo R) (x y z : nat) (u : bool) (dx dy dz : dinput R) (K : model m x y z u dx dy dz).
Notation N := (length (b_ids m)).
Lemma added_step d v ma0 mb0 sa0 sb0 n0 r0 ma1 mb1 sa1 sb1 n1 r1 :
  stepped m v ma0 mb0 sa0 sb0 n0 r0 -> stepped m v ma1 mb1 sa1 sb1 n1 r1 -> rates_added d mb0 mb1 -> forall p, p < N ->
  oper N (Cp m v) (acc m) (kap m mb0) (ch (b_ids m) n0 n1) p = (acc m p * ch (b_ids m) (last (s_p sa0) []) (last (s_p sa1) []) p + d (nth p (b_ids m) 0%Z))%R.
Proof.
  intros S0 S1 (Cw & Cc) p Hp.
  destruct (stepped_eq m x y z u dx dy dz K _ _ _ _ _ _ _ S0) as (F0 & y0 & o0 & Y0 & O0 & E0). destruct (stepped_eq m x y z u dx dy dz K _ _ _ _ _ _ _ S1) as (F1 & y1 & o1 & Y1 & O1 & E1).
  assert (C0 := sp_cb _ _ _ _ _ _ _ _ S0). assert (C1 := sp_cb _ _ _ _ _ _ _ _ S1).
  assert (R0 := sp_rb _ _ _ _ _ _ _ _ S0). assert (R1 := sp_rb _ _ _ _ _ _ _ _ S1).
  assert (Nbd : forall m' s id, ready (m := m') s -> core m' = core m -> In id (b_ids m) -> dget id (b_bdict m') = None).
  { intros m' s id Rm Cm I. pose proof (model_core _ _ _ _ _ _ _ _ _ (eq_sym Cm) K) as Km. destruct (core_fields _ _ Cm) as (_ & Ci & _). destruct (dget id (b_bdict m')) as [e|] eqn:Q; auto. exfalso. apply dget_In in Q. apply (face_facts Km _ (r_bf _ Rm _ Q)). now rewrite Ci. }
  assert (Nwl : forall m' s idb, ready (m := m') s -> core m' = core m -> face_id m idb -> dget idb (b_wells m') = None).
  { intros m' s idb Rm Cm Fb. destruct (core_fields _ _ Cm) as (_ & Ci & _). destruct (dget idb (b_wells m')) as [w|] eqn:Q; auto. exfalso. apply (face_facts K idb Fb). rewrite <- Ci. apply (r_wi _ Rm). apply dget_keys. congruence. }
  assert (Yc : forall q, q < N -> ch (b_ids m) n0 n1 q = (y1 q - y0 q)%R).
  { intros q Hq. destruct (nth_error (b_ids m) q) as [id|] eqn:E; [|apply nth_error_None in E; lia]. unfold ch, rv. now rewrite (nth_error_nth _ _ _ E), (Y0 q id E), (Y1 q id E). }
  destruct (nth_error (b_ids m) p) as [id|] eqn:E; [|apply nth_error_None in E; lia]. assert (I : In id (b_ids m)) by (eapply nth_error_In; eauto).
  unfold oper, kap. rewrite (nth_error_nth _ _ _ E), (Yc p Hp). rewrite (flux_ext N (Cp m v) (Cp m v) (ch (b_ids m) n0 n1) (fun q => y1 q - y0 q - 0)%R p) by (auto; intros q Hq; rewrite Yc by auto; ring).
  rewrite <- (flux_diff N (Cp m v) y0 y1 (wt m v) 0 p). specialize (E0 p id E). specialize (E1 p id E). specialize (Y0 p id E). specialize (Y1 p id E).
  assert (Hw : (rv r1 id - rv r0 id = - kw m mb0 id * (y1 p - y0 p) + d id)%R).
  { destruct (Cw id) as [(q & W0 & W1)|(D0 & w0 & w1 & G & pw & G0 & G1 & A0 & A1)].
    - rewrite (well_rate m x y z u dx dy dz K mb0 n0 r0 id q), (well_rate m x y z u dx dy dz K mb1 n1 r1 id (q + d id)%R), (gives_kw m mb0 id q) by eauto. ring.
    - rewrite (well_rate_bhp m mb0 n0 r0 id w0 G pw (y0 p)), (well_rate_bhp m mb1 n1 r1 id w1 G pw (y1 p)), D0 by auto. unfold kw. rewrite G0. destruct A0 as (-> & _ & ->). cbn. ring. }
  assert (Hb : forall j, In j (bns m id) -> (rv r1 j - rv r0 j = - (y1 p - y0 p) * kb m mb0 j)%R).
  { intros j J. pose proof (bns_face K id j I J) as Fb. destruct (Cc j) as [(q & W0 & W1)|(pp & G0 & G1)].
    - rewrite (bound_rate m x y z u dx dy dz K mb0 n0 r0 j q), (bound_rate m x y z u dx dy dz K mb1 n1 r1 j q), (gives_kb m mb0 j q) by eauto. ring.
    - destruct (bound_rate_p m x y z u dx dy dz K mb0 n0 r0 j id pp (y0 p) C0 F0 I J G0 Y0) as (z0 & d0 & Z0 & D0 & ->). destruct (bound_rate_p m x y z u dx dy dz K mb1 n1 r1 j id pp (y1 p) C1 F1 I J G1 Y1) as (z1 & d1 & Z1 & D1 & ->).
      assert (z1 = z0) by congruence. subst z1. assert (d1 = d0) by congruence. subst d1. unfold kb. rewrite G0. cbn. ring. }
  assert (Hs : (sumR (map (rv r1) (bns m id)) - sumR (map (rv r0) (bns m id)) = - (y1 p - y0 p) * sumR (map (kb m mb0) (bns m id)))%R).
  { rewrite <- sumR_minus. revert Hb. generalize (bns m id). induction l as [|j l IH]; intros Hb; cbn [map sumR]; [ring|]. rewrite (Hb j (or_introl eq_refl)), (IH (fun i Hi => Hb i (or_intror Hi))). ring. }
  assert (Ha : (acc m p * ch (b_ids m) (last (s_p sa0) []) (last (s_p sa1) []) p = acc m p * (o1 p - o0 p))%R).
  { pose proof (acc_sign K p Hp) as Q. destruct (b_cmp m) eqn:Cm; [|rewrite Q; ring]. unfold ch, rv. now rewrite (nth_error_nth _ _ _ E), (O0 eq_refl p id E), (O1 eq_refl p id E). }
  rewrite Ha.
  set (f0 := flux N (Cp m v) (fun q => y0 q - wt m v q)%R p) in *. set (f1 := flux N (Cp m v) (fun q => y1 q - wt m v q)%R p) in *. lra.
Qed.
End step.

Definition valued (ids : list Z) (r : list (fl R)) : Prop := forall id, In id ids -> exists v, value r id = Some v.
Lemma stepped_valued m x y z u dx dy dz (K : model m x y z u dx dy dz) v ma mb sa sb n r : stepped m v ma mb sa sb n r -> valued (b_ids m) n.
Proof. intros S id I. destruct (stepped_eq m x y z u dx dy dz K _ _ _ _ _ _ _ S) as (_ & yy & _ & Y & _). destruct (In_nth_error _ _ I) as (p & E). exists (yy p). now apply Y. Qed.
Lemma ch_change ids r0 r1 p : valued ids r0 -> valued ids r1 -> p < length ids -> ch ids r0 r1 p = change_at r0 r1 (nth p ids 0%Z).
Proof.
  intros V0 V1 Hp. unfold ch, change_at, rv. destruct (V0 (nth p ids 0%Z)) as (v0 & ->); [now apply nth_In|]. destruct (V1 (nth p ids 0%Z)) as (v1 & ->); [now apply nth_In|]. reflexivity.
Qed.
Lemma weighed_dot d ids r0 r1 : valued ids r0 -> valued ids r1 -> weighed d ids r0 r1 = dot (length ids) (fun p => d (nth p ids 0%Z)) (ch ids r0 r1).
Proof.
  intros V0 V1. unfold weighed, dot. rewrite (rsum_sumR _ ids (fun id => d id * change_at r0 r1 id)%R).
  - clear. induction ids as [|id ids IH]; cbn [map fold_right sumR]; [reflexivity|now rewrite IH].
  - intros p id E. assert (Hp : p < length ids) by (apply nth_error_Some; congruence). rewrite (ch_change ids r0 r1 p V0 V1 Hp). now rewrite (nth_error_nth _ _ _ E).
Qed.

(** ** Histories *)
Fixpoint chain (E : list (fl R) -> list (fl R) -> list (fl R) -> list (fl R) -> Prop) h0 h1 (P0 P1 : list (list (fl R))) : Prop :=
  match P0, P1 with
  | [], [] => True
  | n0 :: P0', n1 :: P1' => E h0 h1 n0 n1 /\ chain E n0 n1 P0' P1'
  | _, _ => False
  end.
Lemma chain_nth E : forall P0 P1 h0 h1, chain E h0 h1 P0 P1 -> length P1 = length P0 /\ forall j, j < length P0 -> E (nth j (h0 :: P0) []) (nth j (h1 :: P1) []) (nth (S j) (h0 :: P0) []) (nth (S j) (h1 :: P1) []).
Proof.
  induction P0 as [|n0 P0 IH]; intros [|n1 P1] h0 h1 H; cbn [chain] in H; try contradiction; [split; auto; cbn; intros; lia|].
  destruct H as (H1 & H2). destruct (IH _ _ _ H2) as (Q1 & Q2). split; [cbn; congruence|]. intros [|j] Hj; [exact H1|]. cbn [length] in Hj. apply (Q2 j). lia.
Qed.
Section histories.
Context (m : bo R) (x y z : nat) (u : bool) (dx dy dz : dinput R) (K : model m x y z u dx dy dz).
Notation N := (length (b_ids m)).
Lemma added_history d v kp : forall st0 st1, Forall2 same_path st0 st1 -> Forall (path v) st0 -> forall ma0 sa0 ma1 sa1 mb0 sb0 mb1 sb1,
  core ma0 = core m -> core ma1 = core m -> ready (m := ma0) sa0 -> ready (m := ma1) sa1 -> rates_added d ma0 ma1 -> (forall p, kap m ma0 p = kp p) ->
  all_ok (ma0, Some sa0) st0 -> all_ok (ma1, Some sa1) st1 -> along balanced_step (ma0, Some sa0) st0 -> along balanced_step (ma1, Some sa1) st1 ->
  after (ma0, Some sa0) st0 = (mb0, Some sb0) -> after (ma1, Some sa1) st1 = (mb1, Some sb1) ->
  exists P0 P1, s_p sb0 = (s_p sa0 ++ P0)%list /\ s_p sb1 = (s_p sa1 ++ P1)%list /\
    chain (fun h0 h1 n0 n1 => valued (b_ids m) n0 /\ valued (b_ids m) n1 /\ forall p, p < N -> oper N (Cp m v) (acc m) kp (ch (b_ids m) n0 n1) p = (acc m p * ch (b_ids m) h0 h1 p + d (nth p (b_ids m) 0%Z))%R) (last (s_p sa0) []) (last (s_p sa1) []) P0 P1.
Proof.
  induction st0 as [|c0 st0 IH]; intros st1 X1 V ma0 sa0 ma1 sa1 mb0 sb0 mb1 sb1 C0 C1 R0 R1 Cb Hk A0 A1 L0 L1 E0 E1.
  - inversion X1; subst. injection E0 as <- <-. injection E1 as <- <-. exists [], []. rewrite !app_nil_r. repeat split.
  - inversion X1 as [|? c1 ? st1' Sp1 Y1]; subst. clear X1. inversion V as [|? ? V0 V1]; subst.
    cbn [all_ok along after fold_left] in *. destruct A0 as (A0 & A0'), A1 as (A1 & A1'), L0 as (L0 & L0'), L1 as (L1 & L1').
    destruct (solve_stepped m x y z u dx dy dz K c0 ma0 sa0 C0 R0 A0 L0) as (slv0 & sc0 & fu0 & spr0 & o0 & mc0 & sc0' & n0 & r0 & Ec0 & F0 & S0 & SC0).
    destruct (solve_stepped m x y z u dx dy dz K c1 ma1 sa1 C1 R1 A1 L1) as (slv1 & sc1 & fu1 & spr1 & o1 & mc1 & sc1' & n1 & r1 & Ec1 & F1 & S1 & SC1).
    rewrite F0 in *. rewrite F1 in *. subst c0 c1. cbn [same_path path] in Sp1, V0. rewrite <- Sp1 in S1. rewrite V0 in S0, S1.
    assert (D0 := sp_cb _ _ _ _ _ _ _ _ S0). assert (D1 := sp_cb _ _ _ _ _ _ _ _ S1).
    assert (Cb' : rates_added d mc0 mc1) by (apply (added_kept d ma0 ma1); auto; congruence).
    assert (Hk' : forall p, kap m mc0 p = kp p) by (intros p; rewrite (kap_kept m ma0 mc0 p SC0); apply Hk).
    pose proof (added_step m x y z u dx dy dz K d v ma0 mc0 sa0 sc0' n0 r0 ma1 mc1 sa1 sc1' n1 r1 S0 S1 Cb') as Bl.
    destruct (IH st1' Y1 V1 mc0 sc0' mc1 sc1' mb0 sb0 mb1 sb1) as (P0 & P1 & Q0 & Q1 & Q4); auto; [apply S0|apply S1|].
    exists (n0 :: P0), (n1 :: P1). rewrite Q0, Q1, (sp_p _ _ _ _ _ _ _ _ S0), (sp_p _ _ _ _ _ _ _ _ S1), <- !app_assoc. split; [reflexivity|]. split; [reflexivity|].
    cbn [chain]. split.
    + split; [exact (stepped_valued m x y z u dx dy dz K _ _ _ _ _ _ _ S0)|]. split; [exact (stepped_valued m x y z u dx dy dz K _ _ _ _ _ _ _ S1)|].
      intros p Hp. specialize (Bl p Hp). unfold oper in Bl |- *. rewrite Hk' in Bl. exact Bl.
    + rewrite (sp_p _ _ _ _ _ _ _ _ S0), (sp_p _ _ _ _ _ _ _ _ S1), !last_last in Q4. exact Q4.
Qed.
End histories.
