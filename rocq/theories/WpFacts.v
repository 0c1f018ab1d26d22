(** How many bottom-hole pressures are recorded. *)
From Coq Require Import String ZArith Bool Arith List Lia.
From Verif Require Import Prelude PreludeFacts Num GridModel GeoModel PropModel BlackOilModel FdmModel
  MonadFacts HistSpec InvFacts StepSpec SolveSpec StepFacts WellStepFacts DryFacts.
Import ListNotations.
Open Scope nat_scope.

Section wp.
Context {F : Type} {NF : Num F} {NT : NumT F}.
(** Recorded pressures of the well of a cell that has one. *)
Definition wlen (m : bo F) id : nat := match dget id (b_wp m) with Some l => length l | None => 0 end.
(** Wells have their pwf; cells without a well have nothing recorded. *)
Definition wpok (n : nat) (m : bo F) : Prop :=
  (forall id w, dget id (b_wells m) = Some w -> w_pwf w <> None /\ wlen m id = n) /\
  (forall id, dget id (b_wells m) = None -> dget id (b_wp m) = None).
Lemma wpok_one x : wpok (S (get_tstep x)) (fst x) -> one_per_step x.
Proof. intros (H & _) id w E. destruct (H id w E) as (_ & L). unfold wlen in L. destruct (dget id (b_wp (fst x))); [|discriminate]. eauto. Qed.
(** While set_well works on the cell [id]: all the others are in order. *)
Definition others n id (x : ws F) : Prop :=
  (forall j w, j <> id -> dget j (b_wells (fst x)) = Some w -> w_pwf w <> None /\ wlen (fst x) j = n) /\
  (forall j, j <> id -> dget j (b_wells (fst x)) = None -> dget j (b_wp (fst x)) = None).
(** The well of [id] has its pwf or not, and k pressures recorded. *)
Definition this id (b : bool) k (x : ws F) : Prop := exists w, dget id (b_wells (fst x)) = Some w /\ has (w_pwf w) = b /\ wlen (fst x) id = k.
Definition wst n id b k (x : ws F) : Prop := others n id x /\ this id b k x.
Lemma ws_upd n id b k f : (forall m w w', f m w = Ok w' -> has (w_pwf w') = has (w_pwf w)) -> hoare (wst n id b k) (upd_well id f) (fun _ => wst n id b k) (fun _ => True).
Proof.
  intros H. unfold upd_well. apply h_set; auto. intros [m o] x' ((O1 & O2) & w & Ew & Eb & Ek) E. cbn [fst snd] in *. unfold dgetE in E. rewrite Ew in E. cbn [rbind] in E.
  destruct (f m w) as [w'|] eqn:Ef; [|discriminate]. inversion E; clear E. subst x'. unfold wst, others, this, wlen in *. cbn [fst]. rewrite wells_set_wells. assert (Wp : forall v, b_wp (set_wells v m) = b_wp m) by (now destruct m). rewrite !Wp.
  split; [split|].
  - intros j w0 N. rewrite dget_dset_other by auto. apply O1; auto.
  - intros j N. rewrite dget_dset_other by auto. apply O2; auto.
  - exists w'. rewrite dget_dset_same. split; auto. split; auto. rewrite <- Eb. eapply H; eauto.
Qed.
Lemma ws_pwf n id b k f : (forall m w w', f m w = Ok w' -> has (w_pwf w') = true) -> hoare (wst n id b k) (upd_well id f) (fun _ => wst n id true k) (fun _ => True).
Proof.
  intros H. unfold upd_well. apply h_set; auto. intros [m o] x' ((O1 & O2) & w & Ew & Eb & Ek) E. cbn [fst snd] in *. unfold dgetE in E. rewrite Ew in E. cbn [rbind] in E.
  destruct (f m w) as [w'|] eqn:Ef; [|discriminate]. inversion E; clear E. subst x'. unfold wst, others, this, wlen in *. cbn [fst]. rewrite wells_set_wells. assert (Wp : forall v, b_wp (set_wells v m) = b_wp m) by (now destruct m). rewrite !Wp.
  split; [split|].
  - intros j w0 N. rewrite dget_dset_other by auto. apply O1; auto.
  - intros j N. rewrite dget_dset_other by auto. apply O2; auto.
  - exists w'. rewrite dget_dset_same. split; auto. split; auto. eapply H; eauto.
Qed.
Lemma ws_log n id b k : hoare (wst n id b k) (log_pressure id) (fun _ => wst n id b (S k)) (fun _ => True).
Proof.
  unfold log_pressure. apply h_set; auto. intros [m o] x' ((O1 & O2) & w & Ew & Eb & Ek) E. cbn [fst snd] in *. destruct (get_pressure (m, o) id) as [p|]; [|discriminate]. cbn [rbind] in E. inversion E; clear E. subst x'.
  unfold wst, others, this, wlen in *. cbn [fst]. rewrite wells_set_wp, wp_set_wp. unfold dappend. split; [split|].
  - intros j w0 N. rewrite dget_dset_other by auto. apply O1; auto.
  - intros j N. rewrite dget_dset_other by auto. apply O2; auto.
  - exists w. rewrite dget_dset_same. split; auto. split; auto. rewrite app_length. cbn [length]. destruct (dget id (b_wp m)); cbn [length]; lia.
Qed.
Lemma has_with_req v (w : well F) : has (w_pwf (with_req v w)) = has (w_pwf w). Proof. now destruct w. Qed.
Lemma has_with_G v (w : well F) : has (w_pwf (with_G v w)) = has (w_pwf w). Proof. now destruct w. Qed.
Lemma ws_tail n id (b : bool) k : hoare (wst n id b k) (set_well_tail id) (fun _ => wst n id true (if b then k else S k)) (fun _ => True).
Proof.
  unfold set_well_tail. eapply h_bind with (Q := fun _ => wst n id b k).
  { apply ws_upd. intros m w w' E. destruct (calc_well_r_eq m id); [|discriminate]. cbn [rbind] in E. inversion E. apply has_with_req. }
  intros _. eapply h_bind with (Q := fun _ => wst n id b k).
  { apply ws_upd. intros m w w' E. destruct (calc_well_G m id); [|discriminate]. cbn [rbind] in E. inversion E. apply has_with_G. }
  intros _. eapply h_bind with (Q := fun w x => wst n id b k x /\ has (w_pwf w) = b).
  { apply h_read; auto. intros x w Hx E. split; auto. destruct Hx as (_ & w0 & Ew & Eb & _). unfold dgetE in E. rewrite Ew in E. congruence. }
  intros w. apply h_when.
  - intros Hb. destruct (has (w_pwf w)) eqn:Eh; [discriminate|]. eapply h_bind with (Q := fun _ x => wst n id true k x /\ b = false).
    { eapply h_weak; [eapply h_conj with (P := wst n id b k) (P' := fun _ => false = b) (Q' := fun _ _ => b = false) (E' := fun _ => True); [apply ws_pwf; intros m w0 w' E; inversion E; now destruct w0|intros x E; destruct (upd_well _ _ x) as [? []]; auto]|cbn; tauto|cbn; intros ? ? (H1 & H2); split; [exact H1|exact H2]|auto]. }
    intros _. eapply h_weak; [eapply h_conj with (P := wst n id true k) (P' := fun _ => b = false) (Q' := fun _ _ => b = false) (E' := fun _ => True); [apply ws_log|intros x E; destruct (log_pressure _ x) as [? []]; auto]|cbn; tauto|cbn; intros ? ? (H1 & ->); exact H1|auto].
  - intros Hb x (Hx & He). destruct (has (w_pwf w)); [|discriminate]. subst b. exact Hx.
Qed.
(** set_well, in the two allowed ways. *)
Lemma din_dget {A} k (d : list (Z * A)) : din k d = match dget k d with Some _ => true | None => false end.
Proof. unfold din. now destruct (dget k d). Qed.
Lemma wok_new n id w (x : ws F) : wpok n (fst x) -> dget id (b_wells (fst x)) = None -> w_pwf w = None ->
  wst n id false 0 (set_wells (dset id w (b_wells (fst x))) (fst x), snd x).
Proof.
  intros (H1 & H2) N P. unfold wst, others, this, wlen. cbn [fst]. rewrite wells_set_wells. assert (Wp : forall v, b_wp (set_wells v (fst x)) = b_wp (fst x)) by (now destruct (fst x)). rewrite !Wp.
  split; [split|].
  - intros j w0 Nj. rewrite dget_dset_other by auto. apply H1.
  - intros j Nj. rewrite dget_dset_other by auto. apply H2.
  - exists w. rewrite dget_dset_same, (H2 id N), P. auto.
Qed.
Lemma wst_ok n id (x : ws F) : wst n id true n x -> wpok n (fst x).
Proof.
  intros ((O1 & O2) & w & Ew & Eb & Ek). split.
  - intros j w0 E. destruct (Z.eq_dec j id) as [->|N]; [|eapply O1; eauto]. rewrite Ew in E. inversion E; subst. split; auto. destruct (w_pwf w0); [discriminate|discriminate Eb].
  - intros j E. destruct (Z.eq_dec j id) as [->|N]; [congruence|auto].
Qed.
Lemma ok_wst n id (x : ws F) w : wpok n (fst x) -> dget id (b_wells (fst x)) = Some w -> wst n id true n x.
Proof. intros (H1 & H2) E. destruct (H1 id w E) as (P1 & P2). split; [split; auto|]. exists w. split; auto. split; auto. destruct (w_pwf w); [reflexivity|congruence]. Qed.
Lemma h_run {S A} P (c : M S A) Q E s s' a : hoare P c Q E -> P s -> c s = (s', Ok a) -> Q a s'.
Proof. intros H Ps Ec. specialize (H s Ps). rewrite Ec in H. exact H. Qed.
Lemma sw_after n id b k q (pwf : option F) r s :
  hoare (wst n id b k)
    (do _ <- mopt q (fun q => upd_well id (fun _ w => Ok (with_q q w))) ;;
     do _ <- mopt pwf (fun p =>
        do _ <- upd_well id (fun _ w =>
            let w := with_pwf p w in
            Ok (if has (w_q w) then w else with_con (Some "pwf"%string) w)) ;;
        log_pressure id) ;;
     do _ <- upd_well id (fun _ w => Ok (if has (w_con w) then w else with_con None w)) ;;
     do _ <- mopt r (fun r => upd_well id (fun _ w => Ok (with_r r w))) ;;
     do _ <- mopt s (fun s => upd_well id (fun _ w => Ok (with_s s w))) ;;
     set_well_tail id) (fun _ => wst n id true (if has pwf then S k else if b then k else S k)) (fun _ => True).
Proof.
  eapply h_bind with (Q := fun _ => wst n id b k). { apply h_opt; auto. intros v _. apply ws_upd. intros m w w' E. inversion E. now destruct w. }
  intros _. eapply h_bind with (Q := fun _ => wst n id (if has pwf then true else b) (if has pwf then S k else k)).
  { apply h_opt; [|now intros ->]. intros v ->. cbn [has]. eapply h_bind with (Q := fun _ => wst n id true k); [|intros _; apply ws_log].
    apply ws_pwf. intros m w w' E. destruct w. cbn in E. destruct w_q; cbn in E; inversion E; reflexivity. }
  intros _. eapply h_bind with (Q := fun _ => wst n id (if has pwf then true else b) (if has pwf then S k else k)).
  { apply ws_upd. intros m w w' E. inversion E. destruct w; destruct w_con; reflexivity. }
  intros _. eapply h_bind with (Q := fun _ => wst n id (if has pwf then true else b) (if has pwf then S k else k)).
  { apply h_opt; auto. intros v _. apply ws_upd. intros m w w' E. inversion E. now destruct w. }
  intros _. eapply h_bind with (Q := fun _ => wst n id (if has pwf then true else b) (if has pwf then S k else k)).
  { apply h_opt; auto. intros v _. apply ws_upd. intros m w w' E. inversion E. now destruct w. }
  intros _. eapply h_weak; [exact (ws_tail n id (if has pwf then true else b) (if has pwf then S k else k))|auto| |auto]. intros [] x. destruct (has pwf); intros H; exact H.
Qed.
Lemma wp_set_well n cell q pwf r s (x x' : ws F) : wpok n (fst x) ->
  (forall id, cell = Some id -> (din id (b_wells (fst x)) = false /\ n = 1) \/ (din id (b_wells (fst x)) = true /\ pwf = None)) ->
  set_well cell q pwf r s x = (x', Ok tt) -> wpok n (fst x').
Proof.
  intros H C E. unfold set_well in E. destruct cell as [id|]; [|discriminate]. specialize (C id eq_refl). unfold assert_inside in E.
  apply mbind_ok in E as ([] & x1 & E1 & E). apply mread_ok in E1 as (-> & _). apply mbind_ok in E as ([] & x2 & E2 & E). apply mset_ok in E2. destruct C as [(D & ->)|(D & ->)]; rewrite D in E2; inversion E2; subst.
  - rewrite din_dget in D. destruct (dget id (b_wells (fst x))) eqn:Ed; [discriminate|]. apply (wst_ok 1 id). pose proof (wok_new 1 id well0 x H Ed eq_refl) as W.
    pose proof (h_run _ _ _ _ _ _ _ (sw_after 1 id false 0 q pwf r s) W E) as R. cbv beta in R. destruct (has pwf); exact R.
  - rewrite din_dget in D. destruct (dget id (b_wells (fst x2))) as [w|] eqn:Ed; [|discriminate]. apply (wst_ok n id). pose proof (ok_wst n id x2 w H Ed) as W.
    exact (h_run _ _ _ _ _ _ _ (sw_after n id true n q None r s) W E).
Qed.
Lemma wp_set_obj n w cell (x x' : ws F) : wpok n (fst x) ->
  (forall id, match cell with Some i => Some i | None => sc_cell w end = Some id -> din id (b_wells (fst x)) = false /\ n = 1) ->
  set_well_obj w cell x = (x', Ok tt) -> wpok n (fst x').
Proof.
  intros H C E. unfold set_well_obj, assert_inside in E. apply mbind_ok in E as (id & x0 & E0 & E). apply mread_ok in E0 as (-> & E0).
  assert (Ci : match cell with Some i => Some i | None => sc_cell w end = Some id). { destruct cell; [inversion E0; auto|]. unfold attrE in E0. destruct (sc_cell w); inversion E0; auto. }
  destruct (C id Ci) as (D & ->). apply mbind_ok in E as ([] & x1 & E1 & E). apply mread_ok in E1 as (-> & _). apply mbind_ok in E as ([] & x2 & E2 & E). apply mset_ok in E2. inversion E2; subst.
  rewrite din_dget in D. destruct (dget id (b_wells (fst x))) eqn:Ed; [discriminate|]. apply (wst_ok 1 id).
  exact (h_run _ _ _ _ _ _ _ (ws_tail 1 id false 0) (wok_new 1 id (well_of w) x H Ed eq_refl) E).
Qed.
(** The other settings. *)
Definition wpart (x : ws F) := (b_wells (fst x), b_wp (fst x)).
Ltac nowell := apply i_set; intros [[] o] [? ?] Hx E; cbn [fst snd] in *; fin; first [exact Hx|reflexivity].
Lemma wpt_put_p v id w : inv (fun x => wpart x = v) (put_pressure id w). Proof. unfold put_pressure. nowell. Qed.
Lemma wpt_put_q v id w : inv (fun x => wpart x = v) (put_rate id w). Proof. unfold put_rate. nowell. Qed.
Lemma wpt_boundary v id c w : inv (fun x => wpart x = v) (set_boundary id c w).
Proof. unfold set_boundary. isplit; auto using wpt_put_p, wpt_put_q. Qed.
Lemma wpt_boundaries v bd : inv (fun x => wpart x = v) (set_boundaries bd).
Proof. unfold set_boundaries. isplit; try (nowell; fail). destruct a1 as [id [c w]]. isplit. apply wpt_boundary. Qed.
Lemma wpt_all v c w : inv (fun x => wpart x = v) (set_all_boundaries c w).
Proof. unfold set_all_boundaries. isplit. apply wpt_boundary. Qed.
Lemma wpok_ext n (m m' : bo F) : b_wells m' = b_wells m -> b_wp m' = b_wp m -> wpok n m -> wpok n m'.
Proof. intros E1 E2. unfold wpok, wlen. now rewrite E1, E2. Qed.
(** A step. *)
Lemma loop_pwf l : forall acc (x y : st F) t, update_wells_loop l acc x = (y, Ok t) ->
  b_wp (fst y) = b_wp (fst x) /\ (forall id, dget id (b_wells (fst y)) = None <-> dget id (b_wells (fst x)) = None) /\
  ((forall id w, dget id (b_wells (fst x)) = Some w -> w_pwf w <> None) -> forall id w, dget id (b_wells (fst y)) = Some w -> w_pwf w <> None).
Proof.
  assert (U : forall id f, (forall w, w_pwf w <> None -> w_pwf (f w) <> None) -> forall (x : st F),
     inv (fun y => b_wp (fst y) = b_wp (fst x) /\ (forall j, dget j (b_wells (fst y)) = None <-> dget j (b_wells (fst x)) = None) /\
       ((forall j w, dget j (b_wells (fst x)) = Some w -> w_pwf w <> None) -> forall j w, dget j (b_wells (fst y)) = Some w -> w_pwf w <> None)) (upd_wells id f)).
  { intros id f Hf x. unfold upd_wells. apply i_set. intros [m s] y' (H1 & H2 & H3) E. cbn [fst snd] in *. unfold dgetE in E. destruct (dget id (b_wells m)) as [w|] eqn:Ew; [|discriminate]. cbn [rbind] in E. inversion E; subst. cbn [fst].
    rewrite wells_set_wells. assert (Wp : forall v, b_wp (set_wells v m) = b_wp m) by (now destruct m). rewrite Wp. split; auto. split.
    - intros j. rewrite dget_dset_z. destruct (Z.eqb_spec j id) as [->|]; [|apply H2]. split; [discriminate|]. intros Q. apply H2 in Q. congruence.
    - intros Hx j w0. rewrite dget_dset_z. destruct (Z.eqb_spec j id) as [->|]; [|apply (H3 Hx)]. intros Q; inversion Q; subst. apply Hf. eapply (H3 Hx); eauto. }
  induction l as [|i l IH]; intros acc x y t E; cbn [update_wells_loop] in E.
  - inversion E; subst. repeat split; auto.
  - apply mbind_ok in E as (rb & z & E1 & E).
    assert (Hz : b_wp (fst z) = b_wp (fst x) /\ (forall j, dget j (b_wells (fst z)) = None <-> dget j (b_wells (fst x)) = None) /\
       ((forall j w, dget j (b_wells (fst x)) = Some w -> w_pwf w <> None) -> forall j w, dget j (b_wells (fst z)) = Some w -> w_pwf w <> None)).
    { assert (I : inv (fun y => b_wp (fst y) = b_wp (fst x) /\ (forall j, dget j (b_wells (fst y)) = None <-> dget j (b_wells (fst x)) = None) /\
         ((forall j w, dget j (b_wells (fst x)) = Some w -> w_pwf w <> None) -> forall j w, dget j (b_wells (fst y)) = Some w -> w_pwf w <> None)) (update_well (F := F) i)).
      { unfold update_well. isplit; try (apply U; intros [] Hw; cbn in *; try assumption; discriminate).
        unfold put_r. apply i_set. intros [m s] [m' s'] Hx Ex. fin. exact Hx. }
      specialize (I x). rewrite E1 in I. apply I. repeat split; auto. }
    destruct Hz as (Z1 & Z2 & Z3). destruct (fst rb).
    + inversion E; subst. auto.
    + destruct (IH _ _ _ _ E) as (I1 & I2 & I3). split; [congruence|]. split; [intros j; rewrite I2; apply Z2|]. intros Hx. apply I3. now apply Z3.
Qed.
Lemma wp_update n (Y Y' : st F) : NoDup (dkeys (b_wells (fst Y))) -> wpok n (fst Y) -> update_wells Y = (Y', Ok false) -> wpok (S n) (fst Y').
Proof.
  intros D (H1 & H2) E. unfold update_wells in E. apply mbind_ok in E as (ids & X1 & Q1 & E). apply mread_ok in Q1 as (-> & Q1). inversion Q1; subst ids; clear Q1.
  apply mbind_ok in E as (t & Z & Q2 & E). destruct t as [t|]; [|inversion E]. apply mbind_ok in E as ([] & X3 & Q3 & E). inversion E; subst. clear E.
  destruct (loop_pwf _ _ _ _ _ Q2) as (L1 & L2 & L3).
  assert (H : forall l Z, NoDup l -> miter (fun id => mset (fun x : st F => let* p := dgetE id t in Ok (set_wp (dappend id p (b_wp (fst x))) (fst x), snd x))) l Z = (Y', Ok tt) ->
      b_wells (fst Y') = b_wells (fst Z) /\ (forall id, ~ In id l -> dget id (b_wp (fst Y')) = dget id (b_wp (fst Z))) /\
      forall id, In id l -> wlen (fst Y') id = S (wlen (fst Z) id)).
  { clear. induction l as [|i l IH]; intros [m0 s0] Nd Ei; cbn [miter] in Ei; [inversion Ei; subst; repeat split; auto; intros ? []|].
    apply mbind_ok in Ei as ([] & X4 & E4 & Ei). apply mset_ok in E4. destruct (dgetE i t) as [p|]; [|discriminate]. cbn [rbind fst snd] in E4. inversion E4; subst X4; clear E4.
    inversion Nd; subst. destruct (IH _ H2 Ei) as (I1 & I3 & I4). cbn [fst snd] in *. unfold wlen in *. rewrite wells_set_wp in I1. rewrite wp_set_wp in I3, I4.
    split; auto. unfold dappend in *. split.
    - intros id N. rewrite I3 by (intros J; apply N; now right). apply dget_dset_other. intros ->. apply N. now left.
    - intros id [<-|J].
      + rewrite I3 by auto. rewrite dget_dset_same, app_length. cbn [length]. destruct (dget i (b_wp m0)); cbn [length]; lia.
      + rewrite I4 by auto. rewrite dget_dset_other; auto. intros ->. contradiction. }
  destruct (H _ _ D Q3) as (W1 & W2 & W3). split.
  - intros id w Ew. rewrite W1 in Ew. split; [eapply L3; [|exact Ew]; intros j w0 Ej; eapply H1; eauto|].
    destruct (dget id (b_wells (fst Y))) as [w1|] eqn:E1; [|apply L2 in E1; congruence].
    rewrite W3 by (apply dget_keys; congruence). unfold wlen at 1. rewrite L1. f_equal. eapply H1; eauto.
  - intros id Ew. rewrite W1 in Ew. apply L2 in Ew. rewrite W2; [rewrite L1; auto|]. intros J. apply dget_keys in J. congruence.
Qed.
Lemma wp_again n (Y Y' : st F) : wpok n (fst Y) -> update_wells Y = (Y', Ok true) -> wpok n (fst Y').
Proof.
  intros (H1 & H2) E. unfold update_wells in E. apply mbind_ok in E as (ids & X1 & Q1 & E). apply mread_ok in Q1 as (-> & Q1). inversion Q1; subst ids; clear Q1.
  apply mbind_ok in E as (t & Z & Q2 & E). destruct t as [t|]; [apply mbind_ok in E as ([] & X3 & Q3 & E); inversion E|]. inversion E; subst.
  destruct (loop_pwf _ _ _ _ _ Q2) as (L1 & L2 & L3). split.
  - intros id w Ew. split; [eapply L3; [|exact Ew]; intros j w0 Ej; eapply H1; eauto|]. destruct (dget id (b_wells (fst Y))) as [w1|] eqn:E1; [|apply L2 in E1; congruence].
    unfold wlen. rewrite L1. eapply H1; eauto.
  - intros id Ew. apply L2 in Ew. rewrite L1; auto.
Qed.
Lemma wp_solve_upd slv sc fuel sparse : forall o m s X n, shaped s -> o_upd o = true -> NoDup (dkeys (b_wells m)) -> wpok n m -> solve slv sc fuel sparse o (m, s) = (X, Ok tt) ->
  wpok (S n) (fst X) /\ s_tstep (snd X) = S (s_tstep s).
Proof.
  induction fuel as [|fuel IH]; intros o m s X n L U D H E; [discriminate|].
  destruct (solve_cases slv sc _ _ _ _ _ _ L U E) as (A & d & p & k & row & X4 & again & X5 & X6 & C1 & C2 & C3 & C4 & C5 & C6 & C7 & C8 & C9 & C10).
  destruct (MB_keeps _ _ _ C10) as (K1 & _ & _ & K4 & _). rewrite K1, K4. unfold wellsof in C6.
  assert (W4 : b_wells (fst X4) = b_wells m) by congruence. assert (P4 : b_wp (fst X4) = b_wp m) by congruence. assert (H4 : wpok n (fst X4)) by (eapply wpok_ext; eauto).
  assert (D4 : NoDup (dkeys (b_wells (fst X4)))) by congruence.
  assert (D5 : NoDup (dkeys (b_wells (fst X5)))).
  { pose proof (fx_wells (fixm (b_wells (fst X4))) X4 eq_refl) as Fx. rewrite C7 in Fx. unfold fx in Fx. cbn [fst] in Fx. rewrite fixm_keys, Fx, <- fixm_keys. exact D4. }
  destruct again.
  - destruct X5 as [m5 s5]. cbn [fst snd] in *. destruct (drop_ok m5 s row s5 _ _ _ _ _ _ _ L eq_refl eq_refl C8) as (E1 & E2 & E3 & _).
    assert (L5 : shaped (drop_rows s5)) by (unfold shaped in *; rewrite E1, E2, E3; exact L).
    rewrite <- E3. apply (IH (cgs_opts o) m5 (drop_rows s5)); auto. exact (wp_again n X4 (m5, s5) H4 C7).
  - subst X6. split; [apply (wp_update n X4); auto|]. destruct C8 as (_ & _ & T5 & _). transitivity (length (s_r s)); [exact T5|apply L].
Qed.
Lemma wp_dry slv sc fuel sparse o m s X n : o_upd o = false -> wpok n m -> solve slv sc fuel sparse o (m, s) = (X, Ok tt) ->
  wpok n (fst X) /\ s_tstep (snd X) = s_tstep s.
Proof.
  intros U H E. destruct fuel as [|fuel]; [discriminate|]. cbn [solve] in E. apply mbind_ok in E as (Ad & z & E1 & E). apply mbind_ok in E as (p & z2 & E2 & E).
  apply mread_ok in E2 as (-> & _). rewrite U in E. inversion E; subst. pose proof (system_pub sc o (m, s)) as P. rewrite E1 in P. unfold pub, settings, results in P. cbn [fst snd] in P.
  split; [|congruence]. eapply wpok_ext; [| |exact H]; congruence.
Qed.
Lemma wp_loop slv sc k fuel sparse o : o_upd o = true -> forall m s X n, shaped s -> NoDup (dkeys (b_wells m)) -> wpok n m -> run_loop slv sc k fuel sparse o (m, s) = (X, Ok tt) ->
  wpok (k + n) (fst X) /\ s_tstep (snd X) = k + s_tstep s.
Proof.
  intros U. induction k as [|k IH]; intros m s X n L D H E; cbn [run_loop] in E; [inversion E; auto|].
  apply mbind_ok in E as ([] & [m1 s1] & E1 & E). destruct (wp_solve_upd _ _ _ _ _ _ _ _ _ L U D H E1) as (H1 & T1). cbn [fst snd] in *.
  assert (L1 : shaped s1).
  { destruct (solve_ok slv sc _ _ _ _ _ _ L U E1) as (n1 & (k1 & A1 & d1 & p1 & row & la & lb & _ & _ & _ & _ & _ & T1' & (rr & T2 & _) & T3 & _) & _). unfold shaped in *. cbn [fst snd] in *. rewrite T1', T2, T3, !app_length. cbn. lia. }
  destruct (IH m1 s1 X (S n)) as (I1 & I2); auto.
  - pose proof (fx_solve slv sc (fixm (b_wells m)) fuel sparse o (m, s) eq_refl) as Fx. rewrite E1 in Fx. unfold fx in Fx. cbn [fst] in Fx. rewrite fixm_keys, Fx, <- fixm_keys. exact D.
  - split; [replace (S k + n) with (k + S n) by lia; exact I1|lia].
Qed.
(** ** Along a history *)
Definition wpx (ids0 : list Z) (x : ws F) : Prop := wkeys ids0 x /\ counted false x /\ wpok (S (get_tstep x)) (fst x).
Lemma meas_tstep (x y : ws F) : meas x = meas y -> get_tstep x = get_tstep y.
Proof. unfold meas, get_tstep. destruct (snd x), (snd y); cbn; congruence. Qed.
Lemma wp_other c (x : ws F) : match c with Set_boundary _ _ _ | Set_boundaries _ | Set_all_boundaries _ _ => True | _ => False end -> wpart (fst (exec c x)) = wpart x.
Proof. destruct c; try tauto; intros _; [apply wpt_boundary|apply wpt_boundaries|apply wpt_all]; reflexivity. Qed.
Lemma wp_exec ids0 c (x : ws F) : wpx ids0 x -> tidy x c -> snd (exec c x) = Ok tt -> wpx ids0 (fst (exec c x)).
Proof.
  intros (K & C & W) T E. split; [now apply wk_exec|]. split.
  { exact (ok_counted false [c] x C (fun e => ltac:(discriminate e)) (conj E I)). }
  assert (Same : match c with Set_boundary _ _ _ | Set_boundaries _ | Set_all_boundaries _ _ => True | _ => False end -> wpok (S (get_tstep (fst (exec c x)))) (fst (fst (exec c x)))).
  { intros Hc. pose proof (wp_other c x Hc) as Hw. rewrite (meas_tstep _ x) by (apply me_exec; destruct c; cbn in *; try tauto; discriminate). unfold wpart in Hw. eapply wpok_ext; [| |exact W]; congruence. }
  destruct c; try (now apply Same).
  - rewrite (meas_tstep _ x) by (apply me_exec; cbn; [tauto|discriminate]). cbn [exec] in *. destruct (set_well cell q pwf r s x) as [x' r'] eqn:Ex. cbn [fst snd] in *. subst r'.
    eapply wp_set_well; [exact W| |exact Ex]. intros id ->. cbn [tidy] in T. destruct T as [(T1 & T2)|T]; [left|now right]. rewrite T2. auto.
  - rewrite (meas_tstep _ x) by (apply me_exec; cbn; [tauto|discriminate]). cbn [exec] in *. destruct (set_well_obj w cell x) as [x' r'] eqn:Ex. cbn [fst snd] in *. subst r'.
    eapply wp_set_obj; [exact W| |exact Ex]. intros id Hi. cbn [tidy] in T. destruct (T id Hi) as (T1 & T2). rewrite T2. auto.
  - cbn [exec tidy] in *. unfold mset. cbn [fst snd]. cbn [get_tstep snd]. unfold fdm_new. cbn [s_tstep]. rewrite T in W. exact W.
  - cbn [exec] in *. unfold of_solution in *. destruct x as [m [s|]]; cbn [fst snd] in *; [|discriminate]. destruct (solve slv sc fuel sparse o (m, s)) as [[m' s'] r] eqn:Es. cbn [fst snd] in *. subst r.
    unfold get_tstep in *. cbn [snd] in *. destruct (C s eq_refl) as (L & _). destruct K as (_ & K & _). destruct (o_upd o) eqn:U.
    + destruct (wp_solve_upd _ _ _ _ _ _ _ _ _ L U K W Es) as (H1 & H2). cbn [fst snd] in *. rewrite H2. exact H1.
    + destruct (wp_dry _ _ _ _ _ _ _ _ _ U W Es) as (H1 & H2). cbn [fst snd] in *. rewrite H2. exact H1.
  - cbn [exec] in *. unfold of_solution in *. destruct x as [m [s|]]; cbn [fst snd] in *; [|discriminate]. destruct (run slv sc n fuel sparse thr vect mb pr iso (m, s)) as [[m' s'] r] eqn:Es. cbn [fst snd] in *. subst r.
    unfold get_tstep in *. cbn [snd] in *. destruct (C s eq_refl) as (L & _). destruct K as (_ & K & _).
    unfold run in Es. apply mbind_ok in Es as ([] & X1 & E1 & Es). apply mset_ok in E1. inversion E1; subst X1; clear E1.
    apply mbind_ok in Es as ([] & X2 & E2 & Es). cbn [fst snd] in *.
    assert (X2 = (m', s')) as ->. { destruct mb; cbn [mwhen] in Es; [apply mread_ok in Es; now destruct Es|now inversion Es]. }
    assert (L' : shaped (set_nsteps (s_nsteps s + n) s)) by (destruct s; exact L).
    destruct (wp_loop slv sc n fuel sparse (mkOpts thr vect mb true pr iso) eq_refl _ _ _ _ L' K W E2) as (H1 & H2). cbn [fst snd] in *.
    assert (T0 : s_tstep (set_nsteps (s_nsteps s + n) s) = s_tstep s) by now destruct s. rewrite T0 in H2. rewrite H2. replace (S (n + s_tstep s)) with (n + S (s_tstep s)) by lia. exact H1.
Qed.
Lemma wp_along ids0 l : forall x : ws F, wpx ids0 x -> along tidy x l -> all_ok x l -> one_per_step (after x l).
Proof.
  induction l as [|c l IH]; intros x H T A; cbn [after fold_left].
  - apply wpok_one. apply H.
  - destruct T as (T1 & T2), A as (A1 & A2). apply IH; auto. apply wp_exec; auto.
Qed.
End wp.

(** ** Steps that leave the model alone *)
Section alone.
Context {F : Type} {NF : Num F} {NT : NumT F} (m0 : bo F) (W0 : b_wells m0 = []).
Notation al := (fun x : st F => fst x = m0).
Ltac same := apply i_set; intros [m s] [m' s'] Hx E; cbn [fst snd] in *; fin; first [assumption|reflexivity].
Lemma al_addto id v : inv al (addto_A id v). Proof. unfold addto_A. same. Qed.
Lemma al_init_b id : inv al (init_b id). Proof. unfold init_b. isplit; auto using al_addto; same. Qed.
Lemma al_init : inv al init_vect. Proof. unfold init_vect. isplit; auto using al_init_b; same. Qed.
Lemma al_vwell id du : inv al (vect_well id du). Proof. unfold vect_well. isplit; auto using al_addto; same. Qed.
Lemma al_vwells l : forall du, inv al (vect_wells l du).
Proof. induction l as [|i l IH]; intros du; cbn [vect_wells]; isplit; auto using al_vwell. Qed.
Lemma al_vect : inv al get_matrices_vect. Proof. unfold get_matrices_vect. isplit; auto using al_init, al_vwells. Qed.
Lemma al_put id v : inv al (put_r id v). Proof. unfold put_r. same. Qed.
Lemma al_ub : inv al update_boundaries. Proof. unfold update_boundaries, update_boundary. isplit; auto using al_put. Qed.
Lemma al_wells : inv al update_wells.
Proof.
  intros x Hx. unfold update_wells, mbind, mread. rewrite Hx, W0. cbn. exact Hx.
Qed.
Lemma al_MB : inv al check_MB. Proof. unfold check_MB. same. Qed.
Lemma al_rows A d p : inv al (new_rows A d p). Proof. unfold new_rows. isplit; same. Qed.
Lemma al_system sc o : o_vect o = true -> o_print o = false -> inv al (get_system sc o).
Proof. intros V P. unfold get_system. rewrite V, P. apply al_vect. Qed.
Lemma al_solve slv sc fuel sparse : forall o, o_vect o = true -> o_print o = false -> inv al (solve slv sc fuel sparse o).
Proof.
  induction fuel as [|fuel IH]; intros o V P; cbn [solve]; isplit; auto using al_system, al_rows, al_ub, al_wells, al_MB. same.
Qed.
Lemma al_run slv sc n fuel sparse thr mb iso : inv al (run slv sc n fuel sparse thr true mb false iso).
Proof.
  unfold run. isplit; [same|]. assert (H : forall k, inv al (run_loop slv sc k fuel sparse (mkOpts thr true mb true false iso))); [|apply H].
  induction k as [|k IH]; cbn [run_loop]; isplit; auto using al_solve.
Qed.
End alone.
