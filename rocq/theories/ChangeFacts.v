(** Controls changed between the steps. *)
From Coq Require Import String ZArith Bool Arith List Lia Reals Lra.
From Verif Require Import Prelude PreludeFacts Num GridModel GridSpec GridThm GeoModel GeoSpec GeoProofs
  GridProofs GridNeighbors PropModel PropSpec MatrixProofs BlackOilModel FdmModel MonadFacts HistSpec InvFacts SumFacts ModelSpec ModelFacts VectFacts FaceFacts AsmFacts
  UnitsModel SolverSpec SolveSpec StepSpec StepFacts WellStepFacts BalanceSpec CanonFacts LinFacts NbrFacts SymbFacts BalFacts FormFacts StepBal SetupFacts BalanceThm LocalSpec LocalThm TotalSpec TotalFacts TotalStep TotalHist ChangeSpec.
Import ListNotations.
Close Scope R_scope.
Open Scope nat_scope.

(** ** The rows of a step follow the controls *)
Lemma rows_follow m0 x y z u dx dy dz ma mb sa sb o prow rrow : model m0 x y z u dx dy dz -> core ma = core m0 -> core mb = core m0 -> b_bdict mb = b_bdict ma ->
  ready (m := ma) sa -> ready (m := mb) sb -> s_r sb = (s_r sa ++ [rrow])%list -> step_rows ma mb o sa prow rrow -> follows_controls mb prow rrow.
Proof.
  intros K Ca Cb Eb Ra Rb P2 (Kw & yy & Cp & wt & Ly & Cpw & Yv & Wv & Bv & Ov & Old & Eqs).
  pose proof (model_core _ _ _ _ _ _ _ _ _ (eq_sym Ca) K) as Ka. pose proof (model_core _ _ _ _ _ _ _ _ _ (eq_sym Cb) K) as Kb.
  assert (Cab : core ma = core mb) by congruence. destruct (core_fields _ _ Cab) as (Cg & Ci & Cm & CB & CG & _).
  split; [|split; [|split; [|split]]].
  - intros id w Ew. assert (I : In id (dkeys (b_wells ma))) by (rewrite <- Kw; apply dget_keys; congruence).
    destruct (Wv id I) as (w' & Ew' & _ & Wr). rewrite Ew in Ew'. inversion Ew'; subst w'. pose proof (r_wi _ Ra id I) as Ii.
    destruct Wr as [(W1 & q & _ & W2 & W3)|(W1 & G & pw & W2 & _ & W3 & W4)]; [left; eauto|right].
    split; auto. exists G, pw, (nth (pos (m := ma) id) yy 0%R). rewrite <- CB, <- Cm. split; auto. split; auto. split; auto. exact (Yv _ _ (pos_nth Ka id Ii)).
  - intros idb v I. rewrite Eb in I. pose proof (r_bf _ Ra _ I) as Fb. cbn [fst] in Fb. destruct (edge_face Ka idb Fb) as (E1 & _ & Ie & _).
    destruct (get_cell_trans ma idb false) as [T|] eqn:ET; cbn [rbind] in E1; [|discriminate]. destruct T as [|e0 [|? ?]]; try discriminate. cbn [the_only] in E1. injection E1 as E1.
    destruct (entry_height Ka idb) as (zs & Ez & Hz); [apply (face_facts Ka _ Fb)|]. destruct (entry_height Ka (fst (edge (m := ma) idb))) as (zs' & Ez' & Hz'); [apply (ids_facts Ka); auto|].
    replace zs' with zs in * by congruence. exists (fst (edge (m := ma) idb)), (snd (edge (m := ma) idb)), zs.
    split; [rewrite <- (core_trans _ _ _ _ Cab), ET, E1; now destruct (edge (m := ma) idb)|]. split; [rewrite <- (core_z _ _ Cab); auto|].
    pose proof (Bv _ I) as Bi. cbn [fst] in Bi. rewrite Bi, Hz, Hz', (Yv _ _ (pos_nth Ka _ Ie)), <- CG. split; [|discriminate]. cbn [fmul fsub lift2]. f_equal.
    unfold hb, bk1. cbn [fst snd]. rewrite String.eqb_refl. unfold bconst, bT, bval, bpos. rewrite (dget_In_nodup _ _ _ (r_bk _ Ra) I).
    rewrite (dz_id Ka _ idb Ie); [cbn; ring|]. apply in_or_app. right. now apply (edge_bns Ka idb _ Fb Ie).
  - intros idb cond v I R. pose proof (r_rt _ Rb (idb, (cond, v)) v I (or_introl (conj R eq_refl))) as Q. rewrite P2, last_last in Q. exact Q.
  - intros idb cond v I R. pose proof (r_bf _ Rb _ I) as Fb. cbn [fst] in Fb. destruct (gradient_ok Kb idb v Fb) as (r & G1 & G2). exists r. split; auto.
    assert (Q := r_rt _ Rb (idb, (cond, v)) r I). rewrite P2, last_last in Q. apply Q. right. auto.
  - intros id Pd Nw Nb. change (bgrid mb) with (gr (geom (b_grid mb))) in Pd. apply Ov; try lia; [rewrite Cg; lia| |].
    + rewrite <- Kw. intros Q. apply dget_keys in Q. contradiction.
    + rewrite <- Eb. intros Q. apply dget_keys in Q. contradiction.
Qed.

(** ** The cached terms of the symbolic path stay empty *)
Definition tm (x : st R) := b_terms (fst x).
Ltac tms := apply i_set; intros [[] []] [? ?] Hx E; cbn [fst snd] in *; fin; first [assumption|reflexivity].
Lemma tm_put v id q : inv (fun x => tm x = v) (put_r id q). Proof. unfold put_r. tms. Qed.
Lemma tm_uw v id f : inv (fun x => tm x = v) (upd_wells id f). Proof. unfold upd_wells. tms. Qed.
Lemma tm_well v id : inv (fun x => tm x = v) (update_well id).
Proof. unfold update_well. isplit; auto using tm_put, tm_uw. Qed.
Lemma tm_loop v l : forall acc, inv (fun x => tm x = v) (update_wells_loop l acc).
Proof. induction l as [|i l IH]; intros acc; cbn [update_wells_loop]; isplit; auto using tm_well. Qed.
Lemma tm_wells v : inv (fun x => tm x = v) update_wells.
Proof. unfold update_wells. isplit; auto using tm_loop. destruct a0; isplit. tms. Qed.
Lemma tm_ub v : inv (fun x => tm x = v) update_boundaries.
Proof. unfold update_boundaries, update_boundary. isplit; auto using tm_put. Qed.
Lemma tm_MB v : inv (fun x => tm x = v) check_MB.
Proof. unfold check_MB. apply i_set. intros [m s] [m' s'] Hx E. cbn [fst snd] in *. destruct (b_cmp m); fin; first [assumption|reflexivity]. Qed.
Lemma tm_rows v A d p : inv (fun x => tm x = v) (new_rows A d p).
Proof. unfold new_rows. isplit; apply i_set; intros [m s] [m' s'] Hx E; cbn [fst snd] in *; fin; first [assumption|reflexivity]. Qed.
Lemma tm_vect v : inv (fun x => tm x = v) get_matrices_vect.
Proof.
  assert (Ad : forall id w, inv (fun X : st R => tm X = v) (addto_A id w)) by (intros id w; unfold addto_A; tms).
  assert (Vw : forall id du, inv (fun X : st R => tm X = v) (vect_well id du)) by (intros id du; unfold vect_well; isplit; auto; tms).
  assert (Vs : forall ids du, inv (fun X : st R => tm X = v) (vect_wells ids du)).
  { induction ids as [|i l IH]; intros du; cbn [vect_wells]; isplit; auto. }
  unfold get_matrices_vect, init_vect, init_b. isplit; auto; tms.
Qed.
Lemma tm_solve slv sc v fuel sparse : forall o, o_vect o = true -> o_print o = false -> inv (fun x => tm x = v) (solve slv sc fuel sparse o).
Proof.
  induction fuel as [|fuel IH]; intros o V P; cbn [solve]; isplit; auto using tm_rows, tm_ub, tm_wells, tm_MB.
  all: try (unfold get_system; rewrite V, P; apply tm_vect). tms.
Qed.

(** ** The matrix kept from step to step *)
Lemma DI3_more (m m' : bo R) s s' E : core m = core m' -> b_bup m = b_bup m' -> (forall idb, In idb (b_bup m) -> bval (m := m) idb = bval (m := m') idb) ->
  dkeys (b_wells m') = (dkeys (b_wells m) ++ E)%list -> (forall id, In id E -> dget id (b_wells m) = None) ->
  (forall id w, dget id (b_wells m) = Some w -> con w = "pwf"%string -> exists w', dget id (b_wells m') = Some w' /\ con w' = con w /\ wk2 (m := m) w' = wk2 (m := m) w) ->
  s_A s = s_A s' -> s_res s = s_res s' -> s_bv s = s_bv s' -> DI3 (m := m) s -> DI3 (m := m') s'.
Proof.
  intros C Bp Bv Wk We Wm EA Er Eb ((A & H1 & H2) & H3 & H4).
  assert (Fl : forall id, flag (s_res s) id = true -> exists w w', dget id (b_wells m) = Some w /\ con w = "pwf"%string /\ dget id (b_wells m') = Some w' /\ con w' = con w /\ wk2 (m := m) w' = wk2 (m := m) w).
  { intros id Hf. specialize (H4 id Hf). unfold wof in H4. destruct (dget id (b_wells m)) as [w|] eqn:Eg; [|discriminate]. destruct (Wm id w Eg H4) as (w' & Q1 & Q2 & Q3). exists w, w'. auto. }
  assert (Term : forall id, (if flag (s_res s) id then wk2 (m := m) (wof (m := m) id) else 0%R) = (if flag (s_res s) id then wk2 (m := m') (wof (m := m') id) else 0%R)).
  { intros id. destruct (flag (s_res s) id) eqn:Ef; auto. destruct (Fl id Ef) as (w & w' & Q1 & _ & Q2 & _ & Q3). unfold wof. rewrite Q1, Q2. rewrite <- Q3. apply (same_wk C). }
  split; [|split].
  - exists A. split; [congruence|]. apply (same_form C) in H2. eapply form_ext; [|exact H2]. intros p Hp. rewrite <- Bp, <- Er. f_equal.
    + unfold over. apply sumR_ext. intros j Hj. unfold bpos, bT. now rewrite (same_pos C), (same_edge C).
    + unfold fsumw, over. rewrite Wk, map_app, sumR_app. rewrite (sumR_ext (fun id => one (pos (m := m') id) (if flag (s_res s) id then wk2 (m := m') (wof (m := m') id) else 0%R) p) (fun _ => 0%R) E).
      * replace (sumR (map (fun _ : Z => 0%R) E)) with 0%R by (clear; induction E as [|e E IH]; cbn [map sumR]; [reflexivity|rewrite <- IH; lra]). rewrite Rplus_0_r. apply sumR_ext. intros j Hj. now rewrite (same_pos C), Term.
      * intros id Hid. unfold one. destruct (Nat.eqb _ _); auto. destruct (flag (s_res s) id) eqn:Ef; auto. destruct (Fl id Ef) as (w & _ & Q & _). rewrite (We id Hid) in Q. discriminate.
  - intros j Hj. rewrite <- Bp in Hj. rewrite <- Eb. rewrite (H3 j Hj). unfold bconst, bT. rewrite (same_edge C), (core_dz _ _ _ _ C), (Bv j Hj). destruct (core_fields _ _ C) as (_ & _ & _ & _ & -> & _). reflexivity.
  - intros id Hf. rewrite <- Er in Hf. destruct (Fl id Hf) as (w & w' & Q1 & Q2 & Q3 & Q4 & _). unfold wof. rewrite Q3. congruence.
Qed.

(** ** set_well between the steps *)
Lemma tw_upd v id f : inv (fun x : ws R => b_terms (fst x) = v) (upd_well id f). Proof. unfold upd_well. apply i_set. intros [[] o] [? ?] Hx E. cbn [fst snd] in *. fin; first [exact Hx|reflexivity]. Qed.
Lemma tw_log v id : inv (fun x : ws R => b_terms (fst x) = v) (log_pressure id). Proof. unfold log_pressure. apply i_set. intros [[] o] [? ?] Hx E. cbn [fst snd] in *. fin; first [exact Hx|reflexivity]. Qed.
Lemma tw_well v cell q pwf r s : inv (fun x : ws R => b_terms (fst x) = v) (set_well cell q pwf r s).
Proof.
  unfold set_well, assert_inside, set_well_tail. destruct cell as [id|]; [|apply i_read]. isplit; auto using tw_upd, tw_log.
  apply i_set. intros [m o] [m' o'] Hx E. cbn [fst snd] in *. destruct (din id (b_wells m)); injection E as <- <-; [exact Hx|destruct m; exact Hx].
Qed.
Definition WG (x : ws R) : Prop := forall id w, dget id (b_wells (fst x)) = Some w -> wgood w.
Lemma wg_set id w (x : ws R) : WG x -> wgood w -> WG (set_wells (dset id w (b_wells (fst x))) (fst x), snd x).
Proof.
  intros H G j w' E. cbn [fst] in E. rewrite wells_set_wells, dget_dset_z in E. destruct (Z.eqb j id); [inversion E; subst; exact G|exact (H j w' E)].
Qed.
Lemma wg_upd id f : (forall m w w', f m w = Ok w' -> wgood w -> wgood w') -> inv WG (upd_well id f).
Proof.
  intros Hf. unfold upd_well. apply i_set. intros x x' Hx E. unfold dgetE in E. destruct (dget id (b_wells (fst x))) as [w|] eqn:Ew; [|discriminate]. cbn [rbind] in E.
  destruct (f (fst x) w) as [w'|] eqn:Ef; [|discriminate]. cbn [rbind] in E. inversion E; subst. apply wg_set; auto. apply (Hf _ _ _ Ef). exact (Hx id w Ew).
Qed.
Lemma wg_log id : inv WG (log_pressure id).
Proof. unfold log_pressure. apply i_set. intros [[] o] [? ?] Hx E. cbn [fst snd] in *. fin; first [exact Hx|reflexivity]. Qed.
Lemma wg_tail id : inv WG (set_well_tail id).
Proof.
  unfold set_well_tail. isplit; auto using wg_log; apply wg_upd; intros m w w' E G; fin; auto using g_pwf;
    (eapply g_other; [..|exact G]; now destruct w).
Qed.
Lemma wg_set_well cell q pwf r s : inv WG (set_well cell q pwf r s).
Proof.
  unfold set_well. destruct cell as [id|]; [|apply i_read]. unfold assert_inside. isplit; auto using wg_log, wg_tail.
  - apply i_set. intros x x' Hx E. destruct (din id (b_wells (fst x))); inversion E; subst; auto. apply wg_set; auto. split; discriminate.
  - apply wg_upd. intros m w w' E G. inversion E; subst. destruct w; unfold wgood; cbn. split; [eauto|discriminate].
  - apply wg_upd. intros m w w' E G. inversion E; subst. clear E. apply (g_pwf a2) in G. cbn zeta.
    destruct (has (w_q (with_pwf a2 w))); auto. destruct w; unfold wgood in *; cbn in *. split; [discriminate|eauto].
  - apply wg_upd. intros m w w' E G. inversion E; subst. destruct (has (w_con w)); auto. destruct w; unfold wgood; cbn. split; discriminate.
  - apply wg_upd. intros m w w' E G. inversion E; subst. eapply g_other; [..|exact G]; now destruct w.
  - apply wg_upd. intros m w w' E G. inversion E; subst. eapply g_other; [..|exact G]; now destruct w.
Qed.
(** the keys: at most one more, at the end *)
Definition one_more (K0 : list Z) (id : Z) (x : ws R) : Prop := dkeys (b_wells (fst x)) = K0 \/ (dkeys (b_wells (fst x)) = (K0 ++ [id])%list /\ ~ In id K0).
Lemma dkeys_same {A} id (w : A) d : dget id d <> None -> dkeys (dset id w d) = dkeys d.
Proof. unfold dkeys. induction d as [|[k v] d IH]; cbn; [congruence|]. destruct (Z.eqb_spec id k) as [->|]; cbn; auto. intros H. now rewrite IH. Qed.
Lemma dkeys_new {A} id (w : A) d : dget id d = None -> dkeys (dset id w d) = (dkeys d ++ [id])%list.
Proof. unfold dkeys. induction d as [|[k v] d IH]; cbn; auto. destruct (Z.eqb_spec id k) as [->|]; cbn; [discriminate|]. intros H. now rewrite IH. Qed.
Lemma om_upd K0 id j f : inv (one_more K0 j) (upd_well id f).
Proof.
  unfold upd_well. apply i_set. intros x x' Hx E. unfold dgetE in E. destruct (dget id (b_wells (fst x))) as [w|] eqn:Ew; [|discriminate]. cbn [rbind] in E.
  destruct (f (fst x) w) as [w'|] eqn:Ef; [|discriminate]. cbn [rbind] in E. inversion E; subst. unfold one_more in *. cbn [fst]. rewrite wells_set_wells, dkeys_same by congruence. exact Hx.
Qed.
Lemma om_log K0 j id : inv (one_more K0 j) (log_pressure id).
Proof. unfold log_pressure. apply i_set. intros [[] o] [? ?] Hx E. cbn [fst snd] in *. fin; first [exact Hx|reflexivity]. Qed.
Lemma om_well K0 id q pwf r s (X0 : ws R) : dkeys (b_wells (fst X0)) = K0 -> one_more K0 id (fst (set_well (Some id) q pwf r s X0)).
Proof.
  intros H0. assert (I : hoare (fun X : ws R => dkeys (b_wells (fst X)) = K0) (set_well (Some id) q pwf r s) (fun _ => one_more K0 id) (one_more K0 id)).
  { unfold set_well. unfold assert_inside. eapply h_bind with (Q := fun _ (X : ws R) => dkeys (b_wells (fst X)) = K0).
    { intros X HX. unfold mread. destruct (_ : res unit); [exact HX|left; exact HX]. }
    intros []. eapply h_bind with (Q := fun _ => one_more K0 id).
    { intros X HX. unfold mset. destruct (din id (b_wells (fst X))) eqn:Ed; [left; exact HX|]. right. cbn [fst]. rewrite wells_set_wells.
      assert (N : dget id (b_wells (fst X)) = None) by (unfold din in Ed; destruct (dget id (b_wells (fst X))); [discriminate|reflexivity]).
      rewrite dkeys_new by auto. rewrite HX. split; auto. rewrite <- HX. intros J. apply dget_keys in J. contradiction. }
    intros []. match goal with |- hoare _ ?c _ _ => assert (I : inv (one_more K0 id) c) end.
    { unfold set_well_tail. isplit; auto using om_upd, om_log. }
    intros X HX. specialize (I X HX). match goal with |- match ?c with _ => _ end => destruct c as [X' [a|e]] end; exact I. }
  specialize (I X0 H0). destruct (set_well (Some id) q pwf r s X0) as [X' [a|e]]; exact I.
Qed.
(** the well set, and the others *)
Definition given (q : option R) (w : well R) : Prop := match q with Some q => w_con w = Some (Some "q"%string) /\ w_q w = Some (Some q) /\ w_qsp w = Some q | None => True end.
Lemma W_given (X0 : ws R) id q pwf r s : snd (set_well (Some id) q pwf r s X0) = Ok tt -> W X0 id (given q) (fst (set_well (Some id) q pwf r s X0)).
Proof.
  intros E. cut (hoare (fun X => X = X0) (set_well (Some id) q pwf r s) (fun _ => W X0 id (given q)) (fun _ => True)).
  { intros H. specialize (H X0 eq_refl). destruct (set_well (Some id) q pwf r s X0) as [X r']. cbn [fst snd] in *. subst r'. exact H. }
  assert (Up : forall f, (forall m w w', given q w -> f m w = Ok w' -> given q w') -> hoare (W X0 id (given q)) (upd_well id f) (fun _ => W X0 id (given q)) (fun _ => True)).
  { intros f H. now apply W_upd. }
  unfold set_well. eapply h_bind with (Q := fun _ X => X = X0).
  { unfold assert_inside. apply s_read. intros X H. unfold passert. destruct (zmem _ _); auto. }
  intros []. eapply h_bind with (Q := fun _ X => W X0 id (fun _ => True) X).
  { apply s_set. intros X ->. unfold din. destruct (dget id (b_wells (fst X0))) as [w|] eqn:Ew; cbn [has].
    - split; auto. exists w. auto.
    - unfold W. cbn [fst]. rewrite wells_set_wells. split; [|intros; now rewrite dget_dset_other]. exists well0. split; [apply dget_dset_same|auto]. }
  intros []. eapply h_bind with (Q := fun _ => W X0 id (given q)).
  { destruct q as [q|]; cbn [mopt]; [|intros X HX; exact HX]. apply W_upd. intros m w w' _ E1. injection E1 as <-. destruct w. cbn. auto. }
  intros []. eapply h_bind with (Q := fun _ => W X0 id (given q)).
  { apply s_opt; [intros p|auto]. eapply h_bind; [apply Up|intros []; apply W_log].
    intros m w w' H E1. injection E1 as <-. destruct q as [q|]; [|exact I]. destruct w. cbn in *. destruct H as (-> & -> & ->). cbn. auto. }
  intros []. eapply h_bind with (Q := fun _ => W X0 id (given q)).
  { apply Up. intros m w w' H E1. injection E1 as <-. destruct q as [q|]; [|exact I]. destruct w. cbn in *. destruct H as (-> & -> & ->). cbn. auto. }
  intros []. eapply h_bind with (Q := fun _ => W X0 id (given q)).
  { apply s_opt; [intros p|auto]. apply Up. intros m w w' H E1. injection E1 as <-. destruct w. exact H. }
  intros []. eapply h_bind with (Q := fun _ => W X0 id (given q)).
  { apply s_opt; [intros p|auto]. apply Up. intros m w w' H E1. injection E1 as <-. destruct w. exact H. }
  intros []. unfold set_well_tail. eapply h_bind; [apply Up; intros m w w' H E1; destruct (calc_well_r_eq m id); [|discriminate]; injection E1 as <-; destruct w; exact H|].
  intros []. eapply h_bind; [apply Up; intros m w w' H E1; destruct (calc_well_G m id); [|discriminate]; injection E1 as <-; destruct w; exact H|].
  intros []. eapply h_bind with (Q := fun _ => W X0 id (given q)).
  { apply s_read. intros X H. unfold dgetE. destruct (dget id (b_wells (fst X))); auto. }
  intros w. apply h_when; [|auto]. intros _. eapply h_bind; [apply Up|intros []; apply W_log]. intros m w1 w' H E1. injection E1 as <-. destruct w1. exact H.
Qed.

Lemma con_q (w : well R) n : con w = n -> n <> ""%string -> w_con w = Some (Some n).
Proof. unfold con. destruct (w_con w) as [[c|]|]; intros <- H; congruence. Qed.
Lemma core_closed (m0 : bo R) : (forall v (m : bo R), core m = core m0 -> core (set_ip v m) = core m0) /\ (forall v (m : bo R), core m = core m0 -> core (set_ir v m) = core m0) /\
  (forall v (m : bo R), core m = core m0 -> core (set_wells v m) = core m0) /\ (forall v (m : bo R), core m = core m0 -> core (set_wp v m) = core m0) /\
  (forall v (m : bo R), core m = core m0 -> core (set_bdict v m) = core m0) /\ (forall v (m : bo R), core m = core m0 -> core (set_bup v m) = core m0) /\
  (forall v (m : bo R), core m = core m0 -> core (set_terms v m) = core m0).
Proof. repeat split; intros; rewrite ?core_ip, ?core_ir, ?core_wells, ?core_wp, ?core_bdict, ?core_bup, ?core_terms; auto. Qed.

(** ready after set_well *)
Lemma ready_well (m : bo R) s cell q pwf r sk : ready (m := m) s -> b_terms m = [] ->
  change (m, Some s) (Set_well cell q pwf r sk) -> snd (exec (Set_well cell q pwf r sk) (m, Some s)) = Ok tt ->
  exists m', fst (exec (Set_well cell q pwf r sk) (m, Some s)) = (m', Some s) /\ core m' = core m /\ b_terms m' = [] /\ b_bdict m' = b_bdict m /\ ready (m := m') s.
Proof.
  intros Rd T (L & Pz & Sm) E. cbn [exec] in *. destruct cell as [id|]; [|discriminate].
  pose proof (kp_well _ (Some id) q pwf r sk (m, Some s) eq_refl) as Kp.
  pose proof (tw_well [] (Some id) q pwf r sk (m, Some s) T) as Tw.
  pose proof (wg_set_well (Some id) q pwf r sk (m, Some s) (r_wg _ Rd)) as Wg.
  pose proof (om_well _ id q pwf r sk (m, Some s) eq_refl) as Om.
  pose proof (W_given (m, Some s) id q pwf r sk E) as Wi.
  pose proof (wk_set_well (b_ids m) (Some id) q pwf r sk (m, Some s)) as Wk. unfold wkeys in Wk. cbn [fst snd] in Wk. specialize (Wk (conj eq_refl (conj (r_wk _ Rd) (r_wi _ Rd)))).
  destruct (core_closed m) as (C1 & C2 & C3 & C4 & C5 & C6 & C7).
  assert (Cr : core (fst (fst (set_well (Some id) q pwf r sk (m, Some s)))) = core m).
  { apply (c_set_well (fun m' => core m' = core m)); auto. }
  destruct (set_well (Some id) q pwf r sk (m, Some s)) as [[m' o'] r'] eqn:Es. cbn [fst snd] in *. unfold kept in Kp. cbn [fst snd] in Kp. injection Kp as B1 B2 ->. exists m'. split; auto. split; auto. split; auto. split; auto.
  destruct (core_fields _ _ Cr) as (Cg & Ci & _). destruct Wk as (_ & Wk1 & Wk2). destruct Rd as [H1 H2 H3 H4 H5 H6 H7 H8 H9 H10 H11 H12 H13 H14].
  destruct Wi as ((wi & Ei & _) & Ho). cbn [fst] in Ho, Ei.
  assert (Sub : forall j, In j (dkeys (b_wells m)) -> In j (dkeys (b_wells m'))) by (intros j J; destruct Om as [Om|(Om & _)]; cbn [fst] in Om; rewrite Om; auto using in_or_app).
  assert (Ex : exists En, dkeys (b_wells m') = (dkeys (b_wells m) ++ En)%list /\ forall j, In j En -> dget j (b_wells m) = None).
  { destruct Om as [Om|(Om & Nw)]; cbn [fst] in Om; [exists []; rewrite app_nil_r; split; [exact Om|intros j []]|]. exists [id]. split; auto. intros j [<-|[]]. destruct (dget id (b_wells m)) eqn:Q; auto. exfalso. apply Nw. apply dget_keys. congruence. }
  destruct Ex as (En & Ek & En0).
  constructor; try rewrite B1; try rewrite B2; try rewrite Ci; try rewrite Cg.
  - exact Wk1.
  - exact Wk2.
  - exact Wg.
  - intros j w Ej Cj. apply (Pz j w). split; auto.
  - exact H5.
  - intros e I. destruct (H6 e I) as (c & F). exists c. unfold bgrid in *. rewrite Cg. exact F.
  - exact H7.
  - destruct L as [(zs & h & L1 & L2)|L]; [left; exists zs, h; rewrite (core_z _ _ Cr), Ci; auto|right]. intros j w Ej Cq. apply (L j w). split; auto. apply con_q; auto. discriminate.
  - exact H9.
  - exact H10.
  - intros j P0 Lt Nw Nb. apply H11; auto.
  - destruct H12 as (K1 & K2). split; [|unfold banded in *; rewrite Ci, (scoup_core _ _ Cr); exact K2]. destruct K1 as [K1|K1]; [now left|right].
    eapply (DI3_more m m' s s En); auto.
    + intros idb I. unfold bval. now rewrite B1.
    + intros j w Ej Cj. assert (Jj : exists w', dget j (b_wells m') = Some w').
      { destruct (dget j (b_wells m')) eqn:Q; eauto. exfalso. assert (J : In j (dkeys (b_wells m'))) by (apply Sub, dget_keys; congruence). apply dget_keys in J. contradiction. }
      destruct Jj as (w' & Ew'). exists w'. split; auto. destruct (Sm j w w') as (S1 & S2); auto; [split; auto; apply con_q; auto; discriminate|]. unfold con, wk2, Jw. rewrite S2. unfold con. rewrite S1. auto.
  - intros j t Et. rewrite Tw in Et. discriminate.
  - intros e v I P. apply H14; auto. revert P. now apply prescribes_core.
Qed.

(** ** set_boundaries between the steps: only the last row changes, and there only
    the cells named. *)
Definition others (s : fs R) := ((s_nsteps s, s_tstep s, s_As s, s_ds s), (s_A s, s_res s, s_bv s, s_sym s), (s_err s, s_cum s)).
Lemma set2_last (rows rows' : list (list (fl R))) t id v : length rows = S t -> (0 <= id)%Z -> set2 rows t id v = Ok rows' ->
  removelast rows' = removelast rows /\ last rows' [] = upd (last rows []) (Z.to_nat id) v /\ Z.to_nat id < length (last rows []) /\ length rows' = S t.
Proof.
  intros L Hi E. assert (Ne : rows <> []) by (destruct rows; [discriminate|congruence]). pose proof (app_removelast_last [] Ne) as S. set (P := removelast rows) in *. set (r := last rows []) in *.
  assert (Lp : length P = t) by (rewrite S, app_length in L; cbn in L; lia). clearbody P r. subst rows t. unfold set2 in E. rewrite nth_error_app2, Nat.sub_diag in E by lia. cbn [nth_error] in E.
  destruct (pyset r id v) as [row|] eqn:Er; [|discriminate]. cbn [rbind] in E. injection E as <-. apply pyset_nat in Er as (Lr & ->); auto.
  assert (Q : forall (Q : list (list (fl R))) w, upd (Q ++ [r]) (length Q) w = (Q ++ [w])%list) by (intros Q w; induction Q as [|q Q IH]; cbn; [reflexivity|now rewrite IH]).
  rewrite Q, removelast_last, last_last, app_length. cbn. repeat split; auto. lia.
Qed.
Definition mid (m1 : bo R) (s0 : fs R) (B : list (Z * (string * R))) (x : ws R) : Prop := exists s, x = (m1, Some s) /\ others s = others s0 /\ shaped s /\
  removelast (s_r s) = removelast (s_r s0) /\ removelast (s_p s) = removelast (s_p s0) /\ length (last (s_r s) []) = length (last (s_r s0) []) /\
  (forall id, (0 <= id)%Z -> ~ In id (dkeys B) -> value (last (s_r s) []) id = value (last (s_r s0) []) id /\ value (last (s_p s) []) id = value (last (s_p s0) []) id) /\
  forall e v, In e B -> prescribes m1 e v -> value (last (s_r s) []) (fst e) = Some v.
Lemma mid_boundary m1 s0 B id c v x X : 0 < s_tstep s0 -> (0 <= id)%Z -> ~ In id (dkeys B) -> (forall e, In e B -> (0 <= fst e)%Z) -> mid m1 s0 B x -> set_boundary id c v x = (X, Ok tt) -> mid m1 s0 (B ++ [(id, (c, v))]) X.
Proof.
  intros T0 Hi Ni P (s & -> & H1 & H2 & H3 & H4 & H5 & H6 & H7) E. 
  assert (Ts : s_tstep s = s_tstep s0) by (unfold others in H1; congruence). assert (Tz : (s_tstep s =? 0) = false) by (apply Nat.eqb_neq; lia).
  assert (Nn : forall j, ~ In j (dkeys (B ++ [(id, (c, v))])) -> ~ In j (dkeys B) /\ j <> id).
  { intros j J. unfold dkeys in *. rewrite map_app, in_app_iff in J. cbn in J. split; [tauto|intros ->; apply J; auto]. }
  assert (Rt : forall w, put_rate id (Some w) (m1, Some s) = (X, Ok tt) -> (forall r, prescribes m1 (id, (c, v)) r -> r = w) -> mid m1 s0 (B ++ [(id, (c, v))]) X).
  { intros w E1 Pw. unfold put_rate in E1. apply mset_ok in E1. cbn [fst snd] in E1. rewrite Tz in E1. destruct (set2 (s_r s) (s_tstep s) id (Some w)) as [rows|] eqn:E2; [|discriminate]. cbn [rbind] in E1. injection E1 as <-.
    destruct (set2_last _ _ _ _ _ (proj2 H2) Hi E2) as (Q1 & Q2 & Q3 & Q4). exists (set_r rows s). split; [reflexivity|].
    replace (s_r (set_r rows s)) with rows by now destruct s. replace (s_p (set_r rows s)) with (s_p s) by now destruct s.
    split; [rewrite <- H1; now destruct s|]. split; [destruct s; split; cbn in *; [apply H2|exact Q4]|]. rewrite Q1, Q2, upd_length. split; auto. split; auto. split; auto. split.
    - intros j Pj J. destruct (Nn j J) as (J1 & J2). rewrite value_upd by auto. now apply H6.
    - intros e r I Pr. apply in_app_iff in I as [I|[<-|[]]].
      + rewrite value_upd; auto. intros J. apply Ni. rewrite <- J. now apply in_map.
      + cbn [fst]. rewrite (Pw r Pr). unfold value. now apply nth_upd_same. }
  unfold set_boundary in E. unfold prescribes in Rt. cbn [fst snd] in Rt.
  destruct (smem (lower c) RATE) eqn:ER.
  - apply (Rt v E). intros r [(_ & ->)|(Gr & _)]; auto. exfalso. revert ER Gr. apply rate_grad.
  - destruct (smem (lower c) PRESS) eqn:EP.
    + clear Rt. unfold put_pressure in E. apply mset_ok in E. cbn [fst snd] in E. rewrite Tz in E. destruct (set2 (s_p s) (s_tstep s) id (Some v)) as [rows|] eqn:E2; [|discriminate]. cbn [rbind] in E. injection E as <-.
      destruct (set2_last _ _ _ _ _ (proj1 H2) Hi E2) as (Q1 & Q2 & Q3 & Q4). exists (set_p rows s). split; [reflexivity|].
      replace (s_p (set_p rows s)) with rows by now destruct s. replace (s_r (set_p rows s)) with (s_r s) by now destruct s.
      split; [rewrite <- H1; now destruct s|]. split; [destruct s; split; cbn in *; [exact Q4|apply H2]|]. rewrite Q1, Q2. split; auto. split; auto. split; auto. split.
      * intros j Pj J. destruct (Nn j J) as (J1 & J2). rewrite value_upd by auto. now apply H6.
      * intros e r I Pr. apply in_app_iff in I as [I|[<-|[]]]; [now apply H7|]. destruct Pr as [(Pr & _)|(Gr & _)]; cbn [fst snd] in *; [congruence|exfalso; revert EP Gr; apply press_grad].
    + destruct (smem (lower c) GRAD); [|discriminate]. apply mbind_ok in E as (r & X1 & E1 & E). apply mread_ok in E1 as (-> & E1). cbn [fst] in E1.
      apply (Rt r E). intros r' [(? & _)|(_ & Gr)]; [discriminate|congruence].
Qed.
Lemma mid_loop m1 s0 bs : 0 < s_tstep s0 -> forall bd B x X, NoDup (dkeys (B ++ bd)) -> (forall e, In e (B ++ bd) -> (0 <= fst e)%Z) -> mid m1 s0 B x ->
  miter (fun e : Z * (string * R) => match e with (id, (cond, v)) => do _ <- mread (fun _ => passert (zmem id bs)) ;; set_boundary id cond v end) bd x = (X, Ok tt) -> mid m1 s0 (B ++ bd) X.
Proof.
  intros T0. induction bd as [|[id [c v]] bd IH]; intros B x X D P H E; cbn [miter] in E; [rewrite app_nil_r; now inversion E; subst|].
  apply mbind_ok in E as ([] & X1 & E1 & E). apply mbind_ok in E1 as (b & X2 & E0 & E1). apply mread_ok in E0 as (-> & _).
  replace (B ++ (id, (c, v)) :: bd)%list with ((B ++ [(id, (c, v))]) ++ bd)%list in * by (rewrite <- app_assoc; reflexivity).
  apply (IH _ X1); auto. apply (mid_boundary m1 s0 B id c v x); auto.
  - apply (P (id, (c, v))). apply in_or_app. left. apply in_or_app. right. now left.
  - unfold dkeys in *. rewrite !map_app in D. cbn [map fst] in D. rewrite <- app_assoc in D. cbn [app] in D. apply NoDup_remove_2 in D. intros J. apply D. apply in_or_app. now left.
  - intros e I. apply P. apply in_or_app. left. apply in_or_app. now left.
Qed.
Lemma boundaries_mid bd (m : bo R) s X : 0 < s_tstep s -> shaped s -> NoDup (map fst bd) -> (forall e, In e bd -> (0 <= fst e)%Z) -> set_boundaries bd (m, Some s) = (X, Ok tt) ->
  exists s', X = (set_bup (pressured bd) (set_bdict bd m), Some s') /\ mid (set_bdict bd m) s bd (set_bdict bd m, Some s').
Proof.
  intros T0 Sh D P E. unfold set_boundaries in E.
  apply mbind_ok in E as ([] & X1 & E1 & E). apply mset_ok in E1. injection E1 as <-.
  apply mbind_ok in E as (bs & X1 & E1 & E). apply mread_ok in E1 as (-> & E1).
  apply mbind_ok in E as ([] & X1 & E2 & E). apply mset_ok in E. injection E as <-.
  apply (mid_loop (set_bdict bd m) s bs T0 bd []) in E2; auto.
  - cbn [app] in E2. pose proof E2 as (s' & -> & _). exists s'. split; [now destruct m|exact E2].
  - exists s. split; [reflexivity|]. split; [reflexivity|]. split; [exact Sh|]. repeat (split; [reflexivity|]). split; auto. intros ? ? [].
Qed.
Lemma pressured_of bd : pressured bd = map fst (pressures bd). Proof. reflexivity. Qed.
Lemma in_pressures id v bd : In (id, ("pressure"%string, v)) (pressures bd : list (Z * (string * R))) <-> In (id, ("pressure"%string, v)) bd.
Proof. unfold pressures. rewrite filter_In. cbn. tauto. Qed.

Lemma ready_bounds (m : bo R) s bd x y z u dx dy dz : model m x y z u dx dy dz -> ready (m := m) s -> b_terms m = [] ->
  change (m, Some s) (Set_boundaries bd) -> snd (exec (Set_boundaries bd) (m, Some s)) = Ok tt ->
  exists m' s', fst (exec (Set_boundaries bd) (m, Some s)) = (m', Some s') /\ core m' = core m /\ b_terms m' = [] /\ b_bdict m' = bd /\ b_wells m' = b_wells m /\ ready (m := m') s' /\ 
    removelast (s_r s') = removelast (s_r s) /\ removelast (s_p s') = removelast (s_p s) /\ others s' = others s /\
    forall id, (0 <= id)%Z -> ~ In id (map fst bd) -> value (last (s_r s') []) id = value (last (s_r s) []) id /\ value (last (s_p s') []) id = value (last (s_p s) []) id.
Proof.
  intros K Rd T (T0 & D & Fc & Pe & In0) E. cbn [exec] in *. unfold get_tstep in T0. cbn [fst snd] in *. rewrite Forall_forall in Fc.
  assert (Fp : forall e, In e bd -> (0 <= fst e)%Z) by (intros e I; apply (face_facts K _ (Fc e I))).
  destruct (set_boundaries bd (m, Some s)) as [X rr] eqn:Es. cbn [fst snd] in *. subst rr. destruct (boundaries_mid bd m s X T0 (r_sh _ Rd) D Fp Es) as (s' & -> & M).
  destruct M as (s1 & E1 & H1 & H2 & H3 & H4 & H5 & H6 & H7). injection E1 as <-.
  exists (set_bup (pressured bd) (set_bdict bd m)), s'. split; auto.
  assert (Cr : core (set_bup (pressured bd) (set_bdict bd m)) = core m) by now rewrite core_bup, core_bdict.
  set (m' := set_bup (pressured bd) (set_bdict bd m)) in *. assert (B1 : b_bdict m' = bd) by (unfold m'; now destruct m). assert (B2 : b_bup m' = pressured bd) by (unfold m'; now destruct m).
  assert (Bw : b_wells m' = b_wells m) by (unfold m'; now destruct m). assert (Bt : b_terms m' = []) by (rewrite <- T; unfold m'; now destruct m).
  split; auto. split; auto. split; auto. split; auto. split; [|split; [exact H3|split; [exact H4|split; [exact H1|exact H6]]]].
  clearbody m'. destruct (core_fields _ _ Cr) as (Cg & Ci & _). destruct Rd as [R1 R2 R3 R4 R5 R6 R7 R8 R9 R10 R11 R12 R13 R14].
  constructor; try rewrite B1; try rewrite B2; try rewrite Ci; try rewrite Cg; try rewrite Bw; auto.
  - intros e I. destruct (Fc e I) as (c & F). exists c. unfold bgrid in *. rewrite Cg. exact F.
  - destruct R8 as [(zs & h & L1 & L2)|L]; [left; exists zs, h; rewrite (core_z _ _ Cr), Ci; auto|right; auto].
  - congruence.
  - intros j P0 Lt Nw Nb. destruct (H6 j P0 Nb) as (-> & _). apply R11; auto.
  - destruct R12 as (K1 & K2). unfold others in H1. injection H1 as _ _ _ _ HA Hr Hb Hs _ _. split; [|unfold banded in *; rewrite Ci, (scoup_core _ _ Cr), Hs; exact K2]. rewrite HA. destruct K1 as [K1|K1]; [now left|right].
    eapply (DI3_more m m' s s' []); auto; try (now rewrite Bw, app_nil_r).
    + rewrite B2, R7, !pressured_of. now rewrite Pe.
    + intros idb I. rewrite R7, pressured_of in I. apply in_map_iff in I as ([j [c v]] & Ej & I). cbn in Ej. subst j.
      assert (c = "pressure"%string) as -> by (unfold pressures in I; apply filter_In in I as (_ & I); cbn in I; now apply String.eqb_eq in I).
      unfold bval. rewrite B1. rewrite (dget_In_nodup _ _ _ R5 (proj1 (in_pressures _ _ _) I)). rewrite <- Pe in I. now rewrite (dget_In_nodup _ _ _ D (proj1 (in_pressures _ _ _) I)).
    + intros j J. destruct J.
    + intros j w Ej Cj. exists w. rewrite Bw. auto.
  - intros j t Et. rewrite Bt in Et. discriminate.
  - intros e v I P. apply H7; auto. revert P. apply prescribes_core. now rewrite core_bdict.
Qed.

(** ** What setting controls leaves of the recorded rows, in any state *)
Definition spared (s0 : fs R) (keys : list Z) (x : ws R) : Prop := exists s, snd x = Some s /\ others s = others s0 /\ length (s_p s) = length (s_p s0) /\ length (s_r s) = length (s_r s0) /\
  forall t id, (0 <= id)%Z -> (t <> s_tstep s0 \/ ~ In id keys) -> value (nth t (s_p s) []) id = value (nth t (s_p s0) []) id /\ value (nth t (s_r s) []) id = value (nth t (s_r s0) []) id.
Lemma set2_spares (rows rows' : list (list (fl R))) t i v : (0 <= i)%Z -> set2 rows t i v = Ok rows' ->
  length rows' = length rows /\ forall t' id, (0 <= id)%Z -> t' <> t \/ id <> i -> value (nth t' rows' []) id = value (nth t' rows []) id.
Proof.
  intros Hi E. unfold set2 in E. destruct (nth_error rows t) as [row|] eqn:Er; [|discriminate]. destruct (pyset row i v) as [row'|] eqn:Ep; [|discriminate]. cbn [rbind] in E. injection E as <-.
  apply pyset_nat in Ep as (Lr & ->); auto. split; [apply upd_length|]. intros t' id Pd H. assert (Lt : t < length rows) by (apply nth_error_Some; congruence).
  destruct (Nat.eq_dec t' t) as [->|N]; [|now rewrite nth_upd_other by auto]. rewrite nth_upd_same by auto. rewrite (nth_error_nth _ _ _ Er). destruct H as [H|H]; [congruence|]. now apply value_upd.
Qed.
Lemma sp_rate s0 keys id v : (0 <= id)%Z -> In id keys -> inv (spared s0 keys) (put_rate id v).
Proof.
  intros Hi I. unfold put_rate. apply i_set. intros [m o] [m' o'] (s & H1 & H2 & H3 & H4 & H5) E. cbn [fst snd] in *. subst o.
  destruct (s_tstep s =? 0); [destruct (pyset (b_ir m) id v); [|discriminate]; cbn [rbind] in E; injection E as _ <-; exists s; auto|].
  destruct (set2 (s_r s) (s_tstep s) id v) as [rows|] eqn:E2; [|discriminate]. cbn [rbind] in E. injection E as _ <-. apply set2_spares in E2 as (Q1 & Q2); auto.
  exists (set_r rows s). split; [reflexivity|]. split; [rewrite <- H2; now destruct s|]. replace (s_p (set_r rows s)) with (s_p s) by now destruct s. replace (s_r (set_r rows s)) with rows by now destruct s.
  split; auto. split; [congruence|]. intros t j Pj T. split; [now apply H5|]. rewrite Q2; auto; [now apply H5|]. assert (s_tstep s = s_tstep s0) as -> by (unfold others in H2; congruence). destruct T as [T|T]; auto. right. intros ->. contradiction.
Qed.
Lemma sp_press s0 keys id v : (0 <= id)%Z -> In id keys -> inv (spared s0 keys) (put_pressure id v).
Proof.
  intros Hi I. unfold put_pressure. apply i_set. intros [m o] [m' o'] (s & H1 & H2 & H3 & H4 & H5) E. cbn [fst snd] in *. subst o.
  destruct (s_tstep s =? 0); [destruct (pyset (b_ip m) id v); [|discriminate]; cbn [rbind] in E; injection E as _ <-; exists s; auto|].
  destruct (set2 (s_p s) (s_tstep s) id v) as [rows|] eqn:E2; [|discriminate]. cbn [rbind] in E. injection E as _ <-. apply set2_spares in E2 as (Q1 & Q2); auto.
  exists (set_p rows s). split; [reflexivity|]. split; [rewrite <- H2; now destruct s|]. replace (s_r (set_p rows s)) with (s_r s) by now destruct s. replace (s_p (set_p rows s)) with rows by now destruct s.
  split; [congruence|]. split; auto. intros t j Pj T. split; [|now apply H5]. rewrite Q2; auto; [now apply H5|]. assert (s_tstep s = s_tstep s0) as -> by (unfold others in H2; congruence). destruct T as [T|T]; auto. right. intros ->. contradiction.
Qed.
Lemma sp_boundary s0 keys id c v : (0 <= id)%Z -> In id keys -> inv (spared s0 keys) (set_boundary id c v).
Proof. intros Hi I. unfold set_boundary. isplit; auto using sp_rate, sp_press. Qed.
Lemma sp_boundaries s0 bd : (forall e, In e bd -> (0 <= fst e)%Z) -> inv (spared s0 (map fst bd)) (set_boundaries bd).
Proof.
  intros P. unfold set_boundaries. apply i_bind; [apply i_set; intros x x' H E; injection E as <-; exact H|]. intros []. apply i_bind; [apply i_read|]. intros bs.
  apply i_bind; [|intros []; apply i_set; intros x x' H E; injection E as <-; exact H].
  apply i_iter. intros [id [c v]] I. isplit. apply sp_boundary; [exact (P _ I)|]. change id with (fst (id, (c, v))). now apply in_map.
Qed.
