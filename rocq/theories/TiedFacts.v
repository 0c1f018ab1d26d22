(** A pressure boundary ties the matrix of every step. *)
From Coq Require Import String ZArith Bool Arith List Lia Reals Lra.
From Verif Require Import Prelude PreludeFacts Num GridModel GridSpec GeoModel GeoSpec
  PropModel PropSpec BlackOilModel FdmModel MonadFacts HistSpec InvFacts SumFacts ModelSpec ModelFacts VectFacts AsmFacts.
Import ListNotations.
Close Scope R_scope.
Open Scope nat_scope.

Section tied.
Context {m0 : bo R} {x y z : nat} {u : bool} {dx dy dz : dinput R} (K : model m0 x y z u dx dy dz).
Notation N := (length (b_ids m0)).
Notation okA := (okA (m0 := m0)).
Notation LI := (LI (m0 := m0) false).

Ltac fin := repeat match goal with
  | H : Ok _ = Ok _ |- _ => inversion H; clear H; subst
  | H : Err _ = Ok _ |- _ => discriminate
  | H : rbind ?e _ = Ok _ |- _ => destruct e eqn:?; cbn [rbind] in H
  | H : match ?e with _ => _ end = Ok _ |- _ => destruct e eqn:?
  end; cbn [fst snd] in *.

(** ** Steps of a model with a pressure boundary *)
Definition TT (X : st R) : Prop := b_bup (fst X) <> [] /\ Forall (okA true) (s_As (snd X)) /\
  (s_tstep (snd X) = 0 \/ exists A, s_A (snd X) = Some A /\ okA true A).
Definition LT (X : st R) : Prop := LI false X /\ TT X.
Definition LT1 (X : st R) : Prop := LI false X /\ b_bup (fst X) <> [] /\ Forall (okA true) (s_As (snd X)) /\
  exists A, s_A (snd X) = Some A /\ okA true A.
Lemma LT1_LT X : LT1 X -> LT X. Proof. intros (? & ? & ? & ?). split; auto. split; auto. Qed.
Lemma i_conj (P Q : st R -> Prop) A (c : M (st R) A) : inv P c -> inv Q c -> inv (fun X => P X /\ Q X) c.
Proof. intros H1 H2 s (? & ?). split; auto. Qed.
Ltac same := apply i_set; intros [[] []] [? ?] ? ?; cbn [fst snd] in *; fin; assumption.
Lemma t_put_r id v : inv TT (put_r id v). Proof. unfold put_r. same. Qed.
Lemma t_ub : inv TT update_boundaries. Proof. unfold update_boundaries, update_boundary. isplit; auto using t_put_r. Qed.
Lemma t_uw id f : inv TT (upd_wells id f). Proof. unfold upd_wells. same. Qed.
Lemma t_update_well id : inv TT (update_well id). Proof. unfold update_well. isplit; auto using t_put_r, t_uw. Qed.
Lemma t_uloop l : forall acc, inv TT (update_wells_loop l acc).
Proof. induction l as [|i l IH]; intros acc; cbn [update_wells_loop]; isplit; auto using t_update_well. Qed.
Lemma t_update_wells : inv TT update_wells.
Proof. unfold update_wells. isplit; auto using t_uloop. destruct a0; isplit. same. Qed.
Lemma t_MB : inv TT check_MB.
Proof. unfold check_MB. apply i_set. intros [m []] [? ?] ? E. cbn [fst snd] in *. destruct (b_cmp m); fin; assumption. Qed.
Lemma t_drop : inv TT (mset (fun X : st R => Ok (fst X, drop_rows (snd X)))).
Proof.
  apply i_set. intros [m []] [? ?] (H1 & H2 & H3) E. cbn [fst snd] in *. inversion E; subst. clear E. split; auto. split; auto. cbn in *.
  destruct H3 as [->|H3]; auto.
Qed.
Lemma t_nsteps n : inv TT (mset (fun X : st R => Ok (fst X, set_nsteps (s_nsteps (snd X) + n) (snd X)))). Proof. same. Qed.
Definition T1 (X : st R) : Prop := b_bup (fst X) <> [] /\ Forall (okA true) (s_As (snd X)) /\ exists A, s_A (snd X) = Some A /\ okA true A.
Lemma t1_rows A d p : okA true A -> inv T1 (new_rows A d p).
Proof.
  intros HA. unfold new_rows. isplit; try same. apply i_set. intros [[] []] [? ?] (H1 & H2 & H3) E. inversion E; subst. clear E.
  split; [exact H1|]. split; [|exact H3]. cbn in *. apply Forall_app. split; auto.
Qed.


(** ** The assembly *)
Definition fr (b : list Z) (As : list (@mat R)) (t : nat) (X : st R) : Prop := b_bup (fst X) = b /\ s_As (snd X) = As /\ s_tstep (snd X) = t.
Lemma fr_vwell b As t id du : inv (fr b As t) (vect_well id du).
Proof. unfold vect_well, addto_A. isplit; same. Qed.
Lemma fr_vect b As t : inv (fr b As t) get_matrices_vect.
Proof.
  unfold get_matrices_vect, init_vect, init_b, addto_A. isplit; try same.
  generalize (a1, false). induction a2 as [|i l IH]; intros du; cbn [vect_wells]; isplit; auto using fr_vwell.
Qed.
Lemma tied_vect : hoare (fun X => LI false X /\ b_bup (fst X) <> [] /\ (s_tstep (snd X) = 0 \/ exists A, s_A (snd X) = Some A /\ okA true A))
  get_matrices_vect (fun Ad X => LI true X /\ s_A (snd X) = Some (fst Ad))
  (fun X => LI false X).
Proof.
  unfold get_matrices_vect.
  apply h_bind with (Q := fun ini X => LI false X /\ b_bup (fst X) <> [] /\
     (ini = false -> exists A, s_A (snd X) = Some A /\ okA true A)); [apply h_read|].
  - intros X ini (H1 & H2 & H3) E. inversion E; subst. split; auto. split; auto. intros Ei. apply orb_false_iff in Ei as (Ei & _).
    destruct H3 as [H3|H3]; auto. rewrite H3 in Ei. discriminate.
  - tauto.
  - intros ini. apply h_bind with (Q := fun _ X => LI true X).
    + intros X (H & Hb & HA). destruct ini; cbn [mwhen].
      * pose proof (li_init K false X H) as Q.
        assert (Kb : b_bup (fst (fst (init_vect X))) = b_bup (fst X)).
        { assert (I2 : forall b, inv (fun Y : st R => b_bup (fst Y) = b) init_vect).
          { intros b'. unfold init_vect, init_b, addto_A. isplit; apply i_set; intros [? ?] [? ?] ? E; cbn [fst snd] in *; fin; congruence. }
          now apply (I2 (b_bup (fst X))). }
        destruct (init_vect X) as [X' [[]|]]; auto. cbn [fst] in Kb. rewrite Kb in Q. destruct (b_bup (fst X)); [congruence|]. apply Q.
      * destruct (HA eq_refl) as (A & EA & TA). cbn. destruct H as (H1 & H2 & H3 & H5 & H4). repeat (split; auto).
        intros A' EA'. rewrite EA in EA'. inversion EA'; subst. exact TA.
    + intros _. apply h_bind with (Q := fun _ X => LI true X); [apply h_read; eauto using LI_weak|].
      intros d. apply h_bind with (Q := fun _ X => LI true X); [apply h_read; eauto using LI_weak|].
      intros wids. apply h_bind with (Q := fun _ X => LI true X).
      { intros X H. pose proof (li_vwells K false true wids (d, false) X H) as Q. destruct (vect_wells wids (d, false) X) as [X' [|]]; eauto using LI_weak. }
      intros du. apply h_bind with (Q := fun _ X => LI true X); [apply h_read; eauto using LI_weak|].
      intros d'. apply h_bind with (Q := fun _ X => LI true X); [apply h_read; eauto using LI_weak|].
      intros d''. apply h_bind with (Q := fun A X => LI true X /\ s_A (snd X) = Some A); [apply h_read; eauto using LI_weak|].
      { intros X A H E. split; auto. destruct (s_A (snd X)); [cbn in E; congruence|discriminate]. }
      intros A. apply h_ret; auto.
Qed.
Lemma lt_vect : hoare LT get_matrices_vect (fun Ad X => (LI false X /\ T1 X) /\ okA true (fst Ad)) LT.
Proof.
  intros X (H & H1 & H2 & H3). pose proof (tied_vect X (conj H (conj H1 H3))) as Q.
  pose proof (fr_vect _ _ _ X (conj eq_refl (conj eq_refl eq_refl))) as (F1 & F2 & F3).
  assert (HT : s_tstep (snd X) <> 0 -> exists A, s_A (snd (fst (get_matrices_vect X))) = Some A /\ okA true A).
  { intros Nt. destruct H3 as [H3|H3]; [congruence|].
    assert (L : LI true X). { destruct H3 as (A & EA & TA). destruct H as (G1 & G2 & G3 & G5 & G4). repeat (split; auto). intros A' EA'. rewrite EA in EA'. inversion EA'; subst. exact TA. }
    assert (Sm : forall X : st R, LI true X /\ s_A (snd X) <> None /\ s_tstep (snd X) <> 0 -> exists A, s_A (snd X) = Some A /\ okA true A).
    { intros Y ((_ & _ & _ & _ & Y4) & Y1 & _). destruct (s_A (snd Y)) as [A|] eqn:EA; [|congruence]. eauto. }
    apply Sm. assert (I : inv (fun X => LI true X /\ s_A (snd X) <> None /\ s_tstep (snd X) <> 0) get_matrices_vect).
    { apply hoare_inv. unfold get_matrices_vect.
      apply h_bind with (Q := fun ini X => (LI true X /\ s_A (snd X) <> None /\ s_tstep (snd X) <> 0) /\ ini = false).
      - apply h_read; auto. intros Y ini (Y1 & Y2 & Y3) E. inversion E; subst. split; auto. apply orb_false_iff. split.
        + now apply Nat.eqb_neq.
        + destruct (s_A (snd Y)); [reflexivity|congruence].
      - intros ini Y (HY & ->). cbn [mwhen]. revert Y HY. apply inv_hoare. isplit. apply i_conj.
        + apply hoare_inv, (li_vwells K).
        + generalize (a0, false). induction a1 as [|i l IH]; intros du; cbn [vect_wells]; isplit; auto.
          unfold vect_well, addto_A. isplit; apply i_set; intros [? []] [? ?] ? ?; cbn [fst snd] in *; fin; cbn in *; intuition congruence. }
    apply I. split; auto. split; auto. destruct H3 as (A & EA & _). congruence. }
  destruct (get_matrices_vect X) as [X' [[A d]|e]]; cbn [fst snd] in *.
  - destruct Q as (Q1 & Q2). assert (TA : okA true A) by now apply Q1. split; auto. split; [now apply LI_weak in Q1|].
    split; [now rewrite F1|]. split; [now rewrite F2|]. eauto.
  - split; auto. split; [now rewrite F1|]. split; [now rewrite F2|]. rewrite F3.
    destruct (Nat.eq_dec (s_tstep (snd X)) 0); auto.
Qed.
(** ** A pressure-controlled well *)
Section well.
Variables (id0 : Z) (p0 : R).
Definition WP (X : st R) : Prop := exists w, dget id0 (b_wells (fst X)) = Some w /\ w_con w = Some (Some "pwf"%string) /\
  w_pwf w = Some (Some p0).
Definition WR (t : bool) (X : st R) : Prop := LI t X /\ WP X /\ (t = false -> dget id0 (s_res (snd X)) <> Some true).
Hypothesis (Hp0 : p0 <> 0%R).
Lemma wr_vwell t id du : hoare (WR t) (vect_well id du) (fun _ => WR (t || Z.eqb id id0)) (fun _ => True).
Proof.
  unfold vect_well. apply h_bind with (Q := fun w X => WR t X /\ dget id (b_wells (fst X)) = Some w).
  { apply h_read; auto. intros X w H E. split; auto. unfold dgetE in E. destruct (dget id _); [congruence|discriminate]. }
  intros w. apply h_bind with (Q := fun cq X => (WR t X /\ dget id (b_wells (fst X)) = Some w) /\ con_is w "q" = Ok cq).
  { apply h_read; auto. }
  assert (Me : forall X, WR t X -> dget id (b_wells (fst X)) = Some w -> (w_con w <> Some (Some "pwf"%string)) -> WR (t || Z.eqb id id0) X).
  { intros X H Ew Nc. destruct (Z.eqb_spec id id0) as [->|Ne]; [|now rewrite orb_false_r].
    destruct H as (_ & (w' & E1 & E2 & _) & _). congruence. }
  intros cq. apply h_if; intros Eq; subst cq.
  { apply h_read; auto. intros X a ((H & Ew) & Cq) _. apply Me; auto. intros E. unfold con_is in Cq. rewrite E in Cq. discriminate. }
  apply h_bind with (Q := fun cp X => ((WR t X /\ dget id (b_wells (fst X)) = Some w) /\ con_is w "q" = Ok false) /\ con_is w "pwf" = Ok cp); [apply h_read; auto|].
  intros cp. apply h_if; intros Ep; subst cp.
  2:{ apply h_ret. intros X (((H & Ew) & _) & Cp). apply Me; auto. intros E. unfold con_is in Cp. rewrite E in Cp. discriminate. }
  apply h_bind with (Q := fun v X => WR t X /\ exists v1, snd v = Some v1 /\ (v1 <= 0)%R /\ (id = id0 -> v1 < 0)%R).
  { apply h_read; auto. intros X v (((H & Ew) & Cq) & Cp) E. split; auto. destruct H as ((Hc & _ & Pr & _) & (w' & W1 & W2 & W3) & _).
    assert (Wp : id = id0 -> w_pwf w = Some (Some p0)) by (intros ->; congruence).
    destruct (w_vals K _ _ _ _ Hc Pr Ew Cq E) as (G & pwf & J & [(_ & Q & _ & HJ & [(Q1 & ->)|(_ & ->)])|(Q & ->)]); cbn [snd]; eexists; (split; [reflexivity|split; [try lra|intros Ei; specialize (Wp Ei)]]).
    - exfalso. rewrite Q in Wp. inversion Wp. congruence.
    - lra.
    - congruence. }
  intros v. apply h_bind with (Q := fun _ X => WR t X /\ exists v1, snd v = Some v1 /\ (v1 <= 0)%R /\ (id = id0 -> v1 < 0)%R); [apply h_read; auto|].
  intros d. apply h_bind with (Q := fun done X => (WR t X /\ exists v1, snd v = Some v1 /\ (v1 <= 0)%R /\ (id = id0 -> v1 < 0)%R) /\
    (done = true -> dget id (s_res (snd X)) = Some true)).
  { apply h_read; auto. intros X done H E. split; auto. intros ->. destruct (dget id (s_res (snd X))); congruence. }
  intros done. apply h_bind with (Q := fun _ => WR (t || Z.eqb id id0)); [|intros; apply h_ret; auto].
  destruct done; cbn [negb mwhen].
  - apply h_ret. intros X ((H & _) & Hd). specialize (Hd eq_refl). destruct (Z.eqb_spec id id0) as [->|]; [|now rewrite orb_false_r].
    rewrite orb_true_r. destruct H as (H1 & H2 & H3). destruct t; [split; auto|]. exfalso. now apply H3.
  - apply h_bind with (Q := fun _ X => LI (t || Z.eqb id id0) X /\ WP X /\ (t = false -> dget id0 (s_res (snd X)) <> Some true)).
    + intros X (((H1 & H2 & H3) & v1 & -> & Hv & Hi) & _).
      assert (Ht : t || Z.eqb id id0 = true -> t = true \/ (v1 < 0)%R) by (destruct (Z.eqb_spec id id0), t; intros; auto; discriminate).
      pose proof (li_addto false t id v1 (t || Z.eqb id id0) Hv Ht X H1) as Q.
      assert (Kp : inv (fun X => WP X /\ (t = false -> dget id0 (s_res (snd X)) <> Some true)) (addto_A id (Some v1))).
      { unfold addto_A. apply i_set. intros [? []] [? ?] ? ?; cbn [fst snd] in *; fin; assumption. }
      specialize (Kp X (conj H2 H3)). destruct (addto_A id (Some v1) X) as [X' [[]|]]; auto. tauto.
    + intros _. apply h_set; auto. intros [m s] [m' s'] (H1 & H2 & H3) E. inversion E; subst. clear E. destruct s; cbn [fst snd] in *.
      split; [exact H1|]. split; [exact H2|]. intros Ei. apply orb_false_iff in Ei as (-> & Ei). cbn in *. rewrite dget_dset_z.
      apply Z.eqb_neq in Ei. destruct (Z.eqb_spec id0 id); [congruence|auto].
Qed.
Lemma wr_vwells l : forall t du, hoare (WR t) (vect_wells l du) (fun _ => WR (t || zmem id0 l)) (fun _ => True).
Proof.
  induction l as [|i l IH]; intros t du; cbn [vect_wells]; [apply h_ret; intros; now rewrite orb_false_r|].
  apply h_bind with (Q := fun _ => WR (t || Z.eqb i id0)); [apply wr_vwell|]. intros du'.
  cbn [zmem existsb]. rewrite (Z.eqb_sym id0 i), orb_assoc. apply IH.
Qed.
Lemma well_vect : hoare (fun X => LI false X /\ WP X /\ s_tstep (snd X) = 0)
  get_matrices_vect (fun Ad X => LI true X /\ s_A (snd X) = Some (fst Ad)) (fun X => True).
Proof.
  unfold get_matrices_vect.
  apply h_bind with (Q := fun ini X => (LI false X /\ WP X) /\ ini = true); [apply h_read; auto|].
  { intros X ini (H1 & H2 & H3) E. inversion E; subst. split; auto. now rewrite H3. }
  intros ini. apply h_bind with (Q := fun _ X => WR false X).
  { intros X ((H & HW) & ->). cbn [mwhen]. pose proof (li_init K false X H) as Q.
    assert (I2 : hoare WP init_vect (fun _ X => WP X /\ s_res (snd X) = []) (fun _ => True)).
    { unfold init_vect. apply h_bind with (Q := fun _ X => WP X /\ s_res (snd X) = []).
      - apply h_set; auto. intros [m []] [m' s'] HX E. inversion E; subst. split; [exact HX|reflexivity].
      - intros _. apply h_weak with (P := fun X => WP X /\ s_res (snd X) = []) (Q := fun _ X => WP X /\ s_res (snd X) = []) (E := fun X => WP X /\ s_res (snd X) = []); auto.
        apply inv_hoare. unfold init_b, addto_A. isplit; same. }
    specialize (I2 X HW). destruct (init_vect X) as [X' [[]|]]; auto. destruct Q as (Q & _). destruct I2 as (I2 & I3).
    split; [now apply LI_weak in Q|]. split; auto. intros _. rewrite I3. discriminate. }
  intros _. apply h_bind with (Q := fun _ => WR false); [apply h_read; auto|].
  intros d. apply h_bind with (Q := fun l X => WR false X /\ zmem id0 l = true); [apply h_read; auto|].
  { intros X l H E. inversion E; subst. split; auto. destruct H as (_ & (w & Ew & _) & _). apply zmem_In. apply dget_keys. congruence. }
  intros wids. apply h_bind with (Q := fun _ X => LI true X).
  { intros X (H & Hm). pose proof (wr_vwells wids false (d, false) X H) as Q. rewrite Hm in Q. destruct (vect_wells _ _ X) as [X' [|]]; auto. apply Q. }
  intros du. apply h_bind with (Q := fun _ X => LI true X); [apply h_read; auto|].
  intros d'. apply h_bind with (Q := fun _ X => LI true X); [apply h_read; auto|].
  intros d''. apply h_bind with (Q := fun A X => LI true X /\ s_A (snd X) = Some A); [apply h_read; auto|].
  { intros X A H E. split; auto. destruct (s_A (snd X)); [cbn in E; congruence|discriminate]. }
  intros A. apply h_ret; auto.
Qed.
End well.
Section solver.
Context (slv : solver_kind -> @mat R -> list (fl R) -> res (list (fl R))) (sc : Z -> R).
Lemma lt_solve fuel sparse : forall o, o_vect o = true -> o_print o = false -> inv LT (solve slv sc fuel sparse o).
Proof.
  induction fuel as [|fuel IH]; intros o Ho Hp; cbn [solve]; [apply i_read|]. apply hoare_inv.
  apply h_bind with (Q := fun Ad X => (LI false X /\ T1 X) /\ okA true (fst Ad)).
  { unfold get_system. rewrite Ho, Hp. apply lt_vect. }
  intros Ad. apply h_bind with (Q := fun _ X => (LI false X /\ T1 X) /\ okA true (fst Ad)); [apply h_read; auto|].
  { intros X ((? & ? & ? & ?) & _). now apply LT1_LT. }
  intros p. destruct (o_upd o).
  2:{ apply h_ret. intros X ((? & ? & ? & ?) & _). now apply LT1_LT. }
  apply h_bind with (Q := fun _ => LT).
  { intros X (H & HA).
    assert (I : inv (fun X => LI false X /\ T1 X) (new_rows (fst Ad) (snd Ad) p)).
    { apply i_conj; [apply li_rows; congruence|now apply t1_rows]. }
    specialize (I X H). destruct (new_rows _ _ _ X) as [X' [|]]; cbn [fst] in I; now apply LT1_LT. }
  intros _. apply inv_hoare. isplit.
  - apply i_conj; [apply li_ub|apply t_ub].
  - apply i_conj; [apply li_update_wells|apply t_update_wells].
  - apply i_conj; [apply li_drop|apply t_drop].
  - now apply IH.
  - apply i_conj; [apply li_MB|apply t_MB].
Qed.
Lemma lt_run n fuel sparse thr mb iso : inv LT (run slv sc n fuel sparse thr true mb false iso).
Proof.
  unfold run. isplit; [apply i_conj; [apply li_nsteps|apply t_nsteps]|].
  assert (H : forall k o, o_vect o = true -> o_print o = false -> inv LT (run_loop slv sc k fuel sparse o)); [|now apply H].
  induction k as [|k IH]; intros o Hv Hp; cbn [run_loop]; isplit; auto using lt_solve.
Qed.
End solver.
End tied.
