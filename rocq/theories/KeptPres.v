(** Histories with pressure-controlled wells only. *)
From Coq Require Import String ZArith Bool Arith List Lia Reals Lra.
From Verif Require Import Prelude PreludeFacts Num GridModel GeoModel PropModel BlackOilModel FdmModel MonadFacts HistSpec InvFacts SolveSpec DryFacts MemoThm KeptSpec KeptFacts.
Import ListNotations.
Close Scope R_scope.
Open Scope nat_scope.

Definition pw (w : well R) : Prop := w_con w = Some (Some "pwf"%string) /\ w_qsp w = None /\ exists p, w_pwf w = Some (Some p) /\ w_pwfsp w = Some p.
(** All wells are controlled by pressure and are in the cells [K]. *)
Definition PW (K : Z -> Prop) (m : bo R) : Prop := forall id, match dget id (b_wells m) with Some w => pw w /\ K id | None => ~ K id end.
Lemma PW_wells K m m' : b_wells m' = b_wells m -> PW K m -> PW K m'. Proof. unfold PW. now intros ->. Qed.
Lemma PW_dset K m id w : PW K m -> K id -> pw w -> PW K (set_wells (dset id w (b_wells m)) m).
Proof. intros H Ki Hw j. rewrite wells_set_wells, dget_dset_z. destruct (Z.eqb_spec j id) as [->|]; [auto|apply H]. Qed.

(** ** A step *)
Section step.
Variable K : Z -> Prop.
Notation PS := (fun x : st R => PW K (fst x)).
Lemma p_put id v : inv PS (put_r id v). Proof. apply (c_put_r (PW K)). Qed.
Lemma p_update_well id : inv PS (update_well id).
Proof.
  intros x H. unfold update_well. unfold mbind at 1, mread at 1. destruct (dgetE id (b_wells (fst x))) as [w|] eqn:Ew; [|exact H].
  assert (Dw : dget id (b_wells (fst x)) = Some w) by (unfold dgetE in Ew; destruct (dget id (b_wells (fst x))); congruence).
  pose proof (H id) as Hw. rewrite Dw in Hw. destruct Hw as ((Hc & Hq & p0 & Hp & Hl) & Ki).
  unfold mbind at 1, mread at 1. destruct (at2 _ _ _) as [p|]; [|exact H].
  unfold mbind at 1, mread at 1. rewrite Hq, Hp. cbn [keyE]. unfold mbind at 1, mread at 1. rewrite Hl. cbn [keyE].
  assert (Lt : fltb (Some p0) (Some p0) = false). { cbn. unfold Rltb. destruct (Rlt_dec p0 p0); [lra|reflexivity]. }
  rewrite Lt. cbn [mbind mread mret snd fst].
  set (Q := fun y : st R => PW K (fst y) /\ exists v, dget id (b_wells (fst y)) = Some v /\ w_pwfsp v = Some p0).
  assert (U : forall f, (forall v, w_pwfsp v = Some p0 -> pw v -> pw (f v) /\ w_pwfsp (f v) = Some p0) -> inv Q (upd_wells id f)).
  { intros f Hf. unfold upd_wells. apply i_set. intros [m s] x' (Hm & v & Ev & Sv) E. cbn [fst snd] in *. unfold dgetE in E. rewrite Ev in E. cbn [rbind] in E. inversion E; subst. unfold Q. cbn [fst].
    pose proof (Hm id) as Hv. rewrite Ev in Hv. destruct Hv as (Hv & _). destruct (Hf v Sv Hv) as (F1 & F2). split; [apply PW_dset; auto|]. rewrite wells_set_wells, dget_dset_z, Z.eqb_refl. eauto. }
  assert (P0 : forall i v, inv Q (put_r i v)).
  { intros i v. unfold put_r. apply i_set. intros [m s] x' Hm E. cbn [fst snd] in *. destruct (set2 _ _ _ _); cbn [rbind] in E; inversion E; subst. exact Hm. }
  assert (A1 : forall c : M (st R) (bool * fl R), inv Q c -> PW K (fst (fst (c x)))) by (intros c Hi; apply Hi; split; eauto).
  match goal with |- PW K (fst (fst (?c x))) => apply (A1 c) end.
  assert (Wf : inv Q (upd_wells id (with_con (Some "pwf"%string)))) by (apply U; intros v V0 (V1 & V2 & p1 & V3 & V4); destruct v; cbn in *; unfold pw; cbn; eauto 6).
  assert (Wq : forall q, inv Q (upd_wells id (with_q_est q))) by (intros q; apply U; intros v V0 (V1 & V2 & p1 & V3 & V4); destruct v; cbn in *; unfold pw; cbn; eauto 6).
  assert (Wp : inv Q (upd_wells id (with_pwf_est (Some p0)))) by (apply U; intros v V0 (V1 & V2 & p1 & V3 & V4); destruct v; cbn in *; unfold pw; cbn; eauto 7).
  apply hoare_inv. eapply h_bind with (Q := fun rb y => Q y /\ snd rb = Some p0).
  - eapply h_bind with (Q := fun _ y => Q y); [apply inv_hoare, i_read|]. intros b. eapply h_bind with (Q := fun _ y => Q y); [apply inv_hoare; exact Wf|]. intros []. apply h_ret. auto.
  - intros [b v]. cbn [snd fst]. intros y (Qy & Ev). subst v. revert y Qy. apply (inv_hoare Q). isplit; auto.
Qed.
Lemma p_uloop l : forall acc, inv PS (update_wells_loop l acc).
Proof. induction l as [|i l IH]; intros acc; cbn [update_wells_loop]; isplit; auto using p_update_well. Qed.
Lemma p_update_wells : inv PS update_wells.
Proof.
  unfold update_wells. isplit; auto using p_uloop. destruct a0 as [t|]; isplit.
  apply i_set. intros [m s] x' Hm E. cbn [fst snd] in *. destruct (dgetE a0 t); cbn [rbind] in E; inversion E; subst. cbn [fst]. eapply PW_wells; [|exact Hm]. now destruct m.
Qed.
Lemma PW_terms v m : PW K m -> PW K (set_terms v m). Proof. apply PW_wells. now destruct m. Qed.
Lemma p_solve slv sc fuel sp : forall o, inv PS (solve slv sc fuel sp o).
Proof.
  induction fuel as [|k IH]; intros o; cbn [solve]; isplit; auto using p_update_wells.
  - apply (c_system (PW K)). intros; now apply PW_terms.
  - apply (c_rows (PW K)).
  - apply (c_ub (PW K)).
  - apply i_set. intros [m s] x' Hm E. inversion E; subst. exact Hm.
  - apply (c_MB (PW K)).
Qed.
End step.

(** ** set_well *)
Section well.
Variable id : Z.
Variable K : Z -> Prop.
(** The wells of the other cells, and the well of the cell. *)
Definition RW (Q : well R -> Prop) (x : ws R) : Prop :=
  (forall j, j <> id -> match dget j (b_wells (fst x)) with Some w => pw w /\ K j | None => ~ K j end) /\
  exists w, dget id (b_wells (fst x)) = Some w /\ Q w.
Lemma r_upd (Q Q' : well R -> Prop) f (E : ws R -> Prop) : (forall m w w', Q w -> f m w = Ok w' -> Q' w') -> (forall x, RW Q x -> E x) -> hoare (RW Q) (upd_well id f) (fun _ => RW Q') E.
Proof.
  intros H HE. unfold upd_well. apply h_set; auto. intros [m o] x' (H1 & w & Ew & Hw) Eq. cbn [fst snd] in *. unfold dgetE in Eq. rewrite Ew in Eq. cbn [rbind] in Eq.
  destruct (f m w) as [w'|] eqn:Ef; cbn [rbind] in Eq; inversion Eq; subst. split; cbn [fst].
  - intros j Nj. rewrite wells_set_wells, dget_dset_z. destruct (Z.eqb_spec j id); [congruence|now apply H1].
  - exists w'. rewrite wells_set_wells, dget_dset_z, Z.eqb_refl. eauto.
Qed.
Lemma r_log Q : inv (RW Q) (log_pressure id).
Proof. unfold log_pressure. apply i_set. intros [[] o] [m' o'] Hx E. cbn [fst snd] in *. destruct (get_pressure _ _); cbn [rbind] in E; inversion E; subst. exact Hx. Qed.
Definition any (x : ws R) : Prop := True.
Lemma well_set p r s x : PW K (fst x) -> snd (set_well (Some id) None (Some p) r s x) = Ok tt -> PW (fun j => K j \/ j = id) (fst (fst (set_well (Some id) None (Some p) r s x))).
Proof.
  intros Hx Ok1.
  assert (H : hoare (fun x => PW K (fst x)) (set_well (Some id) None (Some p) r s) (fun _ => RW pw) any).
  { unfold set_well, assert_inside. eapply h_bind with (Q := fun _ x => PW K (fst x)); [eapply h_weak; [apply inv_hoare with (P := fun x : ws R => PW K (fst x)), i_read|auto|auto|intros; exact I]|]. intros _.
    set (Q0 := fun w : well R => (w_con w = Some (Some "pwf"%string) \/ w_q w = None) /\ w_qsp w = None).
    eapply h_bind with (Q := fun _ => RW Q0).
    { apply h_set; [|intros; exact I]. intros [m o] x' Hm E. cbn [fst snd] in *. inversion E; subst; clear E. unfold din. destruct (dget id (b_wells m)) as [w|] eqn:Ew; cbn [fst].
      - split; cbn [fst]; [intros j _; exact (Hm j)|]. exists w. split; auto. pose proof (Hm id) as Hw. rewrite Ew in Hw. destruct Hw as ((A1 & A2 & _) & _). unfold Q0. auto.
      - split; cbn [fst].
        + intros j Nj. rewrite wells_set_wells, dget_dset_z. destruct (Z.eqb_spec j id); [congruence|exact (Hm j)].
        + exists well0. rewrite wells_set_wells, dget_dset_z, Z.eqb_refl. split; auto. unfold Q0. cbn. auto. }
    intros _. cbn [mopt]. eapply h_bind with (Q := fun _ => RW Q0); [apply h_ret; auto|]. intros _.
    assert (Up : forall f, (forall m w w', pw w -> f m w = Ok w' -> pw w') -> hoare (RW pw) (upd_well id f) (fun _ => RW pw) any) by (intros f Hf; apply r_upd; auto; intros; exact I).
    eapply h_bind with (Q := fun _ => RW pw).
    { eapply h_bind with (Q := fun _ => RW pw).
      - apply r_upd; [|intros; exact I]. intros m w w' ([A1|A1] & A2) E; destruct w; cbn in *; subst; unfold pw; inversion E; subst; cbn; eauto 6.
        destruct w_q; cbn; eauto 6.
      - intros _. eapply h_weak; [apply (inv_hoare (RW pw)), r_log|auto|auto|intros; exact I]. }
    intros _. eapply h_bind with (Q := fun _ => RW pw).
    { apply Up. intros m w w' (A1 & A2) E. rewrite A1 in E. cbn in E. inversion E; subst. split; auto. }
    intros _. eapply h_bind with (Q := fun _ => RW pw).
    { destruct r; cbn [mopt]; [|apply h_ret; auto]. apply Up. intros m w w' Hw E. inversion E; subst. destruct w. exact Hw. }
    intros _. eapply h_bind with (Q := fun _ => RW pw).
    { destruct s; cbn [mopt]; [|apply h_ret; auto]. apply Up. intros m w w' Hw E. inversion E; subst. destruct w. exact Hw. }
    intros _. unfold set_well_tail. eapply h_bind with (Q := fun _ => RW pw).
    { apply Up. intros m w w' Hw E. destruct (calc_well_r_eq m id); cbn [rbind] in E; inversion E; subst. destruct w. exact Hw. }
    intros _. eapply h_bind with (Q := fun _ => RW pw).
    { apply Up. intros m w w' Hw E. destruct (calc_well_G m id); cbn [rbind] in E; inversion E; subst. destruct w. exact Hw. }
    intros _. eapply h_bind with (Q := fun w x => RW pw x /\ pw w).
    { intros y (H1 & w & Ew & Hw). unfold mread, dgetE. rewrite Ew. split; auto. split; eauto. }
    intros w y (Hy & Hw). destruct Hw as (_ & _ & p1 & Hp & _). rewrite Hp. cbn [has negb mwhen]. unfold mret. exact Hy. }
  specialize (H x Hx). destruct (set_well (Some id) None (Some p) r s x) as [y [[]|e]]; cbn [fst snd] in *; [|discriminate].
  destruct H as (H1 & w & Ew & Hw). intros j. destruct (Z.eq_dec j id) as [->|Nj]; [rewrite Ew; auto|]. specialize (H1 j Nj). destruct (dget j (b_wells (fst y))); [tauto|]. intros [Kj|Ej]; auto.
Qed.
End well.

(** ** Histories *)
Lemma PW_steady K (x y : ws R) : PW K (fst x) -> PW K (fst y) -> (forall id, dget id (b_terms (fst y)) <> None -> b_bdict (fst y) = b_bdict (fst x)) -> steady x y.
Proof.
  intros Hx Hy B id D. split; [intros; now rewrite (B id D)|]. specialize (Hx id). specialize (Hy id). unfold well_stays.
  destruct (dget id (b_wells (fst x))), (dget id (b_wells (fst y))); try tauto. left. apply Hy.
Qed.
Lemma terms_kept {F} {NF : Num F} {NT : NumT F} c (x : ws F) : (forall slv sc fuel sp o, c <> Solve slv sc fuel sp o) -> (forall slv sc n fuel sp thr vect mb pr iso, c <> Run slv sc n fuel sp thr vect mb pr iso) ->
  b_terms (fst (fst (exec c x))) = b_terms (fst x).
Proof.
  intros N1 N2. destruct (w_setters c (b_terms (fst x)) N1 N2 x I) as (E & _). rewrite ph_same in E. rewrite E at 1. cbn [fst]. apply ph_terms.
Qed.
Lemma pressure_steady K c x : PW K (fst x) -> pressure_call x c -> steady_call x c /\ exists K', PW K' (fst (fst (exec c x))).
Proof.
  intros Hx Hc. assert (Ip : forall v m, PW K m -> PW K (set_ip v m)) by (intros v m; apply PW_wells; now destruct m). assert (Ir : forall v m, PW K m -> PW K (set_ir v m)) by (intros v m; apply PW_wells; now destruct m).
  assert (Id : forall v m, PW K m -> PW K (set_bdict v m)) by (intros v m; apply PW_wells; now destruct m). assert (Iu : forall v m, PW K m -> PW K (set_bup v m)) by (intros v m; apply PW_wells; now destruct m).
  destruct c as [cell q pwf r s|w cell|idb cond v|bd|cond v| |slv sc fuel sp o|slv sc n fuel sp thr vect mb pr iso]; cbn [pressure_call] in Hc; try contradiction.
  - destruct cell as [id|]; [|contradiction]. destruct q; [contradiction|]. destruct pwf as [p|]; [|contradiction]. destruct Hc as (Ok1 & Hk). cbn [exec] in Ok1. pose proof (well_set id K p r s x Hx Ok1) as Hy.
    split; [|eexists; exact Hy]. cbn [steady_call]. pose proof (terms_kept (Set_well (Some id) None (Some p) r s) x ltac:(discriminate) ltac:(discriminate)) as Et.
    destruct Hk as [Nk|Hw]; [intros j D; rewrite Et, Nk in D; congruence|].
    apply PW_steady with K; auto.
    + intros j. specialize (Hy j). cbn [exec]. destruct (dget j (b_wells (fst (fst (set_well (Some id) None (Some p) r s x))))); [|tauto]. destruct Hy as (H1 & [H2|H2]); split; auto. subst j.
      specialize (Hx id). destruct (dget id (b_wells (fst x))); [apply Hx|congruence].
    + intros j D. apply exec_bdict. exact I.
  - assert (Hy : PW K (fst (fst (exec (Set_boundary idb cond v) x)))) by (cbn [exec]; now apply (c_boundary (PW K))). split; [|eauto]. cbn [steady_call]. apply PW_steady with K; auto. intros. apply exec_bdict. exact I.
  - assert (Hy : PW K (fst (fst (exec (Set_boundaries bd) x)))) by (cbn [exec]; now apply (c_boundaries (PW K))). split; [|eauto]. cbn [steady_call].
    pose proof (terms_kept (Set_boundaries bd) x ltac:(discriminate) ltac:(discriminate)) as Et. intros j D. rewrite Et, Hc in D. congruence.
  - assert (Hy : PW K (fst (fst (exec (Set_all_boundaries cond v) x)))) by (cbn [exec]; now apply (c_all (PW K))). split; [|eauto]. cbn [steady_call]. apply PW_steady with K; auto. intros. apply exec_bdict. exact I.
  - split; [|eauto]. cbn [steady_call]. apply PW_steady with K; auto.
  - assert (Hy : forall j, PW K (fst (fst (exec (Solve slv sc j sp o) x)))).
    { intros j. cbn [exec]. unfold of_solution. destruct x as [m [s|]]; cbn [fst snd] in *; [|exact Hx]. pose proof (p_solve K slv sc j sp o (m, s) Hx) as H. destruct (solve slv sc j sp o (m, s)). exact H. }
    split; [|eauto]. cbn [steady_call]. intros j _. apply PW_steady with K; auto. intros id D.
    destruct (exec_bdict (Solve slv sc (S j) sp o) x I) as (-> & _). destruct (exec_bdict (Solve slv sc j sp o) x I) as (-> & _). reflexivity.
Qed.
Lemma pressure_along l : forall x K, PW K (fst x) -> along pressure_call x l -> along steady_call x l.
Proof.
  induction l as [|c l IH]; intros x K Hx H; cbn [along] in *; auto. destruct H as (H1 & H2). destruct (pressure_steady K c x Hx H1) as (S & K' & H'). split; auto. eapply IH; eauto.
Qed.
