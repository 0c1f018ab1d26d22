(** The matrix of the vectorised assembly keeps its form in every history. *)
From Coq Require Import String ZArith Bool Arith List Lia Reals Lra.
From Verif Require Import Prelude PreludeFacts Num GridModel GridSpec GridThm GeoModel GeoSpec GeoProofs
  PropModel PropSpec BlackOilModel FdmModel MonadFacts HistSpec InvFacts SumFacts ModelSpec ModelFacts VectFacts.
Import ListNotations.
Close Scope R_scope.
Open Scope nat_scope.

(** ** Values of linear expressions *)
Lemma Reqb_spec a b : reflect (a = b) (Reqb a b).
Proof. unfold Reqb. destruct (Req_EM_T a b); constructor; auto. Qed.
Lemma lvalues_one (c k : R) id : lvalues (mkLin (Some c) [(id, k)]) =
  ((if Reqb c 0 then [] else [Some c]) ++ (if Reqb k 0 then [] else [Some k]))%list.
Proof.
  unfold lvalues, lsyms, lcoef. cbn [l0 lc map fst nodup in_dec list_rec list_rect filter]. rewrite Z.eqb_refl.
  cbn [map snd filter neqb Num_R n0]. replace (nsum [k]) with k by (unfold nsum; cbn; lra). destruct (Reqb k 0); reflexivity.
Qed.
Lemma lvalues_const (v : fl R) : lvalues (lconst v) = match v with None => [None] | Some c => if Reqb c 0 then [] else [Some c] end.
Proof. unfold lvalues, lconst. cbn. destruct v; [|reflexivity]. destruct (Reqb r 0); reflexivity. Qed.

Section asm.
Context {m0 : bo R} {x y z : nat} {u : bool} {dx dy dz : dinput R} (K : model m0 x y z u dx dy dz).
Notation N := (length (b_ids m0)).

Definition okA (tied : bool) (A : @mat R) : Prop := exists e, form (m := m0) A e /\ (forall p, p < N -> (0 <= e p)%R) /\
  (tied = true -> exists p, p < N /\ (0 < e p)%R).
(** [va]: only vectorised systems were stored *)
Variable va : bool.
Definition LI (tied : bool) (X : st R) : Prop :=
  core (fst X) = core m0 /\ Forall (boundary_id m0) (b_bup (fst X)) /\ productive (fst X) /\
  (va = true -> Forall (okA false) (s_As (snd X))) /\ forall A, s_A (snd X) = Some A -> okA tied A.
Lemma okA_weak t A : okA t A -> okA false A.
Proof. intros (e & H1 & H2 & _). exists e. repeat split; auto. apply H1. apply H1. discriminate. Qed.
Lemma LI_weak t X : LI t X -> LI false X.
Proof. intros (H1 & H2 & H3 & H5 & H4). split; auto. split; auto. split; auto. split; auto. intros A E. eapply okA_weak, H4, E. Qed.
Lemma okA_init A : init_A m0 = Ok A -> okA false A.
Proof. intros E. destruct (form_init K) as (A' & E' & H). rewrite E in E'. inversion E'; subst. exists (fun _ => 0%R). split; auto. split; [intros; lra|discriminate]. Qed.
Lemma okA_addto t t' A i v : okA t A -> i < N -> (v <= 0)%R -> (t' = true -> t = true \/ (v < 0)%R) -> okA t' (mat_addto A i v).
Proof.
  intros (e & H1 & H2 & H3) Hi Hv Ht. exists (fun p => if i =? p then (e p - v)%R else e p). split; [now apply form_addto|]. split.
  - intros p Hp. specialize (H2 p Hp). destruct (i =? p); lra.
  - intros E. destruct (Ht E) as [Et|Et].
    + destruct (H3 Et) as (p & Hp & Ep). exists p. split; auto. destruct (i =? p); lra.
    + exists i. split; auto. rewrite Nat.eqb_refl. specialize (H2 i Hi). lra.
Qed.

Ltac fin := repeat match goal with
  | H : Ok _ = Ok _ |- _ => inversion H; clear H; subst
  | H : Err _ = Ok _ |- _ => discriminate
  | H : rbind ?e _ = Ok _ |- _ => destruct e eqn:?; cbn [rbind] in H
  | H : match ?e with _ => _ end = Ok _ |- _ => destruct e eqn:?
  end; cbn [fst snd] in *.
(** Assignments that touch neither the matrix nor what [LI] speaks about. *)
Ltac same := apply i_set; intros [[] []] [? ?] ? ?; cbn [fst snd] in *; fin; assumption.

Lemma prod_upd m id f w : productive m -> dget id (b_wells m) = Some w -> w_G (f w) = w_G w ->
  productive (set_wells (dset id (f w) (b_wells m)) m).
Proof.
  intros P Ew Ef i w' G. rewrite wells_set_wells, dget_dset_z. destruct (Z.eqb_spec i id) as [->|Ne]; [|apply P].
  intros E. inversion E; subst. rewrite Ef. intros EG. eapply P; eauto.
Qed.
Section tied.
Variable t : bool.
Lemma li_put_r id v : inv (LI t) (put_r id v). Proof. unfold put_r. same. Qed.
Lemma li_cell_eq sc id : inv (LI t) (get_cell_eq sc id). Proof. unfold get_cell_eq. isplit. same. Qed.
Lemma li_loop sc l : inv (LI t) (cells_eq_loop sc l).
Proof. induction l as [|i l IH]; cbn [cells_eq_loop]; isplit; auto using li_cell_eq. Qed.
Lemma li_symb sc thr : inv (LI t) (get_matrices_symb sc thr).
Proof.
  unfold get_matrices_symb, get_cells_eq. isplit; auto using li_loop.
  - apply i_set. intros [[] []] [? ?] ? E. cbn [fst snd] in *. destruct (_ || _); inversion E; subst; assumption.
  - same.
Qed.
Lemma li_ub : inv (LI t) update_boundaries.
Proof. unfold update_boundaries, update_boundary. isplit; auto using li_put_r. Qed.
Lemma li_uw id f : (forall w, w_G (f w) = w_G w) -> inv (LI t) (upd_wells id f).
Proof.
  intros Hf. unfold upd_wells. apply i_set. intros [m s] [m' s'] (H1 & H2 & H3 & H5 & H4) E. cbn [fst snd] in *.
  unfold dgetE in E. destruct (dget id (b_wells m)) as [w|] eqn:Ew; cbn [rbind] in E; [|discriminate]. inversion E; subst. clear E.
  split; [cbn [fst]; now rewrite core_wells|]. split; [now destruct m|]. split; [cbn [fst]; now apply prod_upd|split; [exact H5|exact H4]].
Qed.
Lemma li_update_well id : inv (LI t) (update_well id).
Proof. unfold update_well. isplit; auto using li_put_r; apply li_uw; now intros []. Qed.
Lemma li_uloop l : forall acc, inv (LI t) (update_wells_loop l acc).
Proof. induction l as [|i l IH]; intros acc; cbn [update_wells_loop]; isplit; auto using li_update_well. Qed.
Lemma li_update_wells : inv (LI t) update_wells.
Proof. unfold update_wells. isplit; auto using li_uloop. destruct a0; isplit. same. Qed.
Lemma li_MB : inv (LI t) check_MB.
Proof.
  unfold check_MB. apply i_set. intros [m []] [? ?] ? E. cbn [fst snd] in *. destruct (b_cmp m); fin; assumption.
Qed.
Lemma li_rows A d p : (va = true -> okA false A) -> inv (LI t) (new_rows A d p).
Proof.
  intros HA. unfold new_rows. isplit; try same. apply i_set. intros [[] []] [? ?] (H1 & H2 & H3 & H5 & H4) E. inversion E; subst. clear E.
  split; [exact H1|]. split; [exact H2|]. split; [exact H3|]. split; [|exact H4]. intros V. apply Forall_app. split; [apply H5, V|constructor; auto].
Qed.
Lemma li_nsteps n : inv (LI t) (mset (fun X : st R => Ok (fst X, set_nsteps (s_nsteps (snd X) + n) (snd X)))). Proof. same. Qed.
Lemma li_drop : inv (LI t) (mset (fun X : st R => Ok (fst X, drop_rows (snd X)))). Proof. same. Qed.

Lemma li_addto id v t' : (v <= 0)%R -> (t' = true -> t = true \/ (v < 0)%R) ->
  hoare (LI t) (addto_A id (Some v)) (fun _ X => LI t' X /\ s_A (snd X) <> None) (LI t).
Proof.
  intros Hv Ht. unfold addto_A. apply h_set; [|auto]. intros [m s] [m' s'] (H1 & H2 & H3 & H5 & H4) E. cbn [fst snd] in *.
  rewrite (core_cell_i _ _ id H1) in E. destruct (cell_i m0 id) as [i|] eqn:Ei; cbn [rbind] in E; [|discriminate].
  destruct (s_A s) as [A|] eqn:EA; cbn [attrE rbind] in E; [|discriminate]. inversion E; subst. clear E.
  split; [|destruct s; discriminate].
  split; auto. split; auto. split; auto. cbn [snd]. split; [destruct s; exact H5|]. destruct s. cbn. intros A' E. inversion E; subst.
  eapply okA_addto; eauto.
  unfold cell_i, dgetE in Ei. destruct (dget id _) eqn:Ed; [|discriminate]. inversion Ei; subst.
  apply dget_In, in_combine_r, in_seq in Ed. lia.
Qed.
(** One well; [Some v1] is added to the diagonal. *)
Lemma w_vals m id w v : core m = core m0 -> productive m -> dget id (b_wells m) = Some w -> con_is w "q" = Ok false ->
  (let* t := w_term m id w in match lvalues t with [v0] => Ok (v0, Some n0) | [v0; v1] => Ok (v0, v1) | _ => Err ValueError end) = Ok v ->
  exists G pwf J, w_G w = Some G /\ w_pwf w = Some (Some pwf) /\ J = (- G / (b_B m0 * b_mu m0))%R /\ (J < 0)%R /\
    ((pwf = 0%R /\ v = (Some J, Some 0%R)) \/ (pwf <> 0%R /\ v = (Some (J * - pwf)%R, Some J))) \/
  w_pwf w = Some None /\ v = (None, Some 0%R).
Proof.
  intros Hc P Ew Cq E. unfold w_term, w_mode in E. rewrite Cq in E.
  assert (E0 : (if has (w_q w) then Ok false else Ok false) = Ok false) by (destruct (has (w_q w)); reflexivity). rewrite E0 in E. clear E0. cbn [rbind] in E.
  destruct (w_G w) as [G|] eqn:EG; cbn [keyE rbind] in E; [|discriminate].
  destruct (w_pwf w) as [pwf|] eqn:Ep; cbn [keyE rbind] in E; [|discriminate].
  apply core_fields in Hc as (_ & _ & Emu & EB & _). rewrite Emu, EB in E.
  pose proof (P _ _ _ Ew EG) as HG. pose proof (md_mu _ _ _ _ _ _ _ _ K) as Pm. pose proof (md_B _ _ _ _ _ _ _ _ K) as PB.
  cbn [ndiv nopp nmul Num_R n0] in E.
  set (J := (- G / (b_B m0 * b_mu m0))%R) in *.
  assert (HJ : (J <= 0)%R).
  { unfold J. assert (0 <= G / (b_B m0 * b_mu m0))%R by (apply Rmult_le_pos; [auto|]; apply Rlt_le, Rinv_0_lt_compat, Rmult_lt_0_compat; auto).
    unfold Rdiv in *. lra. }
  destruct pwf as [pwf|]; cbn [option_map fmul lift2] in E; cbn [nmul Num_R] in E.
  - exists G, pwf, J. left. rewrite lvalues_one in E. cbn [nopp Num_R] in E.
    destruct (Reqb_spec (J * - pwf) 0) as [E1|E1], (Reqb_spec J 0) as [E2|E2]; cbn [app] in E; try discriminate.
    + inversion E; subst v. do 3 (split; auto). split; [lra|]. left. split; auto.
      apply Rmult_integral in E1 as [E1|E1]; lra.
    + exfalso. apply E1. rewrite E2. lra.
    + inversion E; subst v. do 3 (split; auto). split; [lra|]. right. split; auto. intros ->. apply E1. lra.
  - do 3 exists 0%R. right. unfold lvalues in E. cbn [l0] in E. inversion E; subst. auto.
Qed.
Lemma li_vwell id du : hoare (LI t) (vect_well id du) (fun _ => LI t) (LI t).
Proof.
  unfold vect_well. apply h_bind with (Q := fun w X => LI t X /\ dget id (b_wells (fst X)) = Some w).
  { apply h_read; auto. intros X w H E. split; auto. unfold dgetE in E. destruct (dget id _); [congruence|discriminate]. }
  intros w. apply h_bind with (Q := fun cq X => (LI t X /\ dget id (b_wells (fst X)) = Some w) /\ con_is w "q" = Ok cq).
  { apply h_read; [auto|tauto]. }
  intros cq. apply h_if; intros Eq; subst cq.
  { apply h_read; tauto. }
  apply h_bind with (Q := fun _ X => (LI t X /\ dget id (b_wells (fst X)) = Some w) /\ con_is w "q" = Ok false); [apply h_read; tauto|].
  intros cp. apply h_if; intros Ep; [|apply h_ret; tauto].
  apply h_bind with (Q := fun v X => LI t X /\ exists v1, snd v = Some v1 /\ (v1 <= 0)%R).
  { apply h_read; [|tauto]. intros X v ((H & Ew) & Cq) E. split; auto. destruct H as (Hc & _ & Pr & _).
    destruct (w_vals _ _ _ _ Hc Pr Ew Cq E) as (G & pwf & J & [(_ & _ & _ & HJ & [(_ & ->)|(_ & ->)])|(_ & ->)]); cbn [snd]; eexists; split; try reflexivity; lra. }
  intros v. apply h_bind with (Q := fun _ X => LI t X /\ exists v1, snd v = Some v1 /\ (v1 <= 0)%R); [apply h_read; tauto|].
  intros d. apply h_bind with (Q := fun _ X => LI t X /\ exists v1, snd v = Some v1 /\ (v1 <= 0)%R); [apply h_read; tauto|].
  intros done. apply h_bind with (Q := fun _ => LI t); [|intros; apply h_ret; auto].
  apply h_when; [|tauto]. intros _. apply h_bind with (Q := fun _ => LI t).
  - intros X (H & v1 & -> & Hv). pose proof (li_addto id v1 t Hv (fun e => or_introl e) X H) as Q.
    destruct (addto_A id (Some v1) X) as [X' [[]|]]; tauto.
  - intros _. apply inv_hoare. same.
Qed.
Lemma li_vwells l : forall du, hoare (LI t) (vect_wells l du) (fun _ => LI t) (LI t).
Proof.
  induction l as [|i l IH]; intros du; cbn [vect_wells]; [apply h_ret; auto|].
  apply h_bind with (Q := fun _ => LI t); [apply li_vwell|auto].
Qed.
End tied.

(** A pressure boundary adds a positive transmissibility. *)
Lemma li_init_b idb t : hoare (fun X => LI t X /\ boundary_id m0 idb) (init_b idb) (fun _ X => LI true X /\ s_A (snd X) <> None) (LI t).
Proof.
  unfold init_b. set (P := fun X => LI t X /\ boundary_id m0 idb).
  apply h_bind with (Q := fun T X => P X /\ (0 < snd T)%R).
  { apply h_read; [|unfold P; tauto]. intros X [id T] HP E. split; auto. destruct HP as ((Hc & _) & B). cbn [snd].
    rewrite (core_trans _ _ _ _ Hc) in E. now apply (edge_ok K idb id T). }
  intros [id T]. cbn [fst snd].
  apply h_bind with (Q := fun b X => (P X /\ (0 < T)%R) /\ (lc b = [] \/ exists c, b = mkLin (Some c) [(id, (- (T * 2))%R)])).
  { apply h_read; [|unfold P; tauto]. intros X b HP E. split; auto. unfold b_term in E.
    destruct (dget idb _) as [[cond v]|]; [|inversion E; auto].
    destruct (smem _ _); [|inversion E; auto]. destruct (FdmModel.dz _ _ _); cbn [rbind] in E; [|discriminate].
    inversion E. right. eexists. unfold n2. cbn [nopp nmul nadd n1 Num_R]. reflexivity. }
  intros b. apply h_bind with (Q := fun v X => (P X /\ (0 < T)%R) /\ snd v = Some (- (T * 2))%R).
  { apply h_read; [|unfold P; tauto]. intros X v (HP & Hb) E. split; auto. destruct HP as (_ & HT). destruct Hb as [Hb|(c & ->)].
    - rewrite Hb in E. discriminate.
    - rewrite lvalues_one in E. cbn [lc] in E. destruct (Reqb_spec c 0), (Reqb_spec (- (T * 2)) 0); cbn [app] in E; try discriminate; try lra.
      inversion E; subst. reflexivity. }
  intros v. apply h_bind with (Q := fun _ X => (P X /\ (0 < T)%R) /\ snd v = Some (- (T * 2))%R).
  { unfold P. apply h_set; [|tauto]. intros [[] []] [? ?] ? E. inversion E; subst. assumption. }
  intros _. intros X ((HP & HT) & Ev). destruct v as [v0 v1]; cbn [snd] in *; subst v1. destruct HP as (HX & _).
  apply (li_addto t id (- (T * 2))%R true); auto; [lra|]. intros _. right. lra.
Qed.
(** Assembly from scratch. *)
Lemma li_init : hoare (LI false) init_vect (fun _ X => LI (match b_bup (fst X) with [] => false | _ => true end) X /\ s_A (snd X) <> None) (LI false).
Proof.
  unfold init_vect. apply h_bind with (Q := fun _ => LI false); [apply inv_hoare; same|]. intros _.
  apply h_bind with (Q := fun _ X => LI false X /\ s_A (snd X) <> None).
  { apply h_set; [|auto]. intros [m s] [m' s'] (H1 & H2 & H3 & H5 & H4) E. cbn [fst snd] in *. rewrite (core_init_A _ _ H1) in E.
    destruct (init_A m0) as [A|] eqn:EA; cbn [rbind] in E; [|discriminate]. inversion E; subst. clear E.
    split; [|destruct s; discriminate].
    split; auto. split; auto. split; auto. split; [destruct s; exact H5|]. destruct s; cbn. intros A' E. inversion E; subst. now apply okA_init. }
  intros _. apply h_bind with (Q := fun _ X => LI false X /\ s_A (snd X) <> None).
  { apply h_set; [|tauto]. intros [[] []] [? ?] ? E. inversion E; subst. assumption. }
  intros _. apply h_bind with (Q := fun l X => (LI false X /\ s_A (snd X) <> None) /\ b_bup (fst X) = l).
  { apply h_read; [|tauto]. intros X l H E. inversion E; auto. }
  intros l. intros X ((H & HA) & Eb). assert (B : Forall (boundary_id m0) l) by (rewrite <- Eb; apply H).
  assert (Kb : forall l' (Y : st R), b_bup (fst (fst (miter init_b l' Y))) = b_bup (fst Y)).
  { assert (I2 : forall b l', inv (fun Y : st R => b_bup (fst Y) = b) (miter init_b l')).
    { intros b l'. unfold init_b, addto_A. isplit; apply i_set; intros [? ?] [? ?] ? E; cbn [fst snd] in *; fin; congruence. }
    intros l' Y. now apply (I2 (b_bup (fst Y))). }
  specialize (Kb l X). destruct (miter init_b l X) as [X' r] eqn:Em. cbn [fst] in Kb.
  assert (G : forall l, Forall (boundary_id m0) l -> forall t, (hoare (fun X => LI t X /\ s_A (snd X) <> None) (miter init_b l)
      (fun _ X => LI (match l with [] => t | _ => true end) X /\ s_A (snd X) <> None) (LI false))).
  { clear -K. induction l as [|i l IH]; intros B t; cbn [miter]; [apply h_ret; auto|]. inversion B; subst.
    apply h_bind with (Q := fun _ X => LI true X /\ s_A (snd X) <> None).
    - intros X (H & _). pose proof (li_init_b i t X (conj H H1)) as Q. destruct (init_b i X) as [X' [[]|]]; auto. eapply LI_weak; eauto.
    - intros _. pose proof (IH H2 true) as Q. destruct l; exact Q. }
  specialize (G l B false X (conj H HA)). rewrite Em in G. rewrite Kb, Eb. destruct r; exact G.
Qed.
Lemma li_vect : hoare (LI false) get_matrices_vect (fun Ad X => LI false X /\ s_A (snd X) = Some (fst Ad)) (LI false).
Proof.
  unfold get_matrices_vect. apply h_bind with (Q := fun _ => LI false); [apply h_read; auto|].
  intros ini. apply h_bind with (Q := fun _ => LI false).
  { apply h_when; [|auto]. intros _ X H. pose proof (li_init X H) as Q. destruct (init_vect X) as [X' [[]|]]; auto. eapply LI_weak, Q. }
  intros _. apply h_bind with (Q := fun _ => LI false); [apply h_read; auto|].
  intros d. apply h_bind with (Q := fun _ => LI false); [apply h_read; auto|].
  intros wids. apply h_bind with (Q := fun _ => LI false); [apply li_vwells|].
  intros du. apply h_bind with (Q := fun _ => LI false); [apply h_read; auto|].
  intros d'. apply h_bind with (Q := fun _ => LI false); [apply h_read; auto|].
  intros d''. apply h_bind with (Q := fun A X => LI false X /\ s_A (snd X) = Some A); [apply h_read; auto|].
  { intros X A H E. split; auto. destruct (s_A (snd X)); [cbn in E; congruence|discriminate]. }
  intros A. apply h_ret; auto.
Qed.
Lemma li_system sc o : (va = true -> o_vect o = true /\ o_print o = false) ->
  hoare (LI false) (get_system sc o) (fun Ad X => LI false X /\ (va = true -> okA false (fst Ad))) (LI false).
Proof.
  intros Ho. unfold get_system. destruct (o_print o).
  - assert (va = false) by (destruct va; [destruct Ho; congruence|reflexivity]).
    apply h_bind with (Q := fun _ => LI false); [apply inv_hoare, li_symb|]. intros Ad.
    apply h_bind with (Q := fun _ => LI false); [|intros _; apply h_ret; split; congruence].
    apply h_weak with (P := LI false) (Q := fun Ad X => LI false X /\ s_A (snd X) = Some (fst Ad)) (E := LI false); auto; [apply li_vect|tauto].
  - destruct (o_vect o).
    + apply h_weak with (P := LI false) (Q := fun Ad X => LI false X /\ s_A (snd X) = Some (fst Ad)) (E := LI false); auto; [apply li_vect|].
      intros Ad X (H & E). split; auto. intros _. now apply H.
    + assert (va = false) by (destruct va; [destruct Ho; congruence|reflexivity]).
      apply h_weak with (P := LI false) (Q := fun _ => LI false) (E := LI false); auto; [apply inv_hoare, li_symb|]. split; congruence.
Qed.
Section solver.
Context (slv : solver_kind -> @mat R -> list (fl R) -> res (list (fl R))) (sc : Z -> R).
Lemma li_solve fuel sparse : forall o, (va = true -> o_vect o = true /\ o_print o = false) -> inv (LI false) (solve slv sc fuel sparse o).
Proof.
  induction fuel as [|fuel IH]; intros o Ho; cbn [solve]; [apply i_read|]. apply hoare_inv.
  apply h_bind with (Q := fun Ad X => LI false X /\ (va = true -> okA false (fst Ad))); [now apply li_system|]. intros Ad.
  apply h_bind with (Q := fun _ X => LI false X /\ (va = true -> okA false (fst Ad))); [apply h_read; tauto|]. intros p.
  intros X (H & HA). apply inv_hoare; [|exact H]. isplit; auto using li_rows, li_ub, li_update_wells, li_MB, li_drop.
  apply IH. cbn. intros V. specialize (Ho V). tauto.
Qed.
Lemma li_run n fuel sparse thr vect mb pr iso : (va = true -> vect = true /\ pr = false) -> inv (LI false) (run slv sc n fuel sparse thr vect mb pr iso).
Proof.
  intros Ho. unfold run. isplit; [apply li_nsteps|].
  assert (H : forall k o, (va = true -> o_vect o = true /\ o_print o = false) -> inv (LI false) (run_loop slv sc k fuel sparse o)); [|apply H; exact Ho].
  induction k as [|k IH]; intros o Hv; cbn [run_loop]; isplit; auto using li_solve.
Qed.
End solver.

(** ** Histories *)
Definition LW (X : ws R) : Prop :=
  core (fst X) = core m0 /\ Forall (boundary_id m0) (b_bup (fst X)) /\
  match snd X with None => True | Some s => (va = true -> Forall (okA false) (s_As s)) /\ forall A, s_A s = Some A -> okA false A end.
Ltac wsame := apply i_set; intros [[] [[]|]] [? ?] ? ?; cbn [fst snd] in *; fin; assumption.
Lemma lw_upd_well id f : inv LW (upd_well id f). Proof. unfold upd_well. wsame. Qed.
Lemma lw_log id : inv LW (log_pressure id). Proof. unfold log_pressure. wsame. Qed.
Lemma lw_tail id : inv LW (set_well_tail id). Proof. unfold set_well_tail. isplit; auto using lw_upd_well, lw_log. Qed.
Lemma lw_set_well cell q pwf r s : inv LW (set_well cell q pwf r s).
Proof.
  unfold set_well. destruct cell as [id|]; [|apply i_read]. unfold assert_inside. isplit; auto using lw_upd_well, lw_log, lw_tail.
  apply i_set. intros [m o] [m' o'] H E. cbn [fst] in *. destruct (din id (b_wells m)); inversion E; subst; auto. destruct m, o'; exact H.
Qed.
Lemma lw_set_well_obj w cell : inv LW (set_well_obj w cell).
Proof. unfold set_well_obj, assert_inside. isplit; auto using lw_tail. wsame. Qed.
Lemma lw_put_p id v : inv LW (put_pressure id v). Proof. unfold put_pressure. wsame. Qed.
Lemma lw_put_q id v : inv LW (put_rate id v). Proof. unfold put_rate. wsame. Qed.
Lemma lw_boundary id c v : inv LW (set_boundary id c v). Proof. unfold set_boundary. isplit; auto using lw_put_p, lw_put_q. Qed.
Lemma lw_all c v : inv LW (set_all_boundaries c v). Proof. unfold set_all_boundaries. isplit. apply lw_boundary. Qed.
(** Only boundary cells pass the assertion of set_boundaries. *)
Lemma put_keeps_bdict id v bd : inv (fun X : ws R => b_bdict (fst X) = bd) (put_pressure id v) /\ inv (fun X : ws R => b_bdict (fst X) = bd) (put_rate id v).
Proof. split; unfold put_pressure, put_rate; apply i_set; intros [[] [[]|]] [? ?] ? ?; cbn [fst snd] in *; fin; reflexivity || assumption. Qed.
Lemma bnd_keeps_bdict id c v bd : inv (fun X : ws R => b_bdict (fst X) = bd) (set_boundary id c v).
Proof. unfold set_boundary. isplit; apply put_keeps_bdict. Qed.
Lemma lw_boundaries bd : inv LW (set_boundaries bd).
Proof.
  apply hoare_inv. unfold set_boundaries.
  apply h_bind with (Q := fun _ X => LW X /\ b_bdict (fst X) = bd).
  { apply h_set; auto. intros [[] []] [? ?] H E; inversion E; subst; split; (exact H || reflexivity). }
  intros _. apply h_bind with (Q := fun bs X => (LW X /\ b_bdict (fst X) = bd) /\ get_boundaries_id (gr (geom (b_grid m0))) = Ok bs).
  { apply h_read; [|tauto]. intros X bs (H & Eb) E. split; auto. destruct H as (Hc & _). apply core_fields in Hc as (Hg & _).
    unfold bgrid, ggrid in E. now rewrite Hg in E. }
  intros bs. apply h_bind with (Q := fun _ X => (LW X /\ b_bdict (fst X) = bd) /\ Forall (fun e => boundary_id m0 (fst e)) bd).
  - intros X ((H & Eb) & Ebs).
    assert (Bs : forall id, zmem id bs = true -> boundary_id m0 id).
    { intros id I. destruct (L_C03_interior_boundary_partition _ (md_wf K) (md_flow _ _ _ _ _ _ _ _ K)) as (inner & bound & _ & E2 & _ & _ & _ & H2 & _).
      rewrite Ebs in E2. inversion E2; subst. apply H2. apply zmem_In. exact I. }
    clear Ebs.
    assert (Q : forall l, (forall bd', hoare (fun X => LW X /\ b_bdict (fst X) = bd') (miter (fun e : Z * (string * R) => match e with (id, (cond, v)) =>
      mbind (mread (fun _ => passert (zmem id bs))) (fun _ => set_boundary id cond v) end) l)
      (fun _ X => (LW X /\ b_bdict (fst X) = bd') /\ Forall (fun e => boundary_id m0 (fst e)) l) LW)).
    { induction l as [|[id [c v]] l IH]; intros bd'; cbn [miter]; [apply h_ret; auto|].
      apply h_bind with (Q := fun _ X => (LW X /\ b_bdict (fst X) = bd') /\ boundary_id m0 id).
      - apply h_bind with (Q := fun _ X => (LW X /\ b_bdict (fst X) = bd') /\ boundary_id m0 id).
        + apply h_read; [|tauto]. intros Y [] HY E. split; auto. apply Bs. unfold passert in E. destruct (zmem id bs); [reflexivity|discriminate].
        + intros _ Y ((HY & EY) & B). pose proof (lw_boundary id c v Y HY) as Q1. pose proof (bnd_keeps_bdict id c v bd' Y EY) as Q2.
          destruct (set_boundary id c v Y) as [Y' [[]|]]; cbn [fst] in *; auto.
      - intros _ Y (HY & B). specialize (IH bd' Y HY). destruct (miter _ l Y) as [Y' [[]|]]; auto. split; [apply IH|]. constructor; [exact B|apply IH]. }
    apply (Q bd bd X (conj H Eb)).
  - intros _. apply h_set; [|tauto]. intros [m o] [m' o'] ((H & Eb) & B) E. inversion E; subst. clear E. cbn [fst snd] in *.
    destruct H as (H1 & H2 & H3). split; [cbn [fst]; now rewrite core_bup|]. split; [|exact H3].
    assert (Eu : b_bup (set_bup (map fst (filter (fun e => String.eqb (fst (snd e)) "pressure") (b_bdict m))) m) =
      map fst (filter (fun e => String.eqb (fst (snd e)) "pressure") (b_bdict m))) by now destruct m.
    cbn [fst]. rewrite Eu. rewrite Forall_forall in *. intros id I. apply in_map_iff in I as (e & <- & I). apply filter_In in I as (I & _). now apply B.
Qed.
Lemma lw_exec c X : LW X -> productive (fst X) -> (va = true -> vectorised c) -> LW (fst (exec c X)).
Proof.
  intros H P V. destruct c; cbn [exec]; [now apply lw_set_well|now apply lw_set_well_obj|now apply lw_boundary|now apply lw_boundaries|now apply lw_all| | |].
  - destruct X as [m o]. destruct H as (H1 & H2 & _). split; [exact H1|]. split; [exact H2|]. cbn. split; [constructor|discriminate].
  - destruct X as [m [s|]]; [|exact H]. unfold of_solution. cbn [fst snd] in *. destruct H as (H1 & H2 & H5 & H4).
    assert (L : LI false (m, s)) by (repeat (split; [assumption|]); assumption).
    pose proof (li_solve slv sc fuel sparse o V _ L) as (Q1 & Q2 & _ & Q5 & Q4). destruct (solve slv sc fuel sparse o (m, s)) as [Y r].
    split; [exact Q1|]. split; [exact Q2|]. split; assumption.
  - destruct X as [m [s|]]; [|exact H]. unfold of_solution. cbn [fst snd] in *. destruct H as (H1 & H2 & H5 & H4).
    assert (L : LI false (m, s)) by (repeat (split; [assumption|]); assumption).
    pose proof (li_run slv sc n fuel sparse thr vect mb pr iso V _ L) as (Q1 & Q2 & _ & Q5 & Q4).
    destruct (run slv sc n fuel sparse thr vect mb pr iso (m, s)) as [Y r].
    split; [exact Q1|]. split; [exact Q2|]. split; assumption.
Qed.
Lemma always_last (P : ws R -> Prop) l : forall X, always P X l -> P (after X l).
Proof. induction l as [|c l IH]; intros X; cbn [always after fold_left]; [tauto|]. intros (_ & H). now apply IH. Qed.
Lemma lw_after l : forall X, LW X -> always (fun X => productive (fst X)) X l -> (va = true -> Forall vectorised l) -> LW (after X l).
Proof.
  induction l as [|c l IH]; intros X H A V; [exact H|]. destruct A as (P & A). apply (IH (fst (exec c X))); auto.
  - apply lw_exec; auto. intros E. specialize (V E). now inversion V.
  - intros E. specialize (V E). now inversion V.
Qed.
End asm.
