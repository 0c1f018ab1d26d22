(** Setting wells and boundaries. *)
From Coq Require Import String ZArith Bool Arith List Lia Reals Lra.
From Verif Require Import Prelude PreludeFacts Num GridModel GridSpec GridThm GeoModel GeoSpec GeoProofs
  GridProofs GridNeighbors PropModel PropSpec PropProofs MatrixProofs BlackOilModel FdmModel MonadFacts HistSpec InvFacts SumFacts ModelSpec ModelFacts VectFacts FaceFacts AsmFacts
  PropThm SolverSpec SolveSpec StepSpec StepFacts WellStepFacts SolveFacts BalanceSpec CanonFacts NbrFacts StepBal LocalThm FrameModel FrameSpec FrameFacts TotalSpec TotalFacts TotalStep TotalHist.
Import ListNotations.
Close Scope R_scope.
Open Scope nat_scope.

Section set.
Context {m0 : bo R} {x y z : nat} {u : bool} {dx dy dz : dinput R} (K : model m0 x y z u dx dy dz).
Notation g := (gr (geom (b_grid m0))).
Notation n := (get_n g true).
Definition base (X : ws R) : Prop := core (fst X) = core m0 /\ wide n X /\ match snd X with None => True | Some s => shaped s end.
Lemma good_base0 X : good (m0 := m0) X -> base X.
Proof. intros (H1 & _ & _ & _ & _ & _ & H7 & H8). split; auto. split; auto. destruct (snd X); auto. apply H8. Qed.
Lemma pyget_ok {A} (l : list A) id k : length l = k -> (0 <= id < Z.of_nat k)%Z -> exists v, pyget l id = Ok v.
Proof.
  intros L H. destruct l as [|a l]; [cbn in L; lia|]. exists (nth (Z.to_nat id) (a :: l) a). rewrite <- (Z2Nat.id id) at 1 by lia. apply pyget_nth. lia.
Qed.
Lemma pyset_ok {A} (l : list A) id k v : length l = k -> (0 <= id < Z.of_nat k)%Z -> exists row, pyset l id v = Ok row.
Proof. intros L H. rewrite <- (Z2Nat.id id) by lia. eexists. apply PropProofs.pyset_nat. lia. Qed.
Lemma pressure_ok X id : base X -> (0 <= id < Z.of_nat n)%Z -> exists p, get_pressure X id = Ok p.
Proof.
  intros (_ & (H1 & _ & H3) & H4) I. unfold get_pressure. destruct X as [m [s|]]; cbn [fst snd] in *.
  - destruct (s_tstep s =? 0); [eapply pyget_ok; eauto|]. destruct (H3 s eq_refl) as (_ & _ & Fp & _). apply (at2_ok (s_p s) (s_tstep s) id n); auto. destruct H4. lia.
  - eapply pyget_ok; eauto.
Qed.

Section well.
Context (id : Z) (I : In id (b_ids m0)).
Definition J (Q : well R -> Prop) (X : ws R) : Prop := base X /\ exists w, dget id (b_wells (fst X)) = Some w /\ Q w.
Lemma base_set X w : base X -> base (set_wells w (fst X), snd X).
Proof. intros (H1 & (H2 & H3 & H4) & H5). split; [cbn [fst]; now rewrite core_wells|]. split; [|exact H5]. destruct X as [[] o]. split; auto. Qed.
Lemma J_upd (Q Q' : well R -> Prop) f : (forall X w, base X -> dget id (b_wells (fst X)) = Some w -> Q w -> exists w', f (fst X) w = Ok w' /\ Q' w') -> tot (J Q) (upd_well id f) (fun _ => J Q').
Proof.
  intros H. unfold upd_well. apply t_set. intros X (Hb & w & E & HQ). destruct (H X w Hb E HQ) as (w' & Ew & HQ'). unfold dgetE. rewrite E. cbn [rbind]. rewrite Ew. cbn [rbind].
  eexists. split; [reflexivity|]. split; [now apply base_set|]. exists w'. cbn [fst]. rewrite wells_set_wells, dget_dset_same. auto.
Qed.
Lemma J_log Q : tot (J Q) (log_pressure id) (fun _ => J Q).
Proof.
  unfold log_pressure. apply t_set. intros X (Hb & HQ). destruct (pressure_ok X id Hb) as (p & ->); [now apply (ids_facts K)|]. cbn [rbind]. eexists. split; [reflexivity|].
  destruct X as [m o]. split; [|destruct m; exact HQ]. destruct Hb as (H1 & H2 & H3). split; [cbn [fst]; now rewrite core_wp|]. split; [|exact H3]. destruct m. exact H2.
Qed.
Context (At : attached m0).
Lemma k_ok m a : core m = core m0 -> a <> ADash -> flows g a -> exists l, gk m a = Ok l /\ exists v, pyget l id = Ok v.
Proof.
  intros C Na Fa. destruct (core_fields _ _ C) as (Cg & _). unfold gk. rewrite Cg. destruct (rk_k _ _ _ _ _ _ _ _ (md_rock _ _ _ _ _ _ _ _ K) a Fa) as (l & El & Ll & _).
  unfold get_cells_k in El. destruct (kname a) as [nm|]; [|discriminate]. cbn [rbind] in *. unfold get_prop in El. rewrite At. destruct (cur (pget nm (prs (b_grid m0)))) as [l'|]; [|discriminate]. injection El as ->.
  exists l. split; [reflexivity|]. eapply pyget_ok; eauto. now apply (ids_facts K).
Qed.
Lemma d_ok m a : core m = core m0 -> a <> ADash -> exists v, pyget (gd m a) id = Ok v.
Proof.
  intros C Na. destruct (core_fields _ _ C) as (Cg & _). unfold gd. rewrite Cg. eapply pyget_ok; [apply (cd_length K a Na)|]. now apply (ids_facts K).
Qed.
Definition fine_dirs : Prop := get_fdir g = [AX] \/ get_fdir g = [AX; AY] \/ get_fdir g = [AX; AY; AZ].
Lemma fine_drill : drillable g <-> fine_dirs.
Proof.
  pose proof (md_wf K) as W. pose proof (md_flow _ _ _ _ _ _ _ _ K) as HF. unfold fine_dirs, drillable. rewrite get_fdir_spec by auto. unfold flow_axes, flows, has_flow in *. unfold flows in *. cbn [size] in *.
  destruct (Nat.ltb_spec 1 (nx g)), (Nat.ltb_spec 1 (ny g)), (Nat.ltb_spec 1 (nz g)); cbn [app]; try lia; split; intros Q; try (intuition (try lia; try discriminate; auto); fail); try (destruct Q as [Q|[Q|Q]]; discriminate).
Qed.
Lemma fine_flows : fine_dirs -> flows g AX /\ (get_fdir g <> [AX] -> flows g AY).
Proof.
  intros Fd. pose proof (proj2 fine_drill Fd) as (H1 & H2). split; auto. intros Q. destruct Fd as [Fd|[Fd|Fd]]; [congruence| |].
  all: pose proof (amem_fdir g AY (md_wf K) ltac:(discriminate)) as E; rewrite Fd in E; change (true = (1 <? size g AY)) in E; symmetry in E; apply Nat.ltb_lt in E; exact E.
Qed.
Lemma r_eq_ok m : core m = core m0 -> fine_dirs -> exists r, calc_well_r_eq m id = Ok r.
Proof.
  intros C Fd. destruct (fine_flows Fd) as (Fx & Fy). destruct (core_fields _ _ C) as (Cg & _). unfold calc_well_r_eq. unfold bgrid, ggrid. rewrite Cg.
  destruct (d_ok m AX C ltac:(discriminate)) as (vx & Ex). destruct (d_ok m AY C ltac:(discriminate)) as (vy & Ey).
  destruct (k_ok m AX C ltac:(discriminate) Fx) as (lx & El & kx & Ek).
  destruct Fd as [Fd|[Fd|Fd]]; rewrite Fd; [rewrite Ex; cbn [rbind]; rewrite Ey; cbn [rbind]; eauto| |].
  all: assert (Fy' : flows g AY) by (apply Fy; congruence); destruct (k_ok m AY C ltac:(discriminate) Fy') as (ly & El' & ky & Ek'); rewrite El; cbn [rbind]; rewrite Ek; cbn [rbind]; rewrite El'; cbn [rbind]; rewrite Ek'; cbn [rbind]; rewrite Ex; cbn [rbind]; rewrite Ey; cbn [rbind]; eauto.
Qed.
Lemma G_ok m w : core m = core m0 -> fine_dirs -> dget id (b_wells m) = Some w -> w_req w <> None -> w_r w <> None -> exists G, calc_well_G m id = Ok G.
Proof.
  intros C Fd Ew Hq Hr. destruct (fine_flows Fd) as (Fx & Fy). destruct (core_fields _ _ C) as (Cg & _). unfold calc_well_G. unfold bgrid, ggrid. rewrite Cg.
  destruct (d_ok m AZ C ltac:(discriminate)) as (vz & Ez). destruct (k_ok m AX C ltac:(discriminate) Fx) as (lx & El & kx & Ek).
  destruct (w_req w) as [req|] eqn:Eq; [|congruence]. destruct (w_r w) as [r|] eqn:Er; [|congruence].
  destruct Fd as [Fd|[Fd|Fd]]; rewrite Fd; [rewrite El; cbn [rbind]; rewrite Ek| |].
  2,3: assert (Fy' : flows g AY) by (apply Fy; congruence); destruct (k_ok m AY C ltac:(discriminate) Fy') as (ly & El' & ky & Ek'); rewrite El; cbn [rbind]; rewrite Ek; cbn [rbind]; rewrite El'; cbn [rbind]; rewrite Ek'.
  all: cbn [rbind]; rewrite Ez; cbn [rbind]; unfold dgetE; rewrite Ew; cbn [rbind]; rewrite Eq, Er; cbn [keyE rbind]; eauto.
Qed.
Lemma J_tail : fine_dirs -> tot (J (fun w => w_r w <> None)) (set_well_tail id) (fun _ => base).
Proof.
  intros Fd. unfold set_well_tail. eapply t_bind; [apply J_upd with (Q' := fun w => w_r w <> None /\ w_req w <> None)|].
  { intros X w Hb E HQ. destruct (r_eq_ok (fst X) (proj1 Hb) Fd) as (r & ->). cbn [rbind]. eexists. split; [reflexivity|]. destruct w. split; [exact HQ|discriminate]. }
  intros []. eapply t_bind; [apply J_upd with (Q' := fun w => True)|].
  { intros X w Hb E (HQ & Hr). destruct (G_ok (fst X) w (proj1 Hb) Fd E Hr HQ) as (r & ->). cbn [rbind]. eauto. }
  intros []. apply t_bind with (Q := fun _ => J (fun _ => True)).
  { apply t_read. intros X H. pose proof H as (_ & w & E & _). exists w. unfold dgetE. rewrite E. auto. }
  intros w. eapply t_weak with (P := J (fun _ => True)) (Q := fun _ => J (fun _ => True)); [|auto|intros a X (H & _); exact H].
  apply t_when; [intros _|auto]. eapply t_bind; [apply J_upd with (Q' := fun _ => True); eauto|]. intros []. apply J_log.
Qed.
Lemma set_well_total q pwf r s X : base X -> fine_dirs -> (r <> None \/ exists w, dget id (b_wells (fst X)) = Some w /\ w_r w <> None) -> snd (set_well (Some id) q pwf r s X) = Ok tt.
Proof.
  intros Hb Fd Hr.
  cut (tot (fun X' => X' = X) (set_well (Some id) q pwf r s) (fun _ => base)). { intros H. destruct (H X eq_refl) as (X' & [] & -> & _). reflexivity. }
  unfold set_well. eapply t_bind with (Q := fun _ X' => X' = X).
  { unfold assert_inside. apply t_read. intros X' ->. exists tt. split; auto. destruct (core_fields _ _ (proj1 Hb)) as (_ & -> & _). unfold passert. replace (zmem id (b_ids m0)) with true; auto.
    symmetry. now apply zmem_In. }
  set (HR := fun w : well R => r = None -> w_r w <> None).
  intros []. eapply t_bind with (Q := fun _ => J HR).
  { apply t_set. intros X' ->. eexists. split; [reflexivity|]. unfold din. destruct (dget id (b_wells (fst X))) as [w|] eqn:Ew; cbn [has].
    - split; auto. exists w. split; auto. intros Er. destruct Hr as [Hr|(w' & E & Hw)]; congruence.
    - split; [now apply base_set|]. exists well0. cbn [fst]. rewrite wells_set_wells, dget_dset_same. split; auto. intros Er. destruct Hr as [Hr|(w' & E & Hw)]; congruence. }
  intros []. eapply t_bind with (Q := fun _ => J HR).
  { destruct q; cbn [mopt]; [|now apply t_ret]. apply J_upd. intros X' w _ _ HQ. eexists. split; [reflexivity|]. destruct w. exact HQ. }
  intros []. eapply t_bind with (Q := fun _ => J HR).
  { destruct pwf; cbn [mopt]; [|now apply t_ret]. eapply t_bind; [apply J_upd with (Q' := HR)|intros []; apply J_log]. intros X' w _ _ HQ. eexists. split; [reflexivity|]. destruct w. cbn in *. destruct (has w_q); exact HQ. }
  intros []. eapply t_bind with (Q := fun _ => J HR).
  { apply J_upd. intros X' w _ _ HQ. eexists. split; [reflexivity|]. destruct w. cbn in *. destruct (has w_con); exact HQ. }
  intros []. eapply t_bind with (Q := fun _ => J (fun w => w_r w <> None)).
  { destruct r; cbn [mopt].
    - apply J_upd. intros X' w _ _ HQ. eexists. split; [reflexivity|]. destruct w. cbn in *. discriminate.
    - apply t_ret. intros X' (H1 & w & E & HQ). split; auto. exists w. split; auto. }
  intros []. eapply t_bind with (Q := fun _ => J (fun w => w_r w <> None)).
  { destruct s; cbn [mopt]; [|now apply t_ret]. apply J_upd. intros X' w _ _ HQ. eexists. split; [reflexivity|]. destruct w. exact HQ. }
  intros []. now apply J_tail.
Qed.
End well.

(** Where wells cannot be set. *)
Lemma tail_fails id X : core (fst X) = core m0 -> ~ fine_dirs -> snd (set_well_tail id X) <> Ok tt.
Proof.
  intros C Nf E. destruct (set_well_tail id X) as [X' r] eqn:Em. cbn [snd] in E. subst r. unfold set_well_tail in Em. apply mbind_ok in Em as ([] & X1 & E1 & Em). apply mbind_ok in Em as ([] & X2 & E2 & _).
  assert (C1 : core (fst X1) = core m0). { pose proof (c_upd_well (fun m => core m = core m0)) as H. destruct (core_cl (m0 := m0)) as (C1 & C2 & C3 & C4 & C5 & C6 & C7). specialize (H C3 id (fun m w => let* r := calc_well_r_eq m id in Ok (with_req r w)) X C). rewrite E1 in H. exact H. }
  unfold upd_well in E2. apply mset_ok in E2. destruct (dgetE id (b_wells (fst X1))) as [w|]; [|discriminate]. cbn [rbind] in E2. destruct (calc_well_G (fst X1) id) eqn:EG; [|discriminate]. clear E2.
  unfold calc_well_G, bgrid, ggrid in EG. destruct (core_fields _ _ C1) as (Cg & _). rewrite Cg in EG. unfold upd_well in E1. apply mset_ok in E1. destruct (dgetE id (b_wells (fst X))) as [w'|]; [|discriminate]. cbn [rbind] in E1.
  destruct (get_fdir g) as [|[] [|[] [|[] [|? ?]]]] eqn:Fd; try discriminate; apply Nf; unfold fine_dirs; rewrite Fd; auto.
Qed.

Lemma set_well_fails id q pwf r s X : core (fst X) = core m0 -> ~ fine_dirs -> snd (set_well (Some id) q pwf r s X) <> Ok tt.
Proof.
  intros C Nf. destruct (core_cl (m0 := m0)) as (C1 & C2 & C3 & C4 & C5 & C6 & C7).
  cut (hoare (fun X : ws R => core (fst X) = core m0) (set_well (Some id) q pwf r s) (fun _ _ => False) (fun _ => True)).
  { intros H E. specialize (H X C). destruct (set_well (Some id) q pwf r s X) as [X' r']. cbn [snd] in E. subst r'. exact H. }
  assert (IV : forall A (c : M (ws R) A), inv (fun X : ws R => core (fst X) = core m0) c -> hoare (fun X => core (fst X) = core m0) c (fun _ X => core (fst X) = core m0) (fun _ => True)).
  { intros A c H Y HY. specialize (H Y HY). destruct (c Y) as [Y' [a|e]]; auto. }
  unfold set_well. assert (UW : forall i f, inv (fun X : ws R => core (fst X) = core m0) (upd_well i f)) by (intros; now apply (c_upd_well (fun m => core m = core m0))).
  assert (LG : forall i, inv (fun X : ws R => core (fst X) = core m0) (log_pressure i)) by (intros; now apply (c_log (fun m => core m = core m0))).
  do 7 (eapply h_bind; [apply IV; unfold assert_inside; isplit; auto; apply i_set; intros Y Y' HY EY; injection EY as <-; destruct (din id (b_wells (fst Y))); auto; cbn [fst]; now rewrite core_wells|intros []]).
  intros Y HY. pose proof (tail_fails id Y HY Nf) as T. destruct (set_well_tail id Y) as [Y' [[]|e]]; [exact (T eq_refl)|exact I].
Qed.

(** ** Boundaries *)
Lemma acc_range idb cond : acceptable m0 idb cond -> (0 <= idb < Z.of_nat n)%Z.
Proof. intros ((c & (Ic & _) & ->) & _). now apply (in_pad K). Qed.
Lemma boundary_total idb cond v : acceptable m0 idb cond -> tot base (set_boundary idb cond v) (fun _ => base).
Proof.
  intros A. pose proof (acc_range idb cond A) as I. destruct A as (_ & A).
  assert (PR : forall v, tot base (put_rate idb v) (fun _ => base)).
  { intros v' X H. pose proof H as (H1 & (H2 & H3 & H4) & H5).
    pose proof (w_put_q n idb v' X (conj H2 (conj H3 H4))) as W. pose proof (re_put_r (rest X) idb v' X eq_refl) as Re.
    assert (E : exists X', put_rate idb v' X = (X', Ok tt) /\ core (fst X') = core m0).
    { destruct X as [m o]. unfold put_rate, mset. cbn [fst snd] in *. assert (Ei : exists row, pyset (b_ir m) idb v' = Ok row) by (eapply pyset_ok; eauto). destruct Ei as (row & Ei). rewrite Ei. cbn [rbind].
      destruct o as [s|]; [destruct (s_tstep s =? 0)|].
      1,3: eexists; split; [reflexivity|]; cbn [fst]; now rewrite core_ir.
      destruct (H4 s eq_refl) as (_ & W2 & _ & Fr). destruct H5 as (_ & Sh). destruct (set2_ok (s_r s) (s_tstep s) idb v' n) as (rows & ->); [lia|auto|auto|]. cbn [rbind]. eexists; split; [reflexivity|exact H1]. }
    destruct E as (X' & E & C). rewrite E in W, Re. cbn [fst] in *. exists X', tt. split; auto. split; auto. split; auto. unfold rest in Re. injection Re as _ _ _ Re.
    destruct (snd X) as [s|], (snd X') as [s'|]; cbn in Re; try discriminate; auto. injection Re as F1 F2 F3 _ _. unfold shaped. rewrite F1, F2, F3. exact H5. }
  assert (PP : forall v, tot base (put_pressure idb v) (fun _ => base)).
  { intros v' X H. pose proof H as (H1 & (H2 & H3 & H4) & H5).
    pose proof (w_put_p n idb v' X (conj H2 (conj H3 H4))) as W. pose proof (re_put_p (rest X) idb v' X eq_refl) as Re.
    assert (E : exists X', put_pressure idb v' X = (X', Ok tt) /\ core (fst X') = core m0).
    { destruct X as [m o]. unfold put_pressure, mset. cbn [fst snd] in *. assert (Ei : exists row, pyset (b_ip m) idb v' = Ok row) by (eapply pyset_ok; eauto). destruct Ei as (row & Ei). rewrite Ei. cbn [rbind].
      destruct o as [s|]; [destruct (s_tstep s =? 0)|].
      1,3: eexists; split; [reflexivity|]; cbn [fst]; now rewrite core_ip.
      destruct (H4 s eq_refl) as (_ & W2 & Fp & _). destruct H5 as (Sh & _). destruct (set2_ok (s_p s) (s_tstep s) idb v' n) as (rows & ->); [lia|auto|auto|]. cbn [rbind]. eexists; split; [reflexivity|exact H1]. }
    destruct E as (X' & E & C). rewrite E in W, Re. cbn [fst] in *. exists X', tt. split; auto. split; auto. split; auto. unfold rest in Re. injection Re as _ _ _ Re.
    destruct (snd X) as [s|], (snd X') as [s'|]; cbn in Re; try discriminate; auto. injection Re as F1 F2 F3 _ _. unfold shaped. rewrite F1, F2, F3. exact H5. }
  unfold set_boundary. destruct (smem (lower cond) RATE) eqn:E1; [apply PR|]. destruct (smem (lower cond) PRESS) eqn:E2; [apply PP|].
  destruct A as [A|[A|(A & Fc)]]; try discriminate. rewrite A. apply t_bind with (Q := fun _ => base); [|intros r; apply PR].
  apply t_read. intros X H. destruct (gradient_ok K idb v Fc) as (r & _ & Er). exists r. split; auto. rewrite (grad_core (fst X) m0); auto. apply H.
Qed.
Lemma bids_ok : exists bs, get_boundaries_id g = Ok bs /\ forall id, In id bs <-> exists c, boundary_cell g c /\ id = natural_id g c.
Proof. destruct (GridThm.L_C03_interior_boundary_partition g (md_wf K) (md_flow _ _ _ _ _ _ _ _ K)) as (inner & bs & _ & E & _ & _ & _ & H & _). eauto. Qed.
Lemma boundaries_total bd X : base X -> (forall e, In e bd -> acceptable m0 (fst e) (fst (snd e))) -> snd (set_boundaries bd X) = Ok tt.
Proof.
  intros Hb A. destruct bids_ok as (bs & Eb & Hbs).
  cut (tot base (set_boundaries bd) (fun _ _ => True)). { intros H. destruct (H X Hb) as (X' & [] & -> & _). reflexivity. }
  unfold set_boundaries. apply t_bind with (Q := fun _ => base).
  { apply t_set. intros X' (H1 & (H2 & H3) & H4). eexists. split; [reflexivity|]. split; [cbn [fst]; now rewrite core_bdict|]. split; [|exact H4]. destruct X' as [[] o]. split; auto. }
  intros []. apply t_bind with (Q := fun b X => base X /\ b = bs).
  { apply t_read. intros X' H. exists bs. split; auto. destruct (core_fields _ _ (proj1 H)) as (Cg & _). unfold bgrid, ggrid. now rewrite Cg. }
  intros b. apply t_bind with (Q := fun _ => base); [|intros []; apply t_set; eauto].
  intros X' (H & ->). refine (t_iter _ bd base _ X' H). intros [id [c v]] Ie. specialize (A _ Ie). cbn [fst snd] in A. apply t_bind with (Q := fun _ => base).
  - apply t_read. intros X'' H''. exists tt. split; auto. unfold passert. replace (zmem id bs) with true; auto. symmetry. apply zmem_In, Hbs. apply A.
  - intros []. now apply boundary_total.
Qed.
Lemma all_boundaries_total cond v X : base X -> smem (lower cond) RATE = true \/ smem (lower cond) PRESS = true -> snd (set_all_boundaries cond v X) = Ok tt.
Proof.
  intros Hb A. destruct bids_ok as (bs & Eb & Hbs).
  cut (tot base (set_all_boundaries cond v) (fun _ _ => True)). { intros H. destruct (H X Hb) as (X' & [] & -> & _). reflexivity. }
  unfold set_all_boundaries. apply t_bind with (Q := fun b X => base X /\ b = bs).
  { apply t_read. intros X' H. exists bs. split; auto. destruct (core_fields _ _ (proj1 H)) as (Cg & _). unfold bgrid, ggrid. now rewrite Cg. }
  intros b X' (H & ->). destruct (t_iter (fun id => set_boundary id cond v) bs base) with (2 := H) as (X2 & a & E & _); [|eauto]. intros id Ie. apply boundary_total. split; [now apply Hbs|tauto].
Qed.
End set.
