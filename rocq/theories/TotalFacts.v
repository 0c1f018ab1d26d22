(** Facts on calls that cannot fail. *)
From Coq Require Import String ZArith Bool Arith List Lia Reals Lra.
From Verif Require Import Prelude PreludeFacts Num GridModel GridSpec GridThm GeoModel GeoSpec GeoProofs
  GridProofs GridNeighbors PropModel PropSpec PropProofs MatrixProofs BlackOilModel FdmModel MonadFacts HistSpec InvFacts SumFacts ModelSpec ModelFacts VectFacts FaceFacts AsmFacts
  PropThm SolverSpec SolveSpec StepSpec StepFacts WellStepFacts SolveFacts BalanceSpec CanonFacts NbrFacts FrameModel FrameSpec FrameFacts TotalSpec.
Import ListNotations.
Close Scope R_scope.
Open Scope nat_scope.

(** If [P] holds before, the method returns and [Q] holds after. *)
Definition tot {S A} (P : S -> Prop) (c : M S A) (Q : A -> S -> Prop) : Prop :=
  forall s, P s -> exists s' a, c s = (s', Ok a) /\ Q a s'.
Section tot.
Context {S : Type}.
Implicit Types (P : S -> Prop).
Lemma t_bind {A B} P (c : M S A) (f : A -> M S B) Q R : tot P c Q -> (forall a, tot (Q a) (f a) R) -> tot P (mbind c f) R.
Proof. intros Hc Hf s Ps. destruct (Hc s Ps) as (s1 & a & E & H). rewrite (mbind_run _ _ _ _ _ E). now apply Hf. Qed.
Lemma t_ret {A} (a : A) P (Q : A -> S -> Prop) : (forall s, P s -> Q a s) -> tot P (mret a) Q.
Proof. intros H s Ps. exists s, a. split; auto. Qed.
Lemma t_read {A} (f : S -> res A) P (Q : A -> S -> Prop) : (forall s, P s -> exists a, f s = Ok a /\ Q a s) -> tot P (mread f) Q.
Proof. intros H s Ps. destruct (H s Ps) as (a & E & HQ). exists s, a. unfold mread. rewrite E. auto. Qed.
Lemma t_set (f : S -> res S) P (Q : unit -> S -> Prop) : (forall s, P s -> exists s', f s = Ok s' /\ Q tt s') -> tot P (mset f) Q.
Proof. intros H s Ps. destruct (H s Ps) as (s' & E & HQ). exists s', tt. unfold mset. rewrite E. auto. Qed.
Lemma t_when b (c : M S unit) P Q : (b = true -> tot P c Q) -> (b = false -> forall s, P s -> Q tt s) -> tot P (mwhen b c) Q.
Proof. intros H H'. destruct b; [now apply H|]. apply t_ret. auto. Qed.
Lemma t_iter {A} (f : A -> M S unit) l P : (forall a, In a l -> tot P (f a) (fun _ => P)) -> tot P (miter f l) (fun _ => P).
Proof.
  induction l as [|a l IH]; intros H; cbn [miter]; [now apply t_ret|].
  apply t_bind with (Q := fun _ => P); [apply H; now left|]. intros _. apply IH. intros; apply H; now right.
Qed.
Lemma t_weak {A} P P' (c : M S A) (Q Q' : A -> S -> Prop) : tot P c Q -> (forall s, P' s -> P s) -> (forall a s, Q a s -> Q' a s) -> tot P' c Q'.
Proof. intros H Hp Hq s Ps. destruct (H s (Hp s Ps)) as (s' & a & E & HQ). exists s', a. auto. Qed.
Lemma t_inv {A} P (c : M S A) Q I : tot P c Q -> inv I c -> tot (fun s => P s /\ I s) c (fun a s => Q a s /\ I s).
Proof. intros H Hi s (Ps & Is). destruct (H s Ps) as (s' & a & E & HQ). exists s', a. split; auto. split; auto. specialize (Hi s Is). now rewrite E in Hi. Qed.
End tot.

(** ** Lists *)
Lemma set2_ok {A} (rows : list (list A)) t id v n : t < length rows -> Forall (fun r => length r = n) rows -> (0 <= id < Z.of_nat n)%Z ->
  exists rows', set2 rows t id v = Ok rows'.
Proof.
  intros L F I. unfold set2. destruct (nth_error rows t) as [row|] eqn:E; [|apply nth_error_None in E; lia].
  apply nth_error_In in E. rewrite Forall_forall in F. apply F in E. rewrite <- (Z2Nat.id id) by lia. rewrite PropProofs.pyset_nat by lia. cbn [rbind]. eauto.
Qed.
Lemma at2_ok {A} (rows : list (list A)) t id n : t < length rows -> Forall (fun r => length r = n) rows -> (0 <= id < Z.of_nat n)%Z ->
  exists v, at2 rows t id = Ok v.
Proof.
  intros L F I. unfold at2. destruct (nth_error rows t) as [row|] eqn:E; [|apply nth_error_None in E; lia].
  apply nth_error_In in E. rewrite Forall_forall in F. apply F in E. destruct row as [|d row]; [cbn in E; lia|].
  rewrite <- (Z2Nat.id id) by lia. rewrite (pyget_nth _ _ d) by lia. eauto.
Qed.
Lemma row_ok {A} (rows : list (list A)) t n : t < length rows -> Forall (fun r => length r = n) rows -> exists row, row_at rows t = Ok row /\ length row = n.
Proof.
  intros L F. unfold row_at. destruct (nth_error rows t) as [row|] eqn:E; [|apply nth_error_None in E; lia].
  apply nth_error_In in E. rewrite Forall_forall in F. eauto.
Qed.
Lemma set_many_ok {A} ids (vs row : list A) : length ids = length vs -> (forall id, In id ids -> (0 <= id < Z.of_nat (length row))%Z) -> exists row', set_many ids vs row = Ok row'.
Proof.
  intros L H. unfold set_many. rewrite L, Nat.eqb_refl. clear L. revert vs row H. induction ids as [|i ids IH]; intros vs row H; [cbn; eauto|].
  destruct vs as [|v vs]; [cbn; eauto|]. cbn [combine fold_left rbind fst snd]. pose proof (H i (or_introl eq_refl)) as Hi.
  rewrite <- (Z2Nat.id i) by lia. rewrite PropProofs.pyset_nat by lia. apply IH. intros id I. rewrite upd_length. apply H. now right.
Qed.
Lemma map2_length {A B C} (f : A -> B -> C) l : forall l', length (map2 f l l') = Nat.min (length l) (length l').
Proof. intros l'. unfold map2. rewrite map_length. apply combine_length. Qed.
Lemma tl_length {A} (l : list A) : length (tl l) = length l - 1.
Proof. destruct l; cbn; lia. Qed.
Lemma removelast_length {A} (l : list A) : length (removelast l) = length l - 1.
Proof. induction l as [|a [|b l] IH]; cbn in *; auto; lia. Qed.

(** ** Wells *)
Definition pw (w : well R) : Prop :=
  (w_qsp w <> None -> w_q w <> None) /\
  match w_pwf w, w_pwfsp w with Some p, Some lim => w_qsp w = None -> p = Some lim | None, None => True | _, _ => False end.
Definition fit (w : well R) : Prop :=
  pw w /\ w_con w <> None /\ w_pwf w <> None /\ w_G w <> None /\ forall G, w_G w = Some G -> G <> 0%R.
Lemma fit_fields w : fit w -> exists c G p lim, w_con w = Some c /\ w_G w = Some G /\ G <> 0%R /\ w_pwf w = Some p /\ w_pwfsp w = Some lim /\
  (w_qsp w = None -> p = Some lim) /\ (w_qsp w <> None -> exists q, w_q w = Some q).
Proof.
  intros ((H1 & H2) & Hc & Hp & Hg & HG). destruct (w_con w) as [c|], (w_pwf w) as [p|], (w_G w) as [G|], (w_pwfsp w) as [lim|]; try congruence; try contradiction.
  exists c, G, p, lim. repeat split; auto. intros H. destruct (w_q w); eauto. now apply H1 in H.
Qed.
Lemma w_mode_ok (m : bo R) w : fit w -> exists t, w_mode m w = Ok t.
Proof.
  intros F. destruct (fit_fields w F) as (c & G & p & lim & E1 & E2 & _ & E3 & _). unfold w_mode, con_is, keyE. rewrite E1, E2, E3. cbn [rbind].
  destruct (w_q w) as [q|]; cbn [has rbind]; [destruct c as [c|]; [destruct (String.eqb c "q")|]|]; cbn [rbind]; eauto.
Qed.
Lemma w_num_ok (m : bo R) w p : fit w -> exists q, w_num m w p = Ok q.
Proof. intros F. destruct (w_mode_ok m w F) as (t & E). unfold w_num. rewrite E. cbn [rbind]. eauto. Qed.
Lemma fit_con w c : fit w -> fit (with_con c w).
Proof. destruct w. unfold fit, pw. cbn. intros (H1 & H2 & H3). split; auto. split; [discriminate|auto]. Qed.
Lemma fit_q w q : fit w -> fit (with_q_est q w).
Proof. destruct w. unfold fit, pw. cbn. intros ((H1 & H1') & H2 & H3). split; [|auto]. split; [discriminate|auto]. Qed.
Lemma fit_pwf w p : fit w -> (w_qsp w = None -> Some p = option_map Some (w_pwfsp w)) -> fit (with_pwf_est p w).
Proof.
  destruct w as [q qsp pwf lim con r s req G]. unfold fit, pw. cbn. intros ((H1 & H1') & H2 & H3 & H4) H. split; [|split; [auto|split; [discriminate|auto]]]. split; auto.
  destruct pwf, lim; try contradiction; try congruence. intros Q. specialize (H Q). cbn in H. congruence.
Qed.

Section total.
Context {m0 : bo R} {x y z : nat} {u : bool} {dx dy dz : dinput R} (K : model m0 x y z u dx dy dz).
Context (Bd : list (Z * (string * R))) (Bn : NoDup (map fst Bd)) (Ba : Forall (admissible m0) Bd).
Notation g := (gr (geom (b_grid m0))).
Notation N := (length (b_ids m0)).
Notation n := (get_n g true).

Definition okm (ks : list Z) (m : bo R) : Prop :=
  core m = core m0 /\ dkeys (b_wells m) = ks /\ (forall id w, dget id (b_wells m) = Some w -> fit w) /\ b_bdict m = Bd /\ b_bup m = pressured Bd.
Definition oks (s : fs R) : Prop := wideF n s /\ shaped s.
Definition hasA (s : fs R) : Prop := exists A, s_A s = Some A /\ msize A = N.
Definition got (D : Z -> Prop) (s : fs R) : Prop := forall id, D id -> dget id (s_bv s) <> None.
Definition bup (id : Z) : Prop := In id (pressured Bd).
Definition asm (s : fs R) : Prop := s_tstep s = 0 \/ s_A s = None \/ (hasA s /\ got bup s).
Context (ks : list Z) (Hks : forall id, In id ks -> In id (b_ids m0)).
Notation okx D := (fun X : st R => okm ks (fst X) /\ oks (snd X) /\ hasA (snd X) /\ got D (snd X)).

Lemma ids_range id : In id (b_ids m0) -> (0 <= id < Z.of_nat n)%Z.
Proof. apply (proj1 (proj2 (ids_facts K))). Qed.
Lemma face_range id : face_id m0 id -> (0 <= id < Z.of_nat n)%Z.
Proof. intros (c & (I & _) & _ & ->). now apply (in_pad K). Qed.
Lemma okm_model m : okm ks m -> model m x y z u dx dy dz.
Proof. intros (C & _). exact (model_core _ _ _ _ _ _ _ _ _ (eq_sym C) K). Qed.
Lemma okm_grid m : okm ks m -> b_grid m = b_grid m0 /\ b_ids m = b_ids m0.
Proof. intros (C & _). destruct (core_fields _ _ C) as (C1 & C2 & _). auto. Qed.
Lemma face_okm m id : okm ks m -> face_id m0 id -> face_id m id.
Proof. intros H. destruct (okm_grid m H) as (E & _). unfold face_id. now rewrite E. Qed.
Lemma pressured_in id : In id (pressured Bd) -> exists v, In (id, ("pressure"%string, v)) Bd.
Proof.
  unfold pressured. intros I. apply in_map_iff in I as ([k [c v]] & <- & I). apply filter_In in I as (I & E). cbn [fst snd] in *. apply String.eqb_eq in E. subst. eauto.
Qed.
Lemma dget_nodup {A} (l : list (Z * A)) k v : NoDup (map fst l) -> In (k, v) l -> dget k l = Some v.
Proof. apply (dget_In_nodup k v l). Qed.

(** ** One pressure boundary *)
Lemma t_init_b D idb : In idb (pressured Bd) -> tot (okx D) (init_b idb) (fun _ => okx (fun i => D i \/ i = idb)).
Proof.
  intros I [m s] (Hm & Hs & (A & EA & LA) & Hg). cbn [fst snd] in *. pose proof (okm_model m Hm) as Km. destruct (okm_grid m Hm) as (Eg & Ei).
  destruct (pressured_in _ I) as (v & Iv). pose proof Ba as Ba'. rewrite Forall_forall in Ba'. destruct (Ba' _ Iv) as (Fc & Hv). cbn [fst snd] in *.
  pose proof (face_okm m idb Hm Fc) as Fm. destruct (edge_face Km idb Fm) as (Ee & Pe & Ie & nb & En & Dn).
  assert (Ev : dget idb (b_bdict m) = Some ("pressure"%string, v)). { destruct Hm as (_ & _ & _ & -> & _). now apply dget_nodup. }
  assert (Ed : exists d, FdmModel.dz m (fst (edge (m := m) idb)) idb = Ok d).
  { destruct (cell_of Km _ Ie) as (c & Ic & Ec). destruct Fm as (c' & (Gc & _) & _ & Ec'). rewrite Ec, Ec'. rewrite (dz_ok Km); eauto. now apply interior_in_grid; [apply (md_wf Km)|]. }
  destruct Ed as (d & Ed).
  assert (Ne : v <> (b_g m0 * d)%R).
  { rewrite Eg in En. eapply (Hv eq_refl nb (fst (edge (m := m) idb)) d En); [rewrite Dn; now left|]. rewrite <- Ed. symmetry. apply core_dz. apply Hm. }
  destruct (cell_i_pos Km _ Ie) as (i & Hi & _ & Eci).
  assert (Gm : b_g m = b_g m0) by (destruct Hm as (C & _); destruct (core_fields _ _ C) as (_ & _ & _ & _ & G & _); exact G).
  unfold init_b. rewrite (mbind_run _ _ _ (m, s) (edge (m := m) idb)) by (unfold mread; cbn [fst snd]; now rewrite Ee).
  erewrite (mbind_run _ _ _ (m, s)) by (unfold mread, b_term; cbn [fst snd]; rewrite Ev; replace (smem (lower "pressure") PRESS) with true by reflexivity; rewrite Ed; cbn [rbind]; reflexivity).
  rewrite lvalues_one. cbn [lc]. cbn [nopp nmul nadd nsub n1 Num_R]. change (@n2 R Num_R) with 2%R.
  destruct (Reqb_spec (snd (edge (m := m) idb) * 2 * (v - b_g m * d)) 0) as [Z|_].
  { exfalso. apply Rmult_integral in Z as [Z|Z]; [lra|]. rewrite Gm in Z. lra. }
  destruct (Reqb_spec (- (snd (edge (m := m) idb) * 2)) 0) as [Z|_]; [lra|]. cbn [app].
  unfold mbind, mread, mset, addto_A, mset. cbn [fst snd]. rewrite Eci. cbn [rbind].
  assert (EA' : forall v, s_A (set_bv v s) = Some A) by (destruct s; intros; exact EA). rewrite EA'. cbn [attrE rbind].
  do 2 eexists. split; [reflexivity|]. cbn [fst snd]. split; auto. destruct s. cbn in *. split; [exact Hs|]. split; [eexists; split; [reflexivity|]; exact LA|].
  intros j Hj. cbn. rewrite dget_dset_z. destruct (Z.eqb_spec j idb); [discriminate|]. destruct Hj as [Hj| ->]; [now apply Hg|congruence].
Qed.
Lemma t_init_bs l : forall D, (forall id, In id l -> In id (pressured Bd)) -> tot (okx D) (miter init_b l) (fun _ => okx (fun i => D i \/ In i l)).
Proof.
  induction l as [|i l IH]; intros D H; cbn [miter].
  - apply t_ret. intros X (H1 & H2 & H3 & H4). refine (conj H1 (conj H2 (conj H3 _))). intros j [Hj|[]]. now apply H4.
  - eapply t_bind; [apply t_init_b, H; now left|]. intros []. cbv beta. eapply t_weak; [apply (IH (fun j => D j \/ j = i)); intros; apply H; now right|auto|].
    intros _ X (H1 & H2 & H3 & H4). refine (conj H1 (conj H2 (conj H3 _))). intros j Hj. apply H4. destruct Hj as [Hj|[->|Hj]]; auto.
Qed.
Notation ok0 := (fun X : st R => okm ks (fst X) /\ oks (snd X)).
Lemma oks_set_A v s : oks s -> oks (set_A v s). Proof. destruct s; auto. Qed.
Lemma oks_set_res v s : oks s -> oks (set_res v s). Proof. destruct s; auto. Qed.
Lemma oks_set_bv v s : oks s -> oks (set_bv v s). Proof. destruct s; auto. Qed.
Lemma t_init_vect : tot ok0 init_vect (fun _ => okx bup).
Proof.
  unfold init_vect. apply t_bind with (Q := fun _ => ok0).
  { apply t_set. intros X (H1 & H2). eexists. split; [reflexivity|]. cbn [fst snd]. split; auto using oks_set_res. }
  intros []. apply t_bind with (Q := fun _ X => ok0 X /\ hasA (snd X)).
  { apply t_set. intros [m s] (H1 & H2). cbn [fst snd] in *. destruct (init_A_ok (okm_model m H1)) as (A & EA & LA & _). rewrite EA. cbn [rbind].
    eexists. split; [reflexivity|]. cbn [fst snd]. split; [split; auto using oks_set_A|]. exists A. split; [now destruct s|]. destruct (okm_grid m H1) as (_ & <-). exact LA. }
  intros []. apply t_bind with (Q := fun _ => okx (fun _ => False)).
  { apply t_set. intros [m s] ((H1 & H2) & A & H3 & H4). cbn [fst snd] in *. eexists. split; [reflexivity|]. cbn [fst snd]. split; auto. split; auto using oks_set_bv. split; [exists A; split; [now destruct s|auto]|]. intros ? []. }
  intros []. apply t_bind with (Q := fun ids X => okx (fun _ => False) X /\ ids = pressured Bd).
  { apply t_read. intros X H. eexists. split; [reflexivity|]. split; auto. apply H. }
  intros ids X (H & ->). destruct (t_init_bs (pressured Bd) (fun _ => False) (fun _ h => h) X H) as (X' & a & E & H1 & H2 & H3 & H4). exists X', a. split; auto. refine (conj H1 (conj H2 (conj H3 _))).
  intros j Hj. apply H4. now right.
Qed.

(** ** The right side *)
Lemma at_ids_all {A} (l : list A) : length l = n -> exists v, at_ids (b_ids m0) l = Ok v /\ length v = N.
Proof.
  intros L. destruct l as [|d l].
  { exfalso. pose proof (md_pos K) as P. destruct (nth_id 0 P) as (i & _ & I). apply ids_range in I. cbn [length] in L. lia. }
  rewrite (at_ids_ok K _ d L). eexists. split; [reflexivity|]. now rewrite map_length.
Qed.
Lemma init_d_total m s : okm ks m -> oks s -> exists d, init_d (m, s) = Ok d /\ length d = N.
Proof.
  intros Hm ((_ & _ & Fp & _) & Sh & _). pose proof (okm_model m Hm) as Km. destruct (okm_grid m Hm) as (Eg & Ei). unfold init_d. rewrite Ei. destruct (b_cmp m).
  - destruct (at_ids_all (b_RHS m)) as (rhs & -> & L1); [rewrite (md_RHS _ _ _ _ _ _ _ _ Km); now rewrite Eg|]. cbn [rbind].
    destruct (row_ok (s_p s) (s_tstep s) n) as (row & E & L); [lia|auto|]. unfold row_at in E. rewrite E. cbn [rbind].
    destruct (at_ids_all row L) as (p & -> & L2). cbn [rbind]. eexists. split; [reflexivity|]. rewrite map2_length. lia.
  - eexists. split; [reflexivity|]. apply repeat_length.
Qed.
Lemma sub_d_ok m d id v : okm ks m -> In id (b_ids m0) -> length d = N -> exists d', sub_d m d id v = Ok d' /\ length d' = N.
Proof.
  intros Hm I L. destruct (okm_grid m Hm) as (_ & Ei). rewrite <- Ei in I. destruct (cell_i_pos (okm_model m Hm) _ I) as (i & _ & _ & E). unfold sub_d. rewrite E. cbn [rbind].
  eexists. split; [reflexivity|]. now rewrite upd_length.
Qed.
Lemma well_of_key m id : okm ks m -> In id ks -> exists w, dget id (b_wells m) = Some w /\ fit w.
Proof. intros (_ & H1 & H2 & _) I. rewrite <- H1 in I. apply dget_keys in I. destruct (dget id (b_wells m)) as [w|] eqn:E; [|congruence]. eauto. Qed.
Notation okd := (fun (du : list (fl R) * bool) (X : st R) => okx bup X /\ length (fst du) = N).
Lemma con_ok w (name : string) : fit w -> exists b, con_is w name = Ok b /\ (b = true -> w_con w = Some (Some name)).
Proof.
  intros (_ & H & _). unfold con_is. destruct (w_con w) as [c|]; [|congruence]. cbn [keyE rbind]. eexists. split; [reflexivity|]. destruct c as [c|]; [|discriminate]. intros E. apply String.eqb_eq in E. now subst.
Qed.
Lemma t_vect_well id du : In id ks -> tot (okd du) (vect_well id du) okd.
Proof.
  intros I [m s] ((Hm & Hs & HA & Hg) & Ld). cbn [fst snd] in *. destruct (well_of_key m id Hm I) as (w & Ew & Fw).
  pose proof (Hks id I) as Ii. pose proof Hs as ((W1 & W2 & Fp & Fr) & Sh & Sh').
  unfold vect_well. rewrite (mbind_run _ _ _ (m, s) w) by (unfold mread, dgetE; cbn [fst]; now rewrite Ew).
  destruct (con_ok w "q" Fw) as (bq & Eq & Hq). rewrite (mbind_run _ _ _ (m, s) bq) by (unfold mread; now rewrite Eq). destruct bq.
  { unfold mread. cbn [fst snd]. destruct (at2_ok (s_p s) (s_tstep s) id n) as (p & ->); [lia|auto|now apply ids_range|]. cbn [rbind].
    destruct (w_num_ok m w p Fw) as (q & ->). cbn [rbind]. destruct (sub_d_ok m (fst du) id q Hm Ii Ld) as (d & -> & L). cbn [rbind].
    do 2 eexists. split; [reflexivity|]. exact (conj (conj Hm (conj Hs (conj HA Hg))) L). }
  destruct (con_ok w "pwf" Fw) as (bp & Ep & Hp). rewrite (mbind_run _ _ _ (m, s) bp) by (unfold mread; now rewrite Ep). destruct bp; [|exists (m, s), du; split; [reflexivity|]; exact (conj (conj Hm (conj Hs (conj HA Hg))) Ld)].
  destruct (fit_fields w Fw) as (c & G & p & lim & E1 & E2 & NG & E3 & _). rewrite E1 in Hp. specialize (Hp eq_refl). injection Hp as ->.
  pose proof (muB_pos (okm_model m Hm)) as PB. unfold muB in PB. cbn [nmul Num_R] in PB.
  assert (PB' : (0 < b_B m * b_mu m)%R) by lra.
  assert (V : exists v0 v1, (let* t := w_term m id w in match lvalues t with [v0] => Ok (v0, Some n0) | [v0; v1] => Ok (v0, v1) | _ => Err ValueError end) = Ok (v0, Some v1)).
  { unfold w_term, w_mode, con_is, keyE. rewrite E1, E2, E3. cbn [rbind]. replace (String.eqb "pwf" "q") with false by reflexivity.
    assert (J : (- G / (b_B m * b_mu m))%R <> 0%R). { apply Rmult_integral_contrapositive_currified; [lra|]. apply Rinv_neq_0_compat. lra. }
    destruct (has (w_q w)); cbn [rbind]; destruct p as [p|]; cbn [option_map fmul lift2]; try rewrite lvalues_one; cbn [ndiv nopp nmul Num_R];
      try (unfold lvalues; cbn [l0]; do 2 eexists; reflexivity);
      (destruct (Reqb_spec (- G / (b_B m * b_mu m) * - p) 0), (Reqb_spec (- G / (b_B m * b_mu m)) 0); cbn [app]; try contradiction; do 2 eexists; reflexivity). }
  destruct V as (v0 & v1 & V). erewrite (mbind_run _ _ _ (m, s) (v0, Some v1)) by (unfold mread; cbn [fst snd]; now rewrite V). cbn [fst snd].
  destruct (sub_d_ok m (fst du) id v0 Hm Ii Ld) as (d & Ed & L). rewrite (mbind_run _ _ _ (m, s) d) by (unfold mread; cbn [fst snd]; now rewrite Ed).
  erewrite (mbind_run (mread _)) by (unfold mread; reflexivity). cbn [fst snd].
  set (done := match dget id (s_res s) with Some b => b | None => false end).
  pose proof HA as (A & EA & LA). destruct (okm_grid m Hm) as (_ & Ei). pose proof Ii as Ii'. rewrite <- Ei in Ii'. destruct (cell_i_pos (okm_model m Hm) _ Ii') as (i & _ & _ & Ec).
  destruct done; cbn [negb mwhen].
  - erewrite (mbind_run (mret _)) by reflexivity. exists (m, s), (d, snd du). split; [reflexivity|]. exact (conj (conj Hm (conj Hs (conj HA Hg))) L).
  - unfold mbind, mset, addto_A, mset, mret. cbn [fst snd]. rewrite Ec. cbn [rbind]. rewrite EA. cbn [attrE rbind].
    do 2 eexists. split; [reflexivity|]. cbn [fst snd]. split; [|auto]. refine (conj Hm (conj _ (conj _ _))); destruct s; [exact Hs| |exact Hg]. eexists. split; [reflexivity|exact LA].
Qed.
Lemma t_vect_wells ids : forall du, (forall id, In id ids -> In id ks) -> tot (okd du) (vect_wells ids du) okd.
Proof.
  induction ids as [|i ids IH]; intros du H; cbn [vect_wells]; [apply t_ret; auto|].
  eapply t_bind; [apply t_vect_well, H; now left|]. intros du'. apply IH. intros; apply H; now right.
Qed.
Lemma vect_b_total m s d e : okm ks m -> oks s -> got bup s -> In e Bd -> length d = N -> exists d', vect_b (m, s) d e = Ok d' /\ length d' = N.
Proof.
  intros Hm ((W1 & W2 & Fp & Fr) & Sh & Sh') Hg I Ld. pose proof Ba as Ba'. rewrite Forall_forall in Ba'. destruct (Ba' _ I) as (Fc & _).
  destruct (edge_face (okm_model m Hm) _ (face_okm m _ Hm Fc)) as (_ & _ & Ie & nb & En & Dn). destruct (okm_grid m Hm) as (_ & Ei). rewrite Ei in Ie.
  unfold vect_b. change (bgrid m) with (gr (geom (b_grid m))). rewrite En. cbn [rbind]. rewrite Dn. destruct (String.eqb (fst (snd e)) "pressure") eqn:Ep.
  - assert (Q : dget (fst e) (s_bv s) <> None). { apply Hg. unfold bup, pressured. apply in_map, filter_In. auto. }
    unfold dgetE. destruct (dget (fst e) (s_bv s)) as [v|]; [|congruence]. cbn [rbind]. now apply sub_d_ok.
  - destruct (at2_ok (s_r s) (s_tstep s) (fst e) n) as (q & ->); [lia|auto|now apply face_range|]. cbn [rbind]. now apply sub_d_ok.
Qed.
Lemma vect_bs_total m s l : okm ks m -> oks s -> got bup s -> (forall e, In e l -> In e Bd) -> forall d, length d = N ->
  exists d', fold_left (fun acc e => let* d := acc in vect_b (m, s) d e) l (Ok d) = Ok d' /\ length d' = N.
Proof.
  intros Hm Hs Hg. induction l as [|e l IH]; intros H d Ld; cbn [fold_left]; [eauto|]. cbn [rbind].
  destruct (vect_b_total m s d e Hm Hs Hg (H e (or_introl eq_refl)) Ld) as (d1 & -> & L1). apply IH; auto. intros; apply H; now right.
Qed.

(** ** The correction for heights *)
Lemma inner_below id : In id (b_ids m0) -> (0 <= id < Z.of_nat n - 1)%Z.
Proof.
  intros I. pose proof (ids_range id I) as Hr. destruct (cell_of K id I) as (c & Ic & ->).
  pose proof (md_flow _ _ _ _ _ _ _ _ K) as HF. destruct c as [[i j] k].
  assert (Px : (1 <= padded (nx g))%Z /\ (1 <= padded (ny g))%Z /\ (1 <= padded (nz g))%Z).
  { destruct (md_wf K) as (? & ? & ?). unfold padded. destruct (1 <? nx g), (1 <? ny g), (1 <? nz g); lia. }
  assert (Q : exists c', in_grid g c' /\ (natural_id g (i, j, k) < natural_id g c')%Z).
  { assert (IG := interior_in_grid g _ (md_wf K) Ic).
    assert (St : forall a c', a <> ADash -> flows g a -> at_axis a c' = (at_axis a (i, j, k) + 1)%Z -> (forall b, b <> a -> at_axis b c' = at_axis b (i, j, k)) -> in_grid g c').
    { intros a c' Na Fa E1 E2 b Nb. assert (Dec : {b = a} + {b <> a}) by decide equality. destruct Dec as [->|Nab]; [|rewrite E2 by auto; now apply IG].
      destruct (Ic a Na) as [(_ & Hb)|(Hf & _)]; [|contradiction]. rewrite E1. unfold padded. unfold flows in Fa. destruct (Nat.ltb_spec 1 (size g a)); lia. }
    destruct HF as [HF|[HF|HF]].
    - exists (i + 1, j, k)%Z. split; [apply (St AX); auto; [discriminate|intros [] ?; cbn; congruence]|]. cbn. lia.
    - exists (i, j + 1, k)%Z. split; [apply (St AY); auto; [discriminate|intros [] ?; cbn; congruence]|]. cbn. nia.
    - exists (i, j, k + 1)%Z. split; [apply (St AZ); auto; [discriminate|intros [] ?; cbn; congruence]|]. cbn. nia. }
  destruct Q as (c' & G & L). apply (in_pad K) in G. lia.
Qed.
Lemma diag_total m : okm ks m -> exists v, get_cells_trans_diag_1 m true = Ok v /\ length v = n - 1.
Proof.
intros Hm. destruct (okm_grid m Hm) as (Eg & _). pose proof (md_rock _ _ _ _ _ _ _ _ K) as Rk. pose proof (md_flow _ _ _ _ _ _ _ _ K) as HF.
  pose proof (rk_wf _ _ _ _ _ _ _ _ Rk) as W. destruct (vect_ok _ _ _ _ _ _ _ _ Rk) as (iso & f & _ & Ef).
  unfold get_cells_trans_diag_1, bgrid, ggrid. rewrite Eg.
  assert (Fd : get_fdir g = flow_axes g /\ get_D g = length (flow_axes g)).
  { rewrite get_fdir_spec, get_D_spec by auto. split; auto. unfold has_flow, flows in HF. cbn [size] in HF.
    unfold flow_axes. destruct (Nat.ltb_spec 1 (nx g)), (Nat.ltb_spec 1 (ny g)), (Nat.ltb_spec 1 (nz g)); try lia; reflexivity. }
  destruct Fd as (Fd & HD).
  pose proof (cnt_N (b_grid m0) true W) as EN. pose proof (cnt_pos (b_grid m0) true AX W ltac:(congruence)) as Px. pose proof (cnt_pos (b_grid m0) true AY W ltac:(congruence)) as Py.
  pose proof (cnt_pos (b_grid m0) true AZ W ltac:(congruence)) as Pz.
  assert (HN : 1 <= n) by (rewrite EN; nia).
  assert (D1 : forall a0 fd, flow_axes g = a0 :: fd -> flows g a0 -> exists v, get_cells_G_diag_1 (b_grid m0) true = Ok v /\ length v = n - 1).
  { intros a0 fd E Fa. rewrite <- Fd in E. destruct (diag_1_ok _ _ _ _ _ _ _ _ Rk true f Ef a0 fd E Fa HN) as (v & Ev & L & _). eauto. }
  assert (D2 : forall a0 a1 fd v, flow_axes g = a0 :: a1 :: fd -> a0 = AX \/ a0 = AY -> flows g a1 -> length v = n - 1 ->
     exists v1 v2 k, get_cells_G_diag_2 (b_grid m0) true (Some v) = Ok (Some v1, v2, k) /\ length v1 = n - 1).
  { intros a0 a1 fd v E Ha Fa L. pose proof E as E'. rewrite <- Fd in E'.
    assert (CN : cnt (b_grid m0) true a0 <= n).
    { assert (Le : forall a b c, 1 <= a -> 1 <= b -> 1 <= c -> a <= a * b * c /\ b <= a * b * c).
      { clear. intros a b c Ha Hb Hc. assert (1 <= a * b) by nia. split; nia. }
      rewrite EN. destruct Ha as [-> | ->]; apply Le; auto. }
    destruct (diag_2_ok _ _ _ _ _ _ _ _ Rk true f Ef a0 a1 fd v W E' Ha Fa ltac:(rewrite HD, E; cbn; lia) L CN) as (v1 & v2 & Ev & L1 & _). eauto 6. }
  assert (P : (exists a0, flow_axes g = [a0] /\ flows g a0) \/ (exists a0 a1 fd, flow_axes g = a0 :: a1 :: fd /\ (a0 = AX \/ a0 = AY) /\ flows g a0 /\ flows g a1)).
  { unfold has_flow, flows, flow_axes in *. cbn [size] in *.
    destruct (Nat.ltb_spec 1 (nx g)), (Nat.ltb_spec 1 (ny g)), (Nat.ltb_spec 1 (nz g)); cbn [app] in *; try lia;
      first [right; do 3 eexists; split; [reflexivity|]; cbn [size]; auto; fail|left; eexists; split; [reflexivity|]; cbn [size]; auto]. }
  destruct P as [(a0 & E & F0)|(a0 & a1 & fd & E & Ha & F0 & F1)].
  - destruct (D1 _ _ E F0) as (v & -> & L). cbn [rbind]. rewrite HD, E. cbn [length Nat.ltb Nat.leb rbind]. eexists. split; [reflexivity|]. now rewrite map_length.
  - destruct (D1 _ _ E F0) as (v & -> & L). cbn [rbind]. rewrite HD, E. cbn [length Nat.ltb Nat.leb]. destruct (D2 _ _ _ v E Ha F1 L) as (v1 & v2 & k & -> & L1). cbn [rbind].
    eexists. split; [reflexivity|]. now rewrite map_length.
Qed.
Lemma update_z_total m d : okm ks m -> length d = N -> exists d', update_z m d = Ok d' /\ length d' = N.
Proof.
  intros Hm Ld. pose proof (okm_model m Hm) as Km. destruct (okm_grid m Hm) as (Eg & Ei). unfold update_z. destruct (md_z _ _ _ _ _ _ _ _ Km) as (zs & -> & Lz). cbn [rbind].
  rewrite Ei. rewrite Eg in Lz. destruct (at_ids_all zs Lz) as (zz & -> & L1). cbn [rbind]. unfold all_same. destruct zz as [|a zz]; [pose proof (md_pos K); cbn in L1; lia|]. cbn [rbind].
  destruct (forallb _ _); [eauto|]. destruct (diag_total m Hm) as (v & -> & Lv). cbn [rbind].
  assert (V : exists T, at_ids (b_ids m0) v = Ok T /\ length T = N).
  { unfold at_ids. rewrite (rmapM_pyget v (b_ids m0) 0%R); [eexists; split; [reflexivity|apply map_length]|]. intros id I. apply inner_below in I. lia. }
  destruct V as (T & -> & LT). cbn [rbind]. eexists. split; [reflexivity|].
  assert (L2 : length (removelast (a :: zz)) = length zz) by (rewrite removelast_length; cbn; lia). cbn [length] in L1.
  rewrite !map2_length. cbn [length tl]. rewrite app_length. rewrite !map2_length. rewrite L2. cbn [length]. lia.
Qed.

Lemma t_vect : tot (fun X : st R => ok0 X /\ asm (snd X)) get_matrices_vect (fun Ad X => okx bup X /\ msize (fst Ad) = N /\ length (snd Ad) = N).
Proof.
  unfold get_matrices_vect. apply t_bind with (Q := fun (ini : bool) (X : st R) => ok0 X /\ (ini = false -> hasA (snd X) /\ got bup (snd X))).
  { apply t_read. intros [m s] (H & Ha). cbn [fst snd] in *. eexists. split; [reflexivity|]. split; auto. intros E. apply orb_false_iff in E as (E1 & E2).
    destruct Ha as [Ha|[Ha|Ha]]; auto; [rewrite Ha in E1; discriminate|rewrite Ha in E2; discriminate]. }
  intros ini. apply t_bind with (Q := fun _ => okx bup).
  { apply t_when; [intros ->; eapply t_weak; [apply t_init_vect|tauto|auto]|]. intros E X ((H1 & H2) & H3). destruct (H3 E) as (H4 & H5). exact (conj H1 (conj H2 (conj H4 H5))). }
  intros []. apply t_bind with (Q := fun d X => okx bup X /\ length d = N).
  { apply t_read. intros [m s] (H1 & H2 & H3). destruct (init_d_total m s H1 H2) as (d & E & L). exists d. split; [exact E|]. exact (conj (conj H1 (conj H2 H3)) L). }
  intros d. apply t_bind with (Q := fun ids X => (okx bup X /\ length d = N) /\ ids = ks).
  { apply t_read. intros X H. eexists. split; [reflexivity|]. split; auto. apply H. }
  intros ids. apply t_bind with (Q := okd).
  { intros X (H & ->). exact (t_vect_wells ks (d, false) (fun _ h => h) X H). }
  intros [d1 b]. cbn [fst snd]. apply t_bind with (Q := fun d X => okx bup X /\ length d = N).
  { apply t_read. intros [m s] ((H1 & H2 & H3 & H4) & L). cbn [fst snd] in *. assert (Eb : b_bdict m = Bd) by apply H1. rewrite Eb.
    destruct (vect_bs_total m s Bd H1 H2 H4 (fun _ h => h) d1 L) as (d2 & E & L2). exists d2. split; [exact E|]. exact (conj (conj H1 (conj H2 (conj H3 H4))) L2). }
  intros d2. apply t_bind with (Q := fun d X => okx bup X /\ length d = N).
  { apply t_read. intros [m s] ((H1 & H2) & L). cbn [fst snd] in *. destruct b; [destruct (update_z_total m d2 H1 L) as (d3 & -> & L3); exists d3|exists d2]; split; auto. }
  intros d3. apply t_bind with (Q := fun A X => okx bup X /\ msize A = N /\ length d3 = N).
  { apply t_read. intros [m s] ((H1 & H2 & (A & EA & LA) & H4) & L). cbn [fst snd] in *. rewrite EA. cbn [attrE]. exists A. split; auto. split; auto. refine (conj H1 (conj H2 (conj _ H4))). exists A. auto. }
  intros A. apply t_ret. auto.
Qed.
End total.
