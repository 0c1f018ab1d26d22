(** A step cannot fail. *)
From Coq Require Import String ZArith Bool Arith List Lia Reals Lra.
From Verif Require Import Prelude PreludeFacts Num GridModel GridSpec GridThm GeoModel GeoSpec GeoProofs
  GridProofs GridNeighbors PropModel PropSpec PropProofs MatrixProofs BlackOilModel FdmModel MonadFacts HistSpec InvFacts SumFacts ModelSpec ModelFacts VectFacts FaceFacts AsmFacts
  PropThm SolverSpec SolveSpec StepSpec StepFacts WellStepFacts SolveFacts BalanceSpec CanonFacts NbrFacts FrameModel FrameSpec FrameFacts TotalSpec TotalFacts.
Import ListNotations.
Close Scope R_scope.
Open Scope nat_scope.

Section total.
Context {m0 : bo R} {x y z : nat} {u : bool} {dx dy dz : dinput R} (K : model m0 x y z u dx dy dz).
Context (Bd : list (Z * (string * R))) (Bn : NoDup (map fst Bd)) (Ba : Forall (admissible m0) Bd).
Notation g := (gr (geom (b_grid m0))).
Notation N := (length (b_ids m0)).
Notation n := (get_n g true).
Context (ks : list Z) (Hks : forall id, In id ks -> In id (b_ids m0)).
Notation okm := (okm (m0 := m0) Bd ks).
Notation oks := (oks (m0 := m0)).
Notation hasA := (hasA (m0 := m0)).
Notation bup := (bup Bd).
Notation asm := (asm (m0 := m0) Bd).
Definition okt (T : nat) (X : st R) : Prop := okm (fst X) /\ oks (snd X) /\ hasA (snd X) /\ got bup (snd X) /\ s_tstep (snd X) = T.

Lemma oks_put s T id v rows : oks s -> s_tstep s = T -> set2 (s_r s) T id v = Ok rows -> oks (set_r rows s).
Proof.
  intros ((W1 & W2 & Fp & Fr) & Sh & Sh') <- E. destruct (set2_full _ _ _ _ _ _ W2 Fr E) as (Q1 & Q2). split.
  - destruct s. repeat split; auto.
  - unfold set2 in E. destruct (nth_error _ _); [|discriminate]. destruct (pyset _ _ _); [|discriminate]. cbn [rbind] in E. injection E as <-. destruct s. split; cbn in *; auto. now rewrite upd_length.
Qed.
Lemma okt_put T id v : (0 <= id < Z.of_nat n)%Z -> tot (okt T) (put_r id v) (fun _ => okt T).
Proof.
  intros I. unfold put_r. apply t_set. intros [m s] (H1 & H2 & H3 & H4 & H5). cbn [fst snd] in *. pose proof H2 as ((W1 & W2 & Fp & Fr) & Sh & Sh').
  destruct (set2_ok (s_r s) (s_tstep s) id v n) as (rows & E); [lia|auto|auto|]. rewrite E. cbn [rbind]. eexists. split; [reflexivity|]. rewrite H5 in E.
  split; [exact H1|]. split; [exact (oks_put s T id v rows H2 H5 E)|]. destruct s. split; [exact H3|]. split; [exact H4|exact H5].
Qed.
Lemma t_boundary T idb : In idb (pressured Bd) -> tot (okt T) (update_boundary idb) (fun _ => okt T).
Proof.
  intros I [m s] H. pose proof H as (Hm & Hs & HA & Hg & HT). cbn [fst snd] in *. pose proof Hs as ((W1 & W2 & Fp & Fr) & Sh & Sh'). pose proof (okm_model K Bd ks m Hm) as Km. destruct (okm_grid Bd ks m Hm) as (Eg & Ei).
  destruct (pressured_in Bd _ I) as (v & Iv). pose proof Ba as Ba'. rewrite Forall_forall in Ba'. destruct (Ba' _ Iv) as (Fc & _). cbn [fst snd] in *.
  pose proof (face_okm Bd ks m idb Hm Fc) as Fm. destruct (edge_face Km idb Fm) as (Ee & Pe & Ie & nb & En & Dn).
  assert (Ev : dget idb (b_bdict m) = Some ("pressure"%string, v)). { destruct Hm as (_ & _ & _ & -> & _). now apply dget_nodup. }
  assert (Ed : exists d, FdmModel.dz m (fst (edge (m := m) idb)) idb = Ok d).
  { destruct (cell_of Km _ Ie) as (c & Ic & Ec). destruct Fm as (c' & (Gc & _) & _ & Ec'). rewrite Ec, Ec'. rewrite (dz_ok Km); eauto. now apply interior_in_grid; [apply (md_wf Km)|]. }
  destruct Ed as (d & Ed). unfold update_boundary.
  rewrite (mbind_run _ _ _ (m, s) (edge (m := m) idb)) by (unfold mread; cbn [fst snd]; now rewrite Ee).
  destruct (at2_ok (s_p s) (s_tstep s) (fst (edge (m := m) idb)) n) as (p & Ep); [lia|auto|apply (ids_range K); now rewrite <- Ei|].
  rewrite (mbind_run _ _ _ (m, s) p) by (unfold mread; cbn [fst snd]; now rewrite Ep).
  assert (B : exists b, b_num m (fst (edge (m := m) idb)) idb p (snd (edge (m := m) idb)) = Ok b).
  { unfold b_num. rewrite Ev. replace (smem (lower "pressure") PRESS) with true by reflexivity. rewrite Ed. cbn [rbind]. eauto. }
  destruct B as (b & Eb). rewrite (mbind_run _ _ _ (m, s) b) by (unfold mread; cbn [fst snd]; now rewrite Eb).
  apply (okt_put T idb b); auto. now apply (face_range K).
Qed.
Lemma t_boundaries T : tot (okt T) update_boundaries (fun _ => okt T).
Proof.
  unfold update_boundaries. apply t_bind with (Q := fun ids X => okt T X /\ ids = pressured Bd).
  { apply t_read. intros X H. eexists. split; [reflexivity|]. split; auto. apply H. }
  intros ids X (H & ->). refine (t_iter update_boundary (pressured Bd) (okt T) _ X H). intros a Ia. now apply t_boundary.
Qed.

(** ** One well *)
Definition okw T id (w : well R) (X : st R) : Prop := okt T X /\ dget id (b_wells (fst X)) = Some w.
Lemma okm_set m id w : okm m -> In id ks -> fit w -> okm (set_wells (dset id w (b_wells m)) m).
Proof.
  intros (H1 & H2 & H3 & H4 & H5) I F. unfold TotalFacts.okm. rewrite core_wells, wells_set_wells. split; auto. split; [|split].
  - rewrite dkeys_dset; auto. apply dget_keys. now rewrite H2.
  - intros j w' E. rewrite dget_dset_z in E. destruct (Z.eqb j id); [injection E as <-; auto|eauto].
  - destruct m; auto.
Qed.
Lemma t_upd T id w f : In id ks -> fit (f w) -> tot (okw T id w) (upd_wells id f) (fun _ => okw T id (f w)).
Proof.
  intros I F. unfold upd_wells. apply t_set. intros [m s] ((H1 & H2) & E). cbn [fst snd] in *. unfold dgetE. rewrite E. cbn [rbind]. eexists. split; [reflexivity|].
  split; [split; [now apply okm_set|exact H2]|]. cbn [fst]. rewrite wells_set_wells. apply dget_dset_same.
Qed.
Lemma t_well T id : In id ks -> tot (okt T) (update_well id) (fun _ => okt T).
Proof.
  intros I. unfold update_well. apply t_bind with (Q := fun w => okw T id w).
  { apply t_read. intros [m s] H. pose proof H as (Hm & _). destruct (well_of_key Bd ks m id Hm I) as (w & E & F). exists w. unfold dgetE. cbn [fst]. rewrite E. split; auto. split; auto. }
  intros w. apply t_bind with (Q := fun p X => okw T id w X /\ fit w).
  { apply t_read. intros [m s] H. pose proof H as ((Hm & Hs & _) & E). cbn [fst snd] in *. destruct Hs as ((W1 & W2 & Fp & Fr) & Sh & Sh').
    destruct (at2_ok (s_p s) (s_tstep s) id n) as (p & ->); [lia|auto|apply (ids_range K); auto|]. exists p. split; auto. split; auto. eapply Hm; eauto. }
  intros p. apply t_bind with (Q := fun est X => (okw T id w X /\ fit w) /\ (w_qsp w = None -> exists lim, w_pwfsp w = Some lim /\ est = Some lim)).
  { apply t_read. intros [m s] (H & F). destruct (fit_fields w F) as (c & G & pf & lim & E1 & E2 & _ & E3 & E4 & E5 & _). destruct (w_qsp w) as [qsp|] eqn:Eq.
    - rewrite E2. cbn [keyE rbind]. eexists. split; [reflexivity|]. split; auto. discriminate.
    - rewrite E3. cbn [keyE]. eexists. split; [reflexivity|]. split; auto. intros _. exists lim. auto. }
  intros est. apply t_bind with (Q := fun lim X => okw T id w X /\ fit w /\ w_pwfsp w = Some lim /\ (w_qsp w = None -> est = Some lim)).
  { apply t_read. intros X ((H & F) & Q). destruct (fit_fields w F) as (c & G & pf & lim & E1 & E2 & _ & E3 & E4 & E5 & _). rewrite E4. cbn [keyE]. exists lim. split; auto. split; auto. split; auto. split; auto.
    intros Eq. destruct (Q Eq) as (l & El & ->). congruence. }
  intros lim. apply t_bind with (Q := fun rb X => exists w', okw T id w' X /\ fit w' /\ w_qsp w' = w_qsp w /\ w_pwfsp w' = Some lim /\ (w_qsp w = None -> snd rb = Some lim)).
  { intros X (H & F & El & Eest).
    assert (Qc : forall c, w_qsp (with_con c w) = w_qsp w /\ w_pwfsp (with_con c w) = w_pwfsp w) by (destruct w; auto).
    destruct (fltb (Some lim) est) eqn:Ef.
    - destruct (t_upd T id w (with_con (Some "q"%string)) I (fit_con w _ F) X H) as (X' & [] & E & H'). rewrite (mbind_run _ _ _ _ _ E).
      exists X', (false, est). split; auto. exists (with_con (Some "q"%string) w). destruct (Qc (Some "q"%string)) as (Q1 & Q2). rewrite Q1, Q2. split; auto using fit_con.
    - assert (B : exists b, (if fltb est (Some lim) then let* q := keyE (w_q w) in let* qsp := keyE (w_qsp w) in Ok (feqb q (Some qsp)) else Ok false) = Ok b).
      { destruct (fltb est (Some lim)) eqn:Ef2; [|eauto]. destruct (fit_fields w F) as (_ & _ & _ & _ & _ & _ & _ & _ & _ & _ & Hq). destruct (w_qsp w) as [qsp|].
        - destruct Hq as (q & ->); [discriminate|]. cbn. eauto.
        - rewrite (Eest eq_refl) in Ef2. cbn in Ef2. unfold Rltb in Ef2. destruct (Rlt_dec lim lim); [lra|discriminate]. }
      destruct B as (b & Eb). rewrite (mbind_run _ _ _ X b) by (unfold mread; now rewrite Eb).
      destruct (t_upd T id w (with_con (Some "pwf"%string)) I (fit_con w _ F) X H) as (X' & [] & E & H'). rewrite (mbind_run _ _ _ _ _ E).
      exists X', (b, Some lim). split; auto. exists (with_con (Some "pwf"%string) w). destruct (Qc (Some "pwf"%string)) as (Q1 & Q2). rewrite Q1, Q2. split; auto using fit_con. }
  intros rb. apply t_bind with (Q := fun _ X => exists w', okw T id w' X /\ fit w').
  { intros X (w' & H & F & E1 & E2 & E3). assert (F' : fit (with_pwf_est (snd rb) w')). { apply fit_pwf; auto. rewrite E1, E2. intros Eq. now rewrite (E3 Eq). }
    destruct (t_upd T id w' (with_pwf_est (snd rb)) I F' X H) as (X' & a & E & H'). exists X', a. split; eauto. }
  intros []. apply t_bind with (Q := fun _ X => exists w', okw T id w' X /\ fit w').
  { apply t_read. intros [m s] (w' & (H & E) & F). cbn [fst snd] in *. unfold dgetE. rewrite E. cbn [rbind]. destruct (w_num_ok m w' p F) as (q & ->). exists q. split; auto. exists w'. split; auto. split; auto. }
  intros q. apply t_bind with (Q := fun _ X => okt T X).
  { eapply t_weak; [apply (okt_put T id q); apply (ids_range K); auto| |auto]. intros X (w' & (H & _) & _). exact H. }
  intros []. apply t_bind with (Q := fun _ X => okt T X); [|intros []; now apply t_ret].
  intros [m s] H. pose proof H as (Hm & _). cbn [fst snd] in *. destruct (well_of_key Bd ks m id Hm I) as (w' & E & F).
  destruct (t_upd T id w' (with_q_est q) I (fit_q _ _ F) (m, s) (conj H E)) as (X' & a & E' & H'). exists X', a. split; auto. apply H'.
Qed.
Lemma t_wloop T l : forall acc, (forall id, In id l -> In id ks) ->
  tot (okt T) (update_wells_loop l acc) (fun t X => okt T X /\ forall d, t = Some d -> (forall id, In id l \/ dget id acc <> None -> dget id d <> None)).
Proof.
  induction l as [|i l IH]; intros acc H; cbn [update_wells_loop].
  - apply t_ret. intros X HX. split; auto. intros d E id [[]|Hd]. injection E as <-. exact Hd.
  - eapply t_bind; [apply t_well, H; now left|]. intros [b p]. cbn [fst snd]. destruct b; [apply t_ret; intros X HX; split; [exact HX|discriminate]|].
    eapply t_weak; [apply IH; intros; apply H; now right|auto|]. intros t X (H1 & H2). split; auto. intros d E id Hd. apply (H2 d E). rewrite dget_dset_z.
    destruct Hd as [[->|Hd]|Hd]; auto; [right; rewrite Z.eqb_refl; discriminate|]. right. destruct (Z.eqb id i); [discriminate|auto].
Qed.
Lemma t_wells T : tot (okt T) update_wells (fun _ => okt T).
Proof.
  unfold update_wells. apply t_bind with (Q := fun ids X => okt T X /\ ids = ks).
  { apply t_read. intros X H. eexists. split; [reflexivity|]. split; auto. apply H. }
  intros ids X (H & ->). revert X H. eapply t_bind; [apply t_wloop; auto|]. intros [d|]; cbv beta.
  - apply t_bind with (Q := fun _ => okt T); [|intros []; now apply t_ret].
    intros X (H & Hd). refine (t_iter _ ks (okt T) _ X H). intros id I. apply t_set. intros [m s] H'. unfold dgetE.
    pose proof (Hd d eq_refl id (or_introl I)) as Q. destruct (dget id d) as [p|]; [|congruence]. cbn [rbind fst snd]. eexists. split; [reflexivity|].
    destruct H' as (Hm & Hs). split; [|exact Hs]. cbn [fst snd] in *. destruct m. exact Hm.
  - apply t_ret. intros X (H & _). exact H.
Qed.
Lemma t_MB T : tot (okt T) check_MB (fun _ X => okt T X /\ s_err (snd X) <> None).
Proof.
  unfold check_MB. apply t_set. intros [m s] H. pose proof H as (Hm & Hs & HA & Hg & HT). cbn [fst snd] in *. pose proof Hs as ((W1 & W2 & Fp & Fr) & Sh & Sh').
  destruct (okm_grid Bd ks m Hm) as (Eg & Ei). pose proof (okm_model K Bd ks m Hm) as Km.
  destruct (row_ok (s_r s) (s_tstep s) n) as (r & -> & _); [lia|auto|]. cbn [rbind]. destruct (b_cmp m).
  - rewrite Ei. destruct (at_ids_all K (b_RHS m)) as (rhs & -> & L1); [rewrite (md_RHS _ _ _ _ _ _ _ _ Km); now rewrite Eg|]. cbn [rbind].
    destruct (row_ok (s_p s) (s_tstep s) n) as (rp & -> & L2); [lia|auto|]. cbn [rbind]. destruct (at_ids_all K rp L2) as (p & -> & _). cbn [rbind].
    destruct (row_ok (s_p s) (if s_tstep s =? 0 then length (s_p s) - 1 else s_tstep s - 1) n) as (rq & -> & L3); [destruct (s_tstep s =? 0); lia|auto|]. cbn [rbind]. destruct (at_ids_all K rq L3) as (q & -> & _). cbn [rbind].
    destruct (row_ok (s_p s) 0 n) as (ri & -> & L4); [lia|auto|]. cbn [rbind]. destruct (at_ids_all K ri L4) as (i & -> & _). cbn [rbind]. cbv zeta.
    eexists. split; [reflexivity|]. destruct s. split; [exact H|discriminate].
  - eexists. split; [reflexivity|]. destruct s. split; [exact H|discriminate].
Qed.
Lemma t_rows A d p T : length p = N -> tot (okt T) (new_rows A d p) (fun _ => okt (S T)).
Proof.
  intros Lp [m s] H. pose proof H as (Hm & Hs & HA & Hg & HT). cbn [fst snd] in *. pose proof Hs as ((W1 & W2 & Fp & Fr) & Sh & Sh').
  destruct (okm_grid Bd ks m Hm) as (Eg & Ei).
  assert (Ll : length (last (s_p s) []) = n) by now apply last_full.
  destruct (set_many_ok (b_ids m) p (last (s_p s) [])) as (row & Er); [rewrite Ei; lia|intros id I; rewrite Ei in I; rewrite Ll; now apply (ids_range K)|].
  assert (E : exists X, new_rows A d p (m, s) = (X, Ok tt)).
  { unfold new_rows, mbind, mset. cbn [fst snd]. destruct s as [a1 a2 a3 a4 a5 a6 a7 a8 a9 a10 a11 a12]. cbn [set_p set_tstep s_p s_tstep s_r fst snd] in *. unfold row_at.
    rewrite <- Sh, nth_error_last. cbn [rbind]. rewrite Er. cbn [rbind]. eexists. reflexivity. }
  destruct E as (X & E). exists X, tt. split; auto. destruct (rows_ok _ _ _ _ _ _ (conj Sh Sh') E) as (row' & R1 & R2 & R3 & R4 & R5 & R6 & R7 & _).
  destruct R3 as (Q1 & _ & Q3 & _). rewrite R1 in Er. injection Er as <-.
  split; [now rewrite R2|]. split; [|split; [unfold TotalFacts.hasA; now rewrite R5|split; [unfold got; now rewrite R7|rewrite Q3, <- HT; exact Sh']]].
  split; [|unfold shaped; rewrite Q1, R4, Q3, !app_length; cbn [length]; lia].
  unfold wideF. rewrite Q1, R4. split; [intros Q; now apply app_eq_nil in Q|]. split; [intros Q; now apply app_eq_nil in Q|]. split; apply Forall_app; (split; [auto|constructor; [|constructor]]).
  - rewrite (set_many_length _ _ _ _ R1). exact Ll.
  - now apply last_full.
Qed.
Lemma drop_okt T X : okt (S T) X -> okt T (fst X, drop_rows (snd X)).
Proof.
  intros (Hm & ((W1 & W2 & Fp & Fr) & Sh & Sh') & HA & Hg & HT). split; [exact Hm|]. destruct X as [m s]. cbn [fst snd] in *. destruct s as [a1 a2 a3 a4 a5 a6 a7 a8 a9 a10 a11 a12]. cbn in *. subst.
  assert (Q : forall l : list (list (fl R)), length l = S (S T) -> firstn (S T) l <> [] /\ length (firstn (S T) l) = S T).
  { intros l L. assert (L' : length (firstn (S T) l) = S T) by (rewrite firstn_length; lia). split; auto. intros E. rewrite E in L'. discriminate. }
  destruct (Q _ Sh), (Q _ Sh'). split; [|split; [exact HA|split; [exact Hg|cbn; lia]]]. split.
  - unfold wideF. cbn [s_p s_r]. repeat split; auto; rewrite Forall_forall in *; intros r Hr; [apply Fp|apply Fr]; rewrite <- (firstn_skipn (S T)); apply in_or_app; now left.
  - unfold shaped. cbn [s_p s_r s_tstep drop_rows set_tstep set_p set_r]. replace (S T - 1) with T by lia. auto.
Qed.

(** ** A step *)
Lemma pick_known sparse iso : known sparse iso -> exists k, pick_solver sparse iso = Ok k.
Proof.
  intros H. unfold pick_solver. destruct sparse; [|eauto]. destruct H as [H|H]; [discriminate|]. destruct iso as [nm|]; [|eauto].
  destruct H as [->|H]; [eauto|]. assert (E : smem nm ISOLVERS = true) by (unfold smem; apply existsb_exists; exists nm; split; auto; apply String.eqb_refl).
  rewrite E. destruct nm; eauto.
Qed.
Section solver.
Context (slv : solver_kind -> @mat R -> list (fl R) -> res (list (fl R))) (sc : Z -> R) (sparse : bool) (Cs : complete slv).
Notation ok1 := (fun X : st R => okm (fst X) /\ oks (snd X) /\ asm (snd X)).
Notation gfx := (gfix slv (b_ids m0)).
Lemma okt_ok1 T X : okt T X -> ok1 X.
Proof. intros (H1 & H2 & H3 & H4 & _). split; auto. split; auto. right. right. auto. Qed.
Lemma solve_total fuel : forall o X, ok1 X -> o_vect o = true -> o_print o = false -> known sparse (o_iso o) ->
  exists X' r, solve slv sc fuel sparse o X = (X', r) /\ ok1 X' /\ (r = Ok tt \/ r = Err RecursionError) /\
    (r = Ok tt -> o_mb o = true -> o_upd o = true -> s_err (snd X') <> None) /\
    (r = Ok tt -> o_upd o = true -> exists T, okt (S T) X') /\
    (gfx (fst X) -> askers (b_wells (fst X)) < fuel -> r = Ok tt).
Proof.
  induction fuel as [|fuel IH]; intros o [m s] H Ov Op Ki.
  { eexists; eexists. split; [reflexivity|]. split; [exact H|]. split; [auto|]. split; [discriminate|]. split; [discriminate|]. intros _ Q. lia. }
  cbn [solve]. pose proof H as (Hm & Hs & Ha). cbn [fst snd] in *. destruct (t_vect K Bd Bn Ba ks Hks (m, s) (conj (conj Hm Hs) Ha)) as ([m1 s1] & [A d] & E1 & H1 & LA & Ld). cbn [fst snd] in LA, Ld.
  assert (E1' : get_system sc o (m, s) = ((m1, s1), Ok (A, d))) by (unfold get_system; now rewrite Op, Ov).
  rewrite (mbind_run _ _ _ _ _ E1'). cbn [fst snd]. destruct (pick_known sparse (o_iso o) Ki) as (k & Ek). destruct (Cs k A d) as (p & E2 & Lp); [congruence|].
  rewrite (mbind_run _ _ _ (m1, s1) p) by (unfold mread; rewrite Ek; cbn [rbind]; now rewrite E2).
  assert (Hk : okt (s_tstep s) (m1, s1)).
  { pose proof (system_pub sc o (m, s)) as P. rewrite E1' in P. cbn [fst snd] in P. unfold pub, results in P. cbn [fst snd] in P. assert (s_tstep s1 = s_tstep s) by congruence.
    destruct H1 as (Q1 & Q2 & Q3 & Q4). exact (conj Q1 (conj Q2 (conj Q3 (conj Q4 H0)))). }
  destruct (o_upd o) eqn:Eu.
  2:{ eexists; eexists. split; [reflexivity|]. split; [exact (okt_ok1 _ _ Hk)|]. split; [auto|]. split; [discriminate|]. split; [discriminate|]. auto. }
  destruct (t_rows A d p (s_tstep s) (eq_trans Lp LA) (m1, s1) Hk) as (X3 & [] & E3 & H3). rewrite (mbind_run _ _ _ _ _ E3).
  destruct (t_boundaries _ X3 H3) as (X4 & [] & E4 & H4). rewrite (mbind_run _ _ _ _ _ E4).
  destruct (t_wells _ X4 H4) as (X5 & again & E5 & H5). rewrite (mbind_run _ _ _ _ _ E5).
  destruct again; cbn [mwhen].
  - assert (Er : (do _ <- (do _ <- mset (fun x0 : st R => Ok (fst x0, drop_rows (snd x0))) ;; solve slv sc fuel sparse (mkOpts (o_thr o) (o_vect o) false true false (Some "cgs"%string))) ;; mwhen (o_mb o) check_MB) X5 =
      (do _ <- solve slv sc fuel sparse (mkOpts (o_thr o) (o_vect o) false true false (Some "cgs"%string)) ;; mwhen (o_mb o) check_MB) (fst X5, drop_rows (snd X5))) by reflexivity.
    rewrite Er. clear Er. pose proof (okt_ok1 _ _ (drop_okt _ _ H5)) as H6.
    destruct (IH (mkOpts (o_thr o) (o_vect o) false true false (Some "cgs"%string)) _ H6) as (X7 & r & E7 & H7 & Hr & _ & Hb & Hf); [exact Ov|reflexivity|right; right; cbn; auto 10|].
    cbn [o_upd] in Hb. assert (Hf' : gfx m -> askers (b_wells m) < S fuel -> r = Ok tt).
    { intros Gf La. destruct Hs as (_ & Sh). destruct (prefix_ok sc _ _ _ _ _ _ _ _ _ _ Sh E1' E3 E4) as (row & R1 & R4 & W4). pose proof R4 as (_ & _ & _ & _ & _ & C4 & _).
      assert (Gi : b_ids m = b_ids m0) by apply Gf. rewrite Gi in R1. destruct (ids_facts K) as (Nd & Pr & _).
      destruct (pass_askers slv (b_ids m0) Nd ltac:(intros; now apply Pr) m s k A d p row X5 true Gf E2 R1 Sh X4 _ _ _ _ _ _ R4 (proj2 Sh) C4 W4 E5) as (P1 & P2).
      apply Hf; cbn [fst snd]; [|specialize (P2 eq_refl); lia]. pose proof (ta_update_wells _ _ _ _ _ _ _ X4 R4) as R5. rewrite E5 in R5. cbn [fst snd] in R5.
      apply (gfix_fix slv (b_ids m0) m); auto; [symmetry; apply R5|]. pose proof (fx_wells (fixm (b_wells m)) X4) as Q. rewrite E5 in Q. symmetry. apply Q. unfold fx. unfold wellsof in W4. congruence. }
    destruct Hr as [-> | ->].
    + rewrite (mbind_run _ _ _ _ _ E7). destruct (Hb eq_refl eq_refl) as (T & HT). destruct (o_mb o); cbn [mwhen].
      * destruct (t_MB _ X7 HT) as (X8 & [] & E8 & H8 & H8'). exists X8, (Ok tt). split; [exact E8|]. split; [exact (okt_ok1 _ _ H8)|]. split; auto. split; auto. split; eauto.
      * exists X7, (Ok tt). split; [reflexivity|]. split; auto. split; auto. split; [discriminate|]. split; eauto.
    + exists X7, (Err RecursionError). split; [unfold mbind; now rewrite E7|]. split; auto. split; auto. split; [discriminate|]. split; [discriminate|]. exact Hf'.
  - rewrite (mbind_run _ _ _ X5 tt) by reflexivity. destruct (o_mb o); cbn [mwhen].
    + destruct (t_MB _ X5 H5) as (X8 & [] & E8 & H8 & H8'). exists X8, (Ok tt). split; [exact E8|]. split; [exact (okt_ok1 _ _ H8)|]. split; auto. split; auto. split; eauto.
    + exists X5, (Ok tt). split; [reflexivity|]. split; [exact (okt_ok1 _ _ H5)|]. split; auto. split; [discriminate|]. split; eauto.
Qed.
End solver.
End total.
