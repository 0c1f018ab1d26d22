(** Facts on rows, numpy's np_arange, repeat and tile, and data frames. *)
From Coq Require Import String ZArith Bool Arith List Lia Reals Lra.
From Verif Require Import Prelude PreludeFacts Num GridModel GridSpec GeoModel GeoSpec PropModel UnitsModel BlackOilModel FdmModel
  MonadFacts HistSpec InvFacts StepSpec StepFacts FrameModel FrameSpec.
Import ListNotations.
Close Scope R_scope.
Open Scope nat_scope.

(** ** Rows *)
Section rows.
Context {F : Type} {NF : Num F} {NT : NumT F}.
Variable n : nat.
Notation full := (fun row : list (fl F) => length row = n).
Definition wideF (s : fs F) : Prop := s_p s <> [] /\ s_r s <> [] /\ Forall full (s_p s) /\ Forall full (s_r s).
Definition wide (x : ws F) : Prop :=
  length (b_ip (fst x)) = n /\ length (b_ir (fst x)) = n /\ forall s, snd x = Some s -> wideF s.

Lemma Forall_upd {A} (P : A -> Prop) l i a : Forall P l -> P a -> Forall P (upd l i a).
Proof. intros H Ha. revert i. induction H; intros [|i]; cbn; constructor; auto. Qed.
Lemma upd_nonempty {A} (l : list A) i a : l <> [] -> upd l i a <> [].
Proof. destruct l, i; cbn; congruence. Qed.
Lemma set2_full rows t id (v : fl F) rows' : rows <> [] -> Forall full rows -> set2 rows t id v = Ok rows' -> rows' <> [] /\ Forall full rows'.
Proof.
  unfold set2. intros Ne H E. destruct (nth_error rows t) as [row|] eqn:Et; [|discriminate].
  destruct (pyset row id v) as [row'|] eqn:Er; cbn [rbind] in E; [|discriminate]. inversion E; subst.
  split; [now apply upd_nonempty|]. apply Forall_upd; auto. apply pyset_length in Er. rewrite Er.
  rewrite Forall_forall in H. apply H. now apply nth_error_In in Et.
Qed.
Lemma last_full (rows : list (list (fl F))) : rows <> [] -> Forall full rows -> length (last rows []) = n.
Proof. intros Ne H. rewrite Forall_forall in H. apply H. rewrite (app_removelast_last [] Ne) at 2. apply in_or_app. right. now left. Qed.
Lemma set_many_length {A} ids (vs : list A) : forall row row', set_many ids vs row = Ok row' -> length row' = length row.
Proof.
  intros row row' E. unfold set_many in E. destruct (_ =? _); [|discriminate]. revert E.
  assert (H : forall l (r : res (list A)) row', fold_left (fun r iv => let* l := r in pyset l (fst iv) (snd iv)) l r = Ok row' -> exists row0, r = Ok row0 /\ length row' = length row0).
  { induction l as [|[i v] l IH]; cbn [fold_left]; intros r row1 E.
    - destruct r; [|discriminate]. inversion E; subst. eauto.
    - apply IH in E as (row0 & E & L). destruct r as [r|]; [|discriminate]. cbn [rbind fst snd] in E. exists r. split; auto. apply pyset_length in E. congruence. }
  intros E. apply H in E as (row0 & E & L). inversion E; now subst.
Qed.

Ltac open := apply i_set; intros [m o] [m' o'] (H1 & H2 & H3) E; cbn [fst snd] in *.
Ltac kp := solve [assumption|match goal with x : bo _ |- _ => destruct x; assumption end].
Ltac kept := split; [kp|split; [kp|auto]].
Lemma w_upd_well id f : inv wide (upd_well id f).
Proof. unfold upd_well. open. fin. kept. Qed.
Lemma w_log id : inv wide (log_pressure id).
Proof. unfold log_pressure. open. fin. kept. Qed.
Lemma w_tail id : inv wide (set_well_tail id).
Proof. unfold set_well_tail. isplit; auto using w_upd_well, w_log. Qed.
Lemma w_set_well cell q pwf r s : inv wide (set_well cell q pwf r s).
Proof.
  unfold set_well, assert_inside. destruct cell as [id|]; [|apply i_read]. isplit; auto using w_upd_well, w_log, w_tail.
  open. destruct (din id (b_wells m)); inversion E; subst; kept.
Qed.
Lemma w_set_well_obj w cell : inv wide (set_well_obj w cell).
Proof.
  unfold set_well_obj, assert_inside. isplit; auto using w_tail. open. fin. kept.
Qed.
Lemma w_put_p id v : inv wide (put_pressure id v).
Proof.
  unfold put_pressure. open. destruct o as [s|]; [destruct (s_tstep s =? 0)|]; fin.
  1,3: (apply pyset_length in Heqr; split; [destruct m; cbn in *; congruence|split; [now destruct m|auto]]).
  split; auto. split; auto. intros s' Es. inversion Es; subst. destruct (H3 s eq_refl) as (A & B & C & D).
  destruct (set2_full _ _ _ _ _ A C Heqr). destruct s; repeat split; auto.
Qed.
Lemma w_put_q id v : inv wide (put_rate id v).
Proof.
  unfold put_rate. open. destruct o as [s|]; [destruct (s_tstep s =? 0)|]; fin.
  1,3: (apply pyset_length in Heqr; split; [now destruct m|split; [destruct m; cbn in *; congruence|auto]]).
  split; auto. split; auto. intros s' Es. inversion Es; subst. destruct (H3 s eq_refl) as (A & B & C & D).
  destruct (set2_full _ _ _ _ _ B D Heqr). destruct s; repeat split; auto.
Qed.
Lemma w_boundary id c v : inv wide (set_boundary id c v).
Proof. unfold set_boundary. isplit; auto using w_put_p, w_put_q. Qed.
Lemma w_boundaries bd : inv wide (set_boundaries bd).
Proof.
  unfold set_boundaries. isplit; try (open; fin; kept; fail).
  destruct a1 as [id [c v]]. isplit. apply w_boundary.
Qed.
Lemma w_all c v : inv wide (set_all_boundaries c v).
Proof. unfold set_all_boundaries. isplit. apply w_boundary. Qed.

(** Steps: also at least [k] steps have been begun. *)
Definition wst (k : nat) (x : st F) : Prop :=
  length (b_ip (fst x)) = n /\ length (b_ir (fst x)) = n /\ wideF (snd x) /\ k <= s_tstep (snd x).
Lemma pub_wst k x y : pub x = pub y -> wst k x -> wst k y.
Proof.
  destruct x as [m s], y as [m' s']. unfold pub, settings, results, wst, wideF. cbn [fst snd]. intros E.
  inversion E as [[E0 E1 E2 E3 E4 E5 E6 E7 E8 E9 E10 E11 E12 E13 E14]]. rewrite E1, E2, E7, E8, E10. auto.
Qed.
Lemma w_system k sc o : inv (wst k) (get_system sc o).
Proof. intros x H. eapply pub_wst; [symmetry; apply system_pub|exact H]. Qed.
Lemma w_put_r k id v : inv (wst k) (put_r id v).
Proof.
  unfold put_r. apply i_set. intros [m s] [m' s'] (H1 & H2 & (A & B & C & D) & Hk) E. fin.
  destruct (set2_full _ _ _ _ _ B D Heqr). split; auto. split; auto. split; destruct s; [repeat split; auto|auto].
Qed.
Lemma w_wells k id f : inv (wst k) (upd_wells id f).
Proof. unfold upd_wells. apply i_set. intros [[] s] [? ?] Hx E. fin. exact Hx. Qed.
Lemma w_ub k : inv (wst k) update_boundaries.
Proof. unfold update_boundaries, update_boundary. isplit; auto using w_put_r. Qed.
Lemma w_update_well k id : inv (wst k) (update_well id).
Proof. unfold update_well. isplit; auto using w_put_r, w_wells. Qed.
Lemma w_uloop k l : forall acc, inv (wst k) (update_wells_loop l acc).
Proof. induction l as [|i l IH]; intros acc; cbn [update_wells_loop]; isplit; auto using w_update_well. Qed.
Lemma w_update_wells k : inv (wst k) update_wells.
Proof.
  unfold update_wells. isplit; auto using w_uloop. destruct a0; isplit. apply i_set. intros [[] s] [? ?] Hx E. fin. exact Hx.
Qed.
Lemma w_MB k : inv (wst k) check_MB.
Proof.
  unfold check_MB. apply i_set. intros [m []] [? ?] Hx E. cbn [fst snd] in *. destruct (b_cmp m); fin; exact Hx.
Qed.
Lemma wst_le k k' x : k' <= k -> wst k x -> wst k' x.
Proof. intros L (A & B & C & D). repeat split; auto; try apply C. lia. Qed.
Lemma app_full (rows : list (list (fl F))) : rows <> [] -> Forall full rows -> rows ++ [last rows []] <> [] /\ Forall full (rows ++ [last rows []]).
Proof.
  intros Ne H. split; [intros E; now apply app_eq_nil in E as (_ & ?)|]. apply Forall_app. split; auto. constructor; auto. now apply last_full.
Qed.
Lemma w_rows k A d p x : wst k x -> wst (S k) (fst (new_rows A d p x)) .
Proof.
  intros H. unfold new_rows. unfold mbind at 1. unfold mset at 1. cbn [fst snd].
  set (x1 := (fst x, _)). assert (H1 : wst (S k) x1).
  { destruct x as [m s], H as (B1 & B2 & (A1 & A2 & A3 & A4) & L). subst x1. cbn [fst snd] in *. destruct (app_full _ A1 A3).
    split; auto. split; auto. destruct s; cbn in *. split; [repeat split; auto|lia]. }
  clearbody x1. revert x1 H1. change (inv (wst (S k)) (mbind (mset (fun x : st F =>
      let s := snd x in
      let* row := row_at (s_p s) (s_tstep s) in
      let* row := set_many (b_ids (fst x)) p row in
      Ok (fst x, set_p (upd (s_p s) (s_tstep s) row) s))) (fun _ =>
  mset (fun x : st F => Ok (fst x, let s := snd x in add_Ad A d (set_r (s_r s ++ [last (s_r s) []])%list s)))))).
  isplit; apply i_set; intros [m s] [m' s'] (B1 & B2 & (A1 & A2 & A3 & A4) & L) E; cbn [fst snd] in *.
  - destruct (row_at (s_p s) (s_tstep s)) as [row|] eqn:E1; cbn [rbind] in E; [|discriminate].
    destruct (set_many (b_ids m) p row) as [row'|] eqn:E2; cbn [rbind] in E; [|discriminate]. inversion E; subst.
    apply set_many_length in E2. unfold row_at in E1. destruct (nth_error (s_p s) (s_tstep s)) eqn:E3; [|discriminate]. inversion E1; subst.
    apply nth_error_In in E3. assert (L3 : length row = n) by (rewrite Forall_forall in A3; auto).
    split; auto. split; auto. split; [|now destruct s]. destruct s; cbn in *. repeat split; auto; [now apply upd_nonempty|]. apply Forall_upd; congruence.
  - inversion E; subst. destruct (app_full _ A2 A4). split; auto. split; auto. destruct s; cbn in *. split; [repeat split; auto|auto].
Qed.
Lemma firstn_full k (rows : list (list (fl F))) : 1 <= k -> rows <> [] -> Forall full rows -> firstn k rows <> [] /\ Forall full (firstn k rows).
Proof.
  intros L Ne H. split; [destruct k, rows; cbn; try congruence; lia|].
  rewrite Forall_forall in *. intros a Ia. apply H. rewrite <- (firstn_skipn k rows). apply in_or_app. now left.
Qed.
Lemma w_drop : forall x : st F, wst 1 x -> wst 0 (fst x, drop_rows (snd x)).
Proof.
  intros [m s] (B1 & B2 & (A1 & A2 & A3 & A4) & L). unfold drop_rows. cbn [fst snd] in *.
  destruct (firstn_full _ _ L A1 A3), (firstn_full _ _ L A2 A4). split; auto. split; auto. destruct s; cbn in *. split; [repeat split; auto|lia].
Qed.
Section solver.
Context (slv : solver_kind -> @mat F -> list (fl F) -> res (list (fl F))) (sc : Z -> F).
Lemma w_solve fuel sparse : forall o, inv (wst 0) (solve slv sc fuel sparse o).
Proof.
  induction fuel as [|fuel IH]; intros o; cbn [solve]; [apply i_read|].
  apply i_bind; [apply w_system|]. intros Ad. apply i_bind; [apply i_read|]. intros p. apply i_if; [|apply i_ret].
  intros x Hx. unfold mbind at 1. pose proof (w_rows 0 (fst Ad) (snd Ad) p x Hx) as H1.
  destruct (new_rows (fst Ad) (snd Ad) p x) as [x1 [[]|e]]; cbn [fst] in H1; [|now apply wst_le with 1; [lia|]].
  unfold mbind at 1. pose proof (w_ub 1 x1 H1) as H2. destruct (update_boundaries x1) as [x2 [[]|e]]; cbn [fst] in H2; [|now apply wst_le with 1; [lia|]].
  unfold mbind at 1. pose proof (w_update_wells 1 x2 H2) as H3. destruct (update_wells x2) as [x3 [b|e]]; cbn [fst] in H3; [|now apply wst_le with 1; [lia|]].
  assert (H4 : forall x, wst 0 x -> wst 0 (fst (mwhen (o_mb o) check_MB x))) by (apply i_when, w_MB).
  unfold mbind at 1. destruct b; cbn [mwhen].
  - unfold mbind at 1. unfold mset at 1. apply w_drop in H3.
    pose proof (IH (mkOpts (o_thr o) (o_vect o) false true false (Some "cgs"%string)) _ H3) as H5.
    destruct (solve _ _ _ _ _ _) as [x4 [[]|e]]; cbn [fst] in H5; auto.
  - cbn [mret]. apply H4. now apply wst_le with 1; [lia|].
Qed.
Lemma w_run k fuel sparse thr vect mb pr iso : inv (wst 0) (run slv sc k fuel sparse thr vect mb pr iso).
Proof.
  unfold run. isplit.
  - apply i_set. intros [m s] [m' s'] Hx E. fin. destruct s; exact Hx.
  - assert (H : forall k o, inv (wst 0) (run_loop slv sc k fuel sparse o)); [|apply H].
    induction k0 as [|j IH]; intros o; cbn [run_loop]; isplit; auto using w_solve.
Qed.
End solver.
Lemma w_exec c : inv wide (exec c).
Proof.
  destruct c; cbn [exec]; auto using w_set_well, w_set_well_obj, w_boundary, w_boundaries, w_all.
  - open. inversion E; subst. split; auto. split; auto. intros s Es. inversion Es; subst.
    unfold fdm_new. repeat split; cbn; try congruence; constructor; auto.
  - intros [m [s|]] (H1 & H2 & H3); unfold of_solution; cbn [fst snd]; [|repeat split; auto; apply (H3 s H)].
    assert (Hx : wst 0 (m, s)) by (split; [|split; [|split]]; auto; lia).
    pose proof (w_solve slv sc fuel sparse o (m, s) Hx) as (A & B & C & D).
    destruct (solve slv sc fuel sparse o (m, s)) as [y r]. cbn [fst snd] in *. split; auto. split; auto. intros s' Es. now inversion Es; subst.
  - intros [m [s|]] (H1 & H2 & H3); unfold of_solution; cbn [fst snd]; [|repeat split; auto; apply (H3 s H)].
    assert (Hx : wst 0 (m, s)) by (split; [|split; [|split]]; auto; lia).
    pose proof (w_run slv sc n0 fuel sparse thr vect mb pr iso (m, s) Hx) as (A & B & C & D).
    destruct (run slv sc n0 fuel sparse thr vect mb pr iso (m, s)) as [y r]. cbn [fst snd] in *. split; auto. split; auto. intros s' Es. now inversion Es; subst.
Qed.
Lemma w_after l : forall x, wide x -> wide (after x l).
Proof. induction l as [|c l IH]; intros x Hx; cbn [after fold_left]; auto. apply IH. now apply (w_exec c). Qed.
Lemma wide_rows x : wide x -> rows_of n x.
Proof. intros (A & B & C). split; auto. split; auto. intros s Es. destruct (C s Es) as (_ & _ & ? & ?). auto. Qed.
End rows.

Lemma bo_new_wide {F} {NF : Num F} {NT : NumT F} g f unit pi dt (m : bo F) : bo_new g f unit pi dt = Ok m -> wide (get_n (ggrid g) true) (m, None) /\ b_grid m = g /\ b_dt m = dt.
Proof.
  unfold bo_new. intros E. destruct (set_units uobj0 unit) as [u [?|?]]; [|discriminate].
  repeat match goal with H : rbind ?e _ = Ok _ |- _ => destruct e eqn:?; cbn [rbind] in H; [|discriminate] end.
  inversion E; subst. split; auto. split; cbn [fst b_ip]; [|split; cbn [fst b_ir]; [apply repeat_length|discriminate]].
  destruct pi; [apply set_many_length in Heqr2; exact (eq_trans Heqr2 (repeat_length _ _))|inversion Heqr2; subst; apply repeat_length].
Qed.

(** ** numpy *)
Lemma ceil_nat (k : nat) : (- Int_part (- INR k))%Z = Z.of_nat k.
Proof.
  replace (- INR k)%R with (IZR (- Z.of_nat k)) by (rewrite opp_IZR, <- INR_IZR_INZ; reflexivity).
  assert (H : Int_part (IZR (- Z.of_nat k)) = (- Z.of_nat k)%Z); [|lia].
  unfold Int_part. assert (U : up (IZR (- Z.of_nat k)) = (- Z.of_nat k + 1)%Z); [|lia].
  symmetry. apply tech_up; rewrite plus_IZR; lra.
Qed.
Lemma time_vector_R tstep dt : dt <> 0%R -> time_vector tstep dt = Ok (map (fun t => (INR t * dt)%R) (seq 0 (S tstep))).
Proof.
  intros H. unfold time_vector, np_arange. cbn [nmul nofZ Num_R neqb n0 nsub ndiv nceil NumC_R nadd]. unfold Reqb. destruct (Req_EM_T dt 0) as [|_]; [contradiction|].
  replace ((IZR (Z.of_nat (tstep + 1)) * dt - 0) / dt)%R with (INR (tstep + 1)) by (rewrite INR_IZR_INZ; now field).
  rewrite ceil_nat, Nat2Z.id. replace (tstep + 1) with (S tstep) by lia. f_equal. apply map_ext. intros i. rewrite <- INR_IZR_INZ. lra.
Qed.

Lemma nth_error_concat {A} n (a : list (list A)) : 0 < n -> Forall (fun row => length row = n) a -> forall r,
  nth_error (concat a) r = match nth_error a (r / n) with Some row => nth_error row (r mod n) | None => None end.
Proof.
  intros Hn H. induction H as [|row a Hr H IH]; intros r; cbn [concat]; [destruct r, (0 / n); try reflexivity; now destruct (_ / n)|].
  destruct (Nat.lt_ge_cases r n) as [L|L].
  - rewrite Nat.div_small, Nat.mod_small by lia. cbn [nth_error]. apply nth_error_app1. lia.
  - rewrite nth_error_app2 by lia. rewrite Hr, IH.
    assert (E : r = (r - n) + 1 * n) by lia.
    assert (E1 : r / n = S ((r - n) / n)) by (rewrite E at 1; rewrite Nat.div_add by lia; lia).
    assert (E2 : r mod n = (r - n) mod n) by (rewrite E at 1; rewrite Nat.mod_add by lia; lia).
    rewrite E1, E2. reflexivity.
Qed.
Lemma concat_length_full {A} n (a : list (list A)) : Forall (fun row => length row = n) a -> length (concat a) = length a * n.
Proof. induction 1 as [|row a Hr H IH]; cbn [concat length]; auto. rewrite app_length, IH. lia. Qed.
Lemma nth_error_repeat_lt {A} (x : A) m i : i < m -> nth_error (repeat x m) i = Some x.
Proof. revert i. induction m; intros [|i] L; cbn; auto; try lia. apply IHm. lia. Qed.
Lemma np_repeat_nth {A} (l : list A) n r : 0 < n -> nth_error (np_repeat l n) r = nth_error l (r / n).
Proof.
  intros Hn. unfold np_repeat. rewrite flat_map_concat_map, (nth_error_concat n) by (auto; apply Forall_forall; intros row I; apply in_map_iff in I as (x & <- & _); apply repeat_length).
  rewrite nth_error_map. destruct (nth_error l (r / n)); cbn [option_map]; auto. apply nth_error_repeat_lt, Nat.mod_upper_bound. lia.
Qed.
Lemma np_repeat_length {A} (l : list A) n : length (np_repeat l n) = length l * n.
Proof.
  unfold np_repeat. rewrite flat_map_concat_map, (concat_length_full n), map_length; auto.
  apply Forall_forall; intros row I; apply in_map_iff in I as (x & <- & _); apply repeat_length.
Qed.
Lemma np_tile_nth {A} (l : list A) m r : 0 < length l -> r < m * length l -> nth_error (np_tile l m) r = nth_error l (r mod length l).
Proof.
  intros Hn L. unfold np_tile. rewrite flat_map_concat_map, (nth_error_concat (length l)) by (auto; apply Forall_forall; intros row I; now apply in_map_iff in I as (x & <- & _)).
  rewrite nth_error_map. assert (Hd : r / length l < m) by (apply Nat.div_lt_upper_bound; lia).
  rewrite (nth_error_nth' _ 0) by now rewrite seq_length. reflexivity.
Qed.
Lemma np_tile_length {A} (l : list A) m : length (np_tile l m) = m * length l.
Proof.
  unfold np_tile. rewrite flat_map_concat_map, (concat_length_full (length l)), map_length, seq_length; auto.
  apply Forall_forall; intros row I; now apply in_map_iff in I as (x & <- & _).
Qed.
Lemma concat_tile {A} (c : list (list A)) m : concat (np_tile c m) = np_tile (concat c) m.
Proof. unfold np_tile. induction (seq 0 m) as [|i l IH]; cbn [flat_map]; auto. rewrite concat_app, IH. reflexivity. Qed.
Lemma chunk_concat {A} w (c : list (list A)) : Forall (fun row => length row = w) c -> forall i, i < length c -> chunk w i (concat c) = nth i c [].
Proof.
  induction 1 as [|row c Hr H IH]; intros i L; cbn [length] in L; [lia|]. unfold chunk in *. cbn [concat]. destruct i as [|i].
  - cbn [Nat.mul skipn nth]. rewrite <- Hr. rewrite firstn_app, Nat.sub_diag, firstn_all. cbn [firstn]. apply app_nil_r.
  - cbn [nth]. rewrite <- IH by lia. f_equal. rewrite skipn_app. rewrite skipn_all2 by lia. cbn [app]. f_equal. lia.
Qed.
Lemma reshape_concat {A} w (c : list (list A)) : 0 < w -> Forall (fun row => length row = w) c -> reshape_rows w (concat c) = c.
Proof.
  intros Hw H. unfold reshape_rows. rewrite (concat_length_full w) by auto. rewrite Nat.div_mul by lia.
  rewrite <- (map_nth_seq c []) at 2. apply map_ext_in. intros i I. apply in_seq in I. apply chunk_concat; auto. lia.
Qed.

(** ** Frames with the same number of rows *)
Section frames.
Context {F : Type}.
Notation column := (string * list (val F))%type.
Definition same_rows (n : nat) (df : frame F) : Prop := f_rows df = n /\ Forall (fun c : column => length (snd c) = n) (f_cols df).
Lemma fill_full n (c : column) : length (snd c) = n -> fill n c = c.
Proof. intros E. unfold fill. rewrite E, Nat.sub_diag. cbn [repeat]. rewrite app_nil_r. now destruct c. Qed.
Lemma concat_same n (df data : frame F) : same_rows n df -> same_rows n data -> pd_concat df data = mkFrame n (f_cols df ++ f_cols data).
Proof.
  intros (A & B) (C & D). unfold pd_concat. rewrite A, C, Nat.max_id. f_equal. rewrite <- (map_id (_ ++ _)) at 2. apply map_ext_in. intros c I.
  apply fill_full. apply in_app_or in I as [I|I]; [rewrite Forall_forall in B; auto|rewrite Forall_forall in D; auto].
Qed.
Lemma same_app n (df : frame F) cols : same_rows n df -> Forall (fun c : column => length (snd c) = n) cols -> same_rows n (mkFrame n (f_cols df ++ cols)).
Proof. intros (A & B) C. split; auto. cbn. now apply Forall_app. Qed.
End frames.

(** ** Sublists *)
Lemma sublist_refl {A} (l : list A) : sublist l l.
Proof. induction l as [|x l IH]; [constructor|]. now apply sub_keep. Qed.
Lemma sublist_filter {A} f (l : list A) : sublist (filter f l) l.
Proof. induction l as [|x l IH]; cbn; [constructor|]. destruct (f x); [now apply sub_keep|now apply sub_skip]. Qed.
Lemma sublist_trans {A} (l2 l3 : list A) : sublist l2 l3 -> forall l1, sublist l1 l2 -> sublist l1 l3.
Proof. induction 1; intros l1 H'; auto; [apply sub_skip; auto|]. inversion H'; subst; [apply sub_skip|apply sub_keep]; auto. Qed.
