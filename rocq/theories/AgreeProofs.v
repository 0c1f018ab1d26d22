(** Agreement of the matrix and the per-cell geometry factors. *)
From Coq Require Import String ZArith Bool Arith List Lia Reals Lra.
From Verif Require Import Prelude PreludeFacts Num GridModel GridSpec GridProofs GridNeighbors
  GeoModel GeoSpec TabFacts GeoProofs PropModel PropSpec PropProofs TransProofs MatrixProofs.
Import ListNotations.
Close Scope R_scope.
Open Scope nat_scope.

Lemma sumR_zero {A} (t : A -> R) l : (forall a, In a l -> t a = 0%R) -> sumR (map t l) = 0%R.
Proof.
  induction l as [|a l IH]; intros H; simpl; auto. rewrite IH by (intros; apply H; now right).
  rewrite (H a) by now left. lra.
Qed.
Lemma sumR_one {A} (t : A -> R) l a0 : NoDup l -> In a0 l ->
  (forall a, In a l -> a <> a0 -> t a = 0%R) -> sumR (map t l) = t a0.
Proof.
  induction l as [|a l IH]; intros N I H; simpl in *; [tauto|]. inversion N; subst. destruct I as [->|I].
  - rewrite sumR_zero. lra. intros a' Ha'. apply H; auto. intros ->; auto.
  - rewrite IH; auto. rewrite (H a); auto. lra. intros ->; auto.
Qed.

(** Ids of the interior cells, by position. *)
Lemma ids_per_in g : wf g -> get_cells_id g false = Ok (per_in g false (fun i j k => Z.of_nat (idx g i j k))).
Proof.
  intros W. rewrite cells_id_false by auto. f_equal. destruct W as (?&?&?).
  unfold interior_ids, box. rewrite !midsel_seq by auto. unfold per_in. rewrite tab3_flat. cbn [nth count first_cell].
  rewrite flat_map_concat_map, concat_map, map_map, <- flat_map_concat_map. rewrite flat_map_seq_shift. apply flat_map_ext. intros k.
  rewrite flat_map_concat_map, concat_map, map_map, <- flat_map_concat_map. rewrite flat_map_seq_shift. apply flat_map_ext. intros j.
  rewrite map_map. rewrite map_seq_shift. reflexivity.
Qed.

Section agree.
Context (o : gobj R) (x y z : nat) (u : bool) (dx dy dz : dinput R) (K : rock o x y z u dx dy dz).
Let g := gr (geom o).
Let B := fun n => first_cell n false.
Definition zp (i j k : nat) : coord := zc (first_inner (nx g) + i) (first_inner (ny g) + j) (first_inner (nz g) + k).
Let ib := inb o false.

Lemma ib_count i j k : ib i j k <-> i < nx g /\ j < ny g /\ k < nz g.
Proof. reflexivity. Qed.
Lemma zp_interior i j k : wf g -> ib i j k -> interior g (zp i j k).
Proof.
  intros W (Hi & Hj & Hk). apply interior_zc; auto. unfold zp. do 3 eexists. split; [reflexivity|].
  unfold cnt, count in *. cbn [size] in *. destruct W as (?&?&?).
  unfold inn, first_inner. fold g in Hi, Hj, Hk.
  destruct (Nat.ltb_spec 1 (nx g)), (Nat.ltb_spec 1 (ny g)), (Nat.ltb_spec 1 (nz g)); repeat split; lia.
Qed.
Lemma interior_zp c : wf g -> interior g c -> exists i j k, ib i j k /\ c = zp i j k.
Proof.
  intros W I. apply interior_zc in I as (i & j & k & -> & Hi & Hj & Hk); auto.
  exists (i - first_inner (nx g)), (j - first_inner (ny g)), (k - first_inner (nz g)).
  unfold ib, inb, zp, cnt, count. cbn [size]. fold g. destruct W as (?&?&?).
  unfold inn, first_inner in *.
  destruct (Nat.ltb_spec 1 (nx g)), (Nat.ltb_spec 1 (ny g)), (Nat.ltb_spec 1 (nz g)); (split; [repeat split; lia|]);
  f_equal; lia.
Qed.
Lemma cvp_cvc a i j k : cvp o dx dy dz false a i j k =
  cv o dx dy dz a (pos AX (zp i j k)) (pos AY (zp i j k)) (pos AZ (zp i j k)).
Proof.
  unfold cvp, pos, zp, zc. cbn [at_axis first_cell]. rewrite !Nat2Z.id. reflexivity.
Qed.
Lemma step_zp a i j k i' j' k' : a <> ADash ->
  (stepb a i j k i' j' k' = true <-> step a (zp i j k) (zp i' j' k')).
Proof.
  intros Na. unfold stepb, step, zp, zc. split.
  - intros H. split; auto.
    destruct a; try congruence;
    apply andb_true_iff in H as (H & H3); apply andb_true_iff in H as (H1 & H2);
    apply Nat.eqb_eq in H1, H2, H3; subst; (split; [cbn [at_axis]; lia|]);
    intros b Hb; destruct b; cbn [at_axis]; congruence.
  - intros (_ & H1 & H2).
    pose proof (H2 AX). pose proof (H2 AY). pose proof (H2 AZ).
    destruct a; try congruence; cbn [at_axis] in *;
    repeat match goal with h : ?p <> ?q -> _ |- _ => specialize (h ltac:(congruence)) end;
    rewrite !andb_true_iff, !Nat.eqb_eq; lia.
Qed.
Lemma dash_fdir a : wf g -> has_flow g -> In a (get_fdir g) -> a <> ADash.
Proof. intros W H I. apply (flow_dash o). now apply (fdir_flows o x y z u dx dy dz K). Qed.
Lemma nodup_fdir : wf g -> NoDup (get_fdir g).
Proof.
  intros W. rewrite get_fdir_spec by auto. unfold flow_axes.
  destruct (1 <? nx g), (1 <? ny g), (1 <? nz g); cbn; repeat constructor; cbn; intuition congruence.
Qed.
Lemma step_unique a a' i j k i' j' k' : a <> ADash -> a' <> ADash ->
  stepb a i j k i' j' k' = true ->
  (a' <> a -> stepb a' i j k i' j' k' = false) /\ stepb a' i' j' k' i j k = false.
Proof.
  intros N N' H. assert (D : forall s, (s = true -> False) -> s = false) by (intros [|]; auto; intros F; destruct F; auto).
  split; [intros Ne|]; apply D; intros H'; unfold stepb in *;
  destruct a, a'; try congruence;
  rewrite !andb_true_iff, !Nat.eqb_eq in *; lia.
Qed.
Lemma vect_formula a i j k i' j' k' f iso : wf g -> flows g a -> ib i j k -> ib i' j' k' ->
  stepb a i j k i' j' k' = true \/ stepb a i' j' k' i j k = true ->
  G_vect o = Ok f -> is_isotropic o = Ok iso ->
  f (cvp o dx dy dz false a i j k) (cvp o dx dy dz false a i' j' k') =
  Gf o dx dy dz iso a (zp i j k) (zp i' j' k').
Proof.
  intros W Fa I I' S Ef Ei. unfold Gf. rewrite !cvp_cvc. unfold G_vect, G_vect_with in Ef.
  destruct (isotropic_ok _ _ _ _ _ _ _ _ K) as (iso' & Ei' & HI). rewrite Ei in Ei'. inversion Ei'. subst iso'.
  rewrite Ei in Ef. cbn [rbind] in Ef. destruct iso; [|inversion Ef; reflexivity].
  destruct (regular_ok _ _ _ _ _ _ _ _ K) as (r & Er). rewrite Er in Ef. cbn [rbind] in Ef.
  inversion Ef. destruct r; [reflexivity|]. rewrite <- !cvp_cvc.
  assert (Ex : nx g = x /\ ny g = y /\ nz g = z).
  { pose proof (rk_gr _ _ _ _ _ _ _ _ K) as E. fold g in E. rewrite E. auto. }
  destruct Ex as (Ex & Ey & Ez).
  pose proof (proj1 (ib_count _ _ _) I) as (Hi & Hj & Hk). pose proof (proj1 (ib_count _ _ _) I') as (Hi' & Hj' & Hk').
  assert (Kk : kval o a (first_inner (nx g) + i) (first_inner (ny g) + j) (first_inner (nz g) + k) =
               kval o a (first_inner (nx g) + i') (first_inner (ny g) + j') (first_inner (nz g) + k')).
  { rewrite Ex, Ey, Ez. apply HI; auto; lia. }
  assert (Fp : forall n m, m < n -> first_inner n + m < pad n).
  { intros n m Hm. unfold first_inner, pad. destruct (Nat.ltb_spec 1 n); lia. }
  pose proof (Fp _ _ Hi). pose proof (Fp _ _ Hj). pose proof (Fp _ _ Hk).
  pose proof (Fp _ _ Hi'). pose proof (Fp _ _ Hj'). pose proof (Fp _ _ Hk').
  rewrite Ex, Ey, Ez in *.
  destruct (pos_all _ _ _ _ _ _ _ _ K a (first_inner x + i) (first_inner y + j) (first_inner z + k)) as (Pk & PA & Pd); auto.
  destruct (pos_all _ _ _ _ _ _ _ _ K a (first_inner x + i') (first_inner y + j') (first_inner z + k')) as (_ & _ & Pd'); auto.
  assert (Ar : Aval dx dy dz a (first_inner x + i) (first_inner y + j) (first_inner z + k) =
               Aval dx dy dz a (first_inner x + i') (first_inner y + j') (first_inner z + k')).
  { pose proof (flow_dash o a Fa). unfold Aval, stepb in *.
    destruct S as [S|S]; destruct a; try congruence; rewrite !andb_true_iff, !Nat.eqb_eq in S;
    destruct S as ((-> & ->) & ->); reflexivity. }
  unfold cvp, cv, first_cell. fold g. rewrite Ex, Ey, Ez.
  rewrite <- Kk, <- Ar, G_harm_series, G_arith_series; auto.
Qed.

(** Matrix entries against the reported dictionaries. *)
Lemma Gf_comm iso a c c' : Gf o dx dy dz iso a c c' = Gf o dx dy dz iso a c' c.
Proof. unfold Gf. destruct iso; [apply G_arith_comm|apply G_harm_comm]. Qed.
Definition three : Prop := flows g AX /\ flows g AY /\ flows g AZ.
Definition wrapsP (i j k i' j' k' : nat) : Prop := wrapped o false i j k i' j' k'.

Lemma agree_entry f iso L M i j k i' j' k' :
  wf g -> has_flow g -> G_vect o = Ok f -> is_isotropic o = Ok iso ->
  get_cells_G o false = Ok M -> ib i j k -> ib i' j' k' ->
  ~ (three /\ (wrapsP i j k i' j' k' \/ wrapsP i' j' k' i j k)) ->
  get_cell_G o (natural_id g (zp i j k)) false = Ok L ->
  ment M (at3 g false i j k) (at3 g false i' j' k') =
  match dget (natural_id g (zp i' j' k')) L with Some v => v | None => 0%R end.
Proof.
  intros W HF Ef Ei EM I I' NW EL.
  destruct (mat_canon _ _ _ _ _ _ _ _ K false f Ef HF) as (M' & EM' & _ & HM). fold g in HM.
  assert (M' = M) by congruence. subst M'. clear EM'.
  rewrite HM by (apply at3_lt; auto; first [apply I | apply I']).
  pose proof (zp_interior i j k W I) as Ic. pose proof (zp_interior i' j' k' W I') as Ic'.
  destruct (cell_G_spec _ _ _ _ _ _ _ _ K (zp i j k) false HF (interior_in_grid _ _ W Ic) ltac:(discriminate))
    as (iso' & L' & Ei' & EL' & HS & HN).
  assert (iso' = iso) by congruence. assert (L' = L) by (fold g in EL'; congruence). subst iso' L'. clear Ei' EL'.
  assert (T : forall a, In a (get_fdir g) -> sent o dx dy dz false f a (at3 g false i j k) (at3 g false i' j' k') =
     ((if stepb a i j k i' j' k' then Gf o dx dy dz iso a (zp i j k) (zp i' j' k') else 0) +
      (if stepb a i' j' k' i j k then Gf o dx dy dz iso a (zp i' j' k') (zp i j k) else 0))%R).
  { intros a Ia. assert (Fa : flows g a) by (now apply (fdir_flows o x y z u dx dy dz K)).
    unfold sent. rewrite !(band_coords o dx dy dz false f); auto.
    - f_equal.
      + destruct (stepb a i j k i' j' k') eqn:S; auto. apply vect_formula; auto.
      + destruct (stepb a i' j' k' i j k) eqn:S; auto. apply vect_formula; auto.
    - intros (?&?&?&?&?). apply NW. split; [repeat split|]; auto.
    - intros (?&?&?&?&?). apply NW. split; [repeat split|]; auto. }
  rewrite (map_ext_in _ _ _ T). clear T HM.
  destruct (existsb (fun a => stepb a i j k i' j' k' || stepb a i' j' k' i j k) (get_fdir g)) eqn:Ex.
  - apply existsb_exists in Ex as (a & Ia & S).
    assert (Fa : flows g a) by (now apply (fdir_flows o x y z u dx dy dz K)).
    pose proof (dash_fdir a W HF Ia) as Na.
    assert (Adj : face_adjacent a (zp i j k) (zp i' j' k')).
    { apply orb_true_iff in S as [S|S]; [left|right]; now apply step_zp. }
    rewrite (HS a) by auto. rewrite (sumR_one _ _ a (nodup_fdir W) Ia).
    + apply orb_true_iff in S as [S|S]; rewrite S; destruct (step_unique a a _ _ _ _ _ _ Na Na S) as (_ & ->);
        [|rewrite Gf_comm]; lra.
    + intros a' Ia' Ne. pose proof (dash_fdir a' W HF Ia') as Na'.
      apply orb_true_iff in S as [S|S]; destruct (step_unique a a' _ _ _ _ _ _ Na Na' S) as (Q & ->); rewrite (Q Ne); lra.
  - rewrite HN; [|now apply interior_in_grid|].
    + apply sumR_zero. intros a Ia.
      assert (S : stepb a i j k i' j' k' || stepb a i' j' k' i j k = false).
      { rewrite <- not_true_iff_false in *. intros S. apply Ex. apply existsb_exists. eauto. }
      apply orb_false_iff in S as (-> & ->). lra.
    + intros (a & Fa & Adj & _). rewrite <- not_true_iff_false in Ex. apply Ex. apply existsb_exists.
      exists a. split; [now apply (flows_fdir o x y z u dx dy dz K)|].
      apply orb_true_iff. pose proof (flow_dash o a Fa). destruct Adj; [left|right]; now apply step_zp.
Qed.
Lemma wrapped_entry f M i j k i' j' k' :
  wf g -> three -> G_vect o = Ok f ->
  get_cells_G o false = Ok M -> ib i j k -> ib i' j' k' -> wrapsP i j k i' j' k' ->
  (ment M (at3 g false i j k) (at3 g false i' j' k') = ment M (at3 g false i' j' k') (at3 g false i j k) /\
  ((i <> 0 \/ k <> 0)%nat -> 0 < ment M (at3 g false i j k) (at3 g false i' j' k')) /\
  ((i = 0 /\ k = 0)%nat -> ment M (at3 g false i j k) (at3 g false i' j' k') = 0))%R.
Proof.
  intros W (Fx & Fy & Fz) Ef EM I I' Wr. assert (HF : has_flow g) by (now left).
  destruct (mat_canon _ _ _ _ _ _ _ _ K false f Ef HF) as (M' & EM' & _ & HM). fold g in HM.
  assert (M' = M) by congruence. subst M'. clear EM'.
  rewrite !HM by (apply at3_lt; auto; first [apply I | apply I']).
  split. { f_equal. apply map_ext. intros a. unfold sent. lra. }
  assert (Ey : In AY (get_fdir g)) by (now apply (flows_fdir o x y z u dx dy dz K)).
  assert (E : sumR (map (fun a => sent o dx dy dz false f a (at3 g false i j k) (at3 g false i' j' k')) (get_fdir g)) =
     if (i =? 0) && (k =? 0) then 0%R else f (cvp o dx dy dz false AY i j k) (cvp o dx dy dz false AY i' j' k')).
  { pose proof Wr as (E1 & E2 & E3 & E4). pose proof (cnt_flow o false AY Fy).
    assert (D : forall s, (s = true -> False) -> s = false) by (intros [|]; auto; intros F; destruct F; auto).
    rewrite (sumR_one _ _ AY (nodup_fdir W) Ey).
    - unfold sent. rewrite (band_wrapped o dx dy dz false f); auto.
      rewrite (band_coords o dx dy dz false f); auto.
      + replace (stepb AY i' j' k' i j k) with false. lra. symmetry. apply D. intros S.
        unfold stepb in S. rewrite !andb_true_iff, !Nat.eqb_eq in S. lia.
      + unfold wrapped. intros (_&_&_&_&?). lia.
    - intros a Ia Ne. unfold sent. pose proof (dash_fdir a W HF Ia).
      rewrite !(band_coords o dx dy dz false f); auto; try (intros (_&_&_&?&_); congruence).
      replace (stepb a i' j' k' i j k) with false. replace (stepb a i j k i' j' k') with false. lra.
      + symmetry. apply D. intros S. unfold stepb in S. destruct a; try congruence; rewrite !andb_true_iff, !Nat.eqb_eq in S; lia.
      + symmetry. apply D. intros S. unfold stepb in S. destruct a; try congruence; rewrite !andb_true_iff, !Nat.eqb_eq in S; lia. }
  rewrite E. split.
  - intros Hik. replace ((i =? 0) && (k =? 0)) with false.
    2:{ destruct (Nat.eqb_spec i 0), (Nat.eqb_spec k 0); auto; lia. }
    assert (Ex : nx g = x /\ ny g = y /\ nz g = z).
    { pose proof (rk_gr _ _ _ _ _ _ _ _ K) as Eg. fold g in Eg. rewrite Eg. auto. }
    destruct Ex as (Ex & Ey' & Ez).
    pose proof (proj1 (ib_count _ _ _) I) as (Hi & Hj & Hk). pose proof (proj1 (ib_count _ _ _) I') as (Hi' & Hj' & Hk').
    assert (Fp : forall n m, m < n -> first_inner n + m < pad n).
    { intros n m Hm. unfold first_inner, pad. destruct (Nat.ltb_spec 1 n); lia. }
    rewrite Ex, Ey', Ez in *.
    destruct (pos_all _ _ _ _ _ _ _ _ K AY (first_inner x + i) (first_inner y + j) (first_inner z + k)) as (? & ? & ?); auto.
    destruct (pos_all _ _ _ _ _ _ _ _ K AY (first_inner x + i') (first_inner y + j') (first_inner z + k')) as (? & ? & ?); auto.
    unfold cvp, cv, first_cell. fold g. rewrite Ex, Ey', Ez. pose proof (rk_T _ _ _ _ _ _ _ _ K).
    unfold G_vect, G_vect_with in Ef. destruct (is_isotropic o) as [iso|]; [|discriminate]. cbn [rbind] in Ef.
    destruct iso; [|inversion Ef; now apply series_pos].
    destruct (is_regular o) as [r|]; [|discriminate]. cbn [rbind] in Ef. inversion Ef.
    destruct r; [now apply G_arith_pos|now apply series_pos].
  - intros (-> & ->). reflexivity.
Qed.
End agree.
