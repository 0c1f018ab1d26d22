(** Lemmas about the definitions of [Prelude.v]. *)
From Coq Require Import String ZArith Bool Arith List Lia Permutation Sorted.
From Verif Require Import Prelude.
Import ListNotations.

Lemma rbind_ok {A B} (x : res A) (f : A -> res B) b :
  rbind x f = Ok b -> exists a, x = Ok a /\ f a = Ok b.
Proof. destruct x; simpl; intros; [eauto | discriminate]. Qed.

Lemma zmem_In z l : zmem z l = true <-> In z l.
Proof.
  unfold zmem. rewrite existsb_exists. split.
  - intros [x [H1 H2]]. apply Z.eqb_eq in H2. now subst.
  - intros H. exists z. split; auto. apply Z.eqb_refl.
Qed.
Lemma zmem_false z l : zmem z l = false <-> ~ In z l.
Proof. rewrite <- zmem_In. destruct (zmem z l); split; congruence. Qed.

Lemma smem_In s l : smem s l = true <-> In s l.
Proof.
  unfold smem. rewrite existsb_exists. split.
  - intros [x [H1 H2]]. apply String.eqb_eq in H2. now subst.
  - intros H. exists s. split; auto. apply String.eqb_refl.
Qed.

(** ** [upd] *)
Lemma upd_length {A} (l : list A) i v : length (upd l i v) = length l.
Proof. revert i. induction l; intros [|i]; simpl; auto. Qed.
Lemma nth_upd_same {A} (l : list A) i v d : i < length l -> nth i (upd l i v) d = v.
Proof. revert i. induction l; intros [|i] H; simpl in *; try lia; auto. apply IHl. lia. Qed.
Lemma nth_upd_other {A} (l : list A) i j v d : i <> j -> nth j (upd l i v) d = nth j l d.
Proof.
  revert i j. induction l; intros [|i] [|j] H; simpl in *; try congruence; auto.
Qed.
Lemma nth_upd {A} (l : list A) i j v d :
  nth j (upd l i v) d = if (Nat.eqb i j && Nat.ltb i (length l))%bool then v else nth j l d.
Proof.
  destruct (Nat.eqb_spec i j); simpl.
  - subst. destruct (Nat.ltb_spec j (length l)).
    + now apply nth_upd_same.
    + rewrite !nth_overflow; auto. rewrite upd_length; lia.
  - now apply nth_upd_other.
Qed.

(** ** [pyget] *)
Lemma pyget_nth {A} (l : list A) (i : nat) d :
  i < length l -> pyget l (Z.of_nat i) = Ok (nth i l d).
Proof.
  intros H. unfold pyget.
  destruct (Z.ltb_spec (Z.of_nat i) 0); [lia|].
  destruct (Z.leb_spec 0 (Z.of_nat i)); [|lia].
  rewrite Nat2Z.id. now rewrite (nth_error_nth' l d H).
Qed.
Lemma pyget_ok_range {A} (l : list A) (i : Z) a :
  pyget l i = Ok a -> (- Z.of_nat (length l) <= i < Z.of_nat (length l))%Z.
Proof.
  unfold pyget. intros H.
  destruct (Z.ltb_spec i 0).
  - destruct (Z.leb_spec 0 (i + Z.of_nat (length l))); [lia|discriminate].
  - destruct (Z.leb_spec 0 i); [|discriminate].
    destruct (nth_error l (Z.to_nat i)) eqn:E; [|discriminate].
    assert (nth_error l (Z.to_nat i) <> None) by congruence.
    apply nth_error_Some in H2. lia.
Qed.

(** ** lists *)
Lemma firstn_flat_map_chunk {A B} (f : A -> list B) m sel :
  (forall x, In x sel -> length (f x) = m) ->
  length (flat_map f sel) = length sel * m.
Proof.
  induction sel; simpl; intros; auto.
  rewrite app_length, IHsel by auto. rewrite H by auto. lia.
Qed.
Definition flat_map_length_const {A B} := @firstn_flat_map_chunk A B.

Lemma chunk_flat_map {A B} (f : A -> list B) m i sel d :
  (forall x, In x sel -> length (f x) = m) -> i < length sel ->
  chunk m i (flat_map f sel) = f (nth i sel d).
Proof.
  unfold chunk. revert i. induction sel; intros i Hm Hi; simpl in *; [lia|].
  destruct i.
  - simpl. rewrite firstn_app, (Hm a) by auto.
    rewrite firstn_all2 by (rewrite (Hm a); auto).
    rewrite Nat.sub_diag. simpl. now rewrite app_nil_r.
  - rewrite skipn_app, (Hm a) by auto.
    replace (S i * m - m) with (i * m) by lia.
    rewrite (skipn_all2 (f a)) by (rewrite (Hm a); auto; lia).
    simpl. apply IHsel; auto. lia.
Qed.

Lemma chunk_length {A} m i (l : list A) :
  (S i) * m <= length l -> length (chunk m i l) = m.
Proof. unfold chunk. intros. rewrite firstn_length, skipn_length. lia. Qed.

Lemma chunk_whole {A} (l : list A) : chunk (length l) 0 l = l.
Proof. unfold chunk. simpl. apply firstn_all. Qed.

Lemma nth_chunk {A} m i j (l : list A) d :
  j < m -> (S i) * m <= length l -> nth j (chunk m i l) d = nth (i * m + j) l d.
Proof.
  intros. unfold chunk.
  rewrite <- (firstn_skipn (i*m) l) at 2.
  rewrite app_nth2; rewrite firstn_length; [|lia].
  replace (i * m + j - Nat.min (i * m) (length l)) with j by lia.
  rewrite <- (firstn_skipn m (skipn (i*m) l)) at 2.
  rewrite app_nth1; auto. rewrite firstn_length, skipn_length. lia.
Qed.

Lemma flat_map_ext_in {A B} (f g : A -> list B) l :
  (forall x, In x l -> f x = g x) -> flat_map f l = flat_map g l.
Proof. induction l; simpl; intros; auto. rewrite H, IHl; auto. Qed.

Lemma flat_map_map {A B C} (f : B -> list C) (h : A -> B) l :
  flat_map f (map h l) = flat_map (fun x => f (h x)) l.
Proof. induction l; simpl; auto. now rewrite IHl. Qed.

Lemma map_flat_map {A B C} (f : B -> C) (h : A -> list B) l :
  map f (flat_map h l) = flat_map (fun x => map f (h x)) l.
Proof. induction l; simpl; auto. now rewrite map_app, IHl. Qed.

Lemma flat_map_singleton {A B} (f : A -> B) l : flat_map (fun x => [f x]) l = map f l.
Proof. induction l; simpl; auto; now f_equal. Qed.

Lemma map_nth_seq {A} (l : list A) d : map (fun i => nth i l d) (seq 0 (length l)) = l.
Proof.
  induction l; simpl; auto. f_equal.
  rewrite <- seq_shift, map_map. exact IHl.
Qed.

(** ** Sub-arrays as cartesian products of index lists *)
Fixpoint sub {A} (s : list nat) (sels : list (list nat)) (l : list A) : list A :=
  match s, sels with
  | n :: s', sel :: sels' => flat_map (fun i => sub s' sels' (chunk (prodn s') i l)) sel
  | _, _ => l
  end.

Definition sels_ok (s : list nat) (sels : list (list nat)) : Prop :=
  Forall2 (fun n sel => Forall (fun i => i < n) sel) s sels.

Lemma sub_length {A} s sels (l : list A) :
  sels_ok s sels -> length l = prodn s ->
  length (sub s sels l) = prodn (map (@length nat) sels).
Proof.
  intros H. revert l. induction H; intros; simpl in *; auto.
  rewrite (@firstn_flat_map_chunk _ _ _ (prodn (map (@length nat) l'))); auto.
  intros i Hi. apply IHForall2. apply chunk_length.
  rewrite Forall_forall in H. specialize (H _ Hi). fold (prodn l) in *. nia.
Qed.

Lemma sels_ok_full s : sels_ok s (map (seq 0) s).
Proof.
  induction s; constructor; auto.
  apply Forall_forall. intros i Hi. apply in_seq in Hi. lia.
Qed.

Lemma skipn_skipn {A} a b (l : list A) : skipn a (skipn b l) = skipn (b + a) l.
Proof. revert l. induction b; intros [|x l]; simpl; auto. destruct a; auto. Qed.

Lemma concat_chunks {A} n m (l : list A) :
  length l = n * m -> flat_map (fun i => chunk m i l) (seq 0 n) = l.
Proof.
  revert l. induction n; intros l H; simpl.
  - destruct l; auto; discriminate.
  - transitivity (firstn m l ++ skipn m l); [|apply firstn_skipn].
    f_equal. rewrite <- seq_shift, flat_map_map.
    transitivity (flat_map (fun i => chunk m i (skipn m l)) (seq 0 n)).
    + apply flat_map_ext_in. intros i _. unfold chunk.
      f_equal. rewrite skipn_skipn. try f_equal; lia.
    + apply IHn. rewrite skipn_length. lia.
Qed.

Lemma sub_full {A} s (l : list A) : length l = prodn s -> sub s (map (seq 0) s) l = l.
Proof.
  revert l. induction s as [|n s IH]; intros l H; simpl in *; auto.
  fold (prodn s) in H.
  transitivity (flat_map (fun i => chunk (prodn s) i l) (seq 0 n)).
  - apply flat_map_ext_in. intros i Hi. apply in_seq in Hi. apply IH.
    apply chunk_length. nia.
  - now apply concat_chunks.
Qed.

(** [take_ax] of a sub-array is a sub-array. *)
Lemma take_ax_sub {A} s sels ax sel (l : list A) :
  sels_ok s sels -> length l = prodn s -> ax < length s ->
  Forall (fun i => i < length (nth ax sels [])) sel ->
  take_ax (map (@length nat) sels) ax sel (sub s sels l)
  = sub s (upd sels ax (map (fun i => nth i (nth ax sels []) 0) sel)) l.
Proof.
  intros H. revert l ax. induction H as [|n sel0 s' sels' Hn Hs IH]; intros l ax Hl Hax Hsel;
    simpl in *; [lia|].
  assert (Hlen : forall x, In x sel0 ->
      length (sub s' sels' (chunk (prodn s') x l)) = prodn (map (@length nat) sels')).
  { intros x Hx. apply sub_length; auto. apply chunk_length.
    rewrite Forall_forall in Hn. specialize (Hn _ Hx). fold (prodn s') in *. nia. }
  destruct ax; simpl.
  - rewrite flat_map_map. apply flat_map_ext_in. intros i Hi.
    rewrite Forall_forall in Hsel. specialize (Hsel _ Hi).
    now rewrite (chunk_flat_map _ _ _ _ 0) by auto.
  - transitivity (flat_map (fun i => take_ax (map (@length nat) sels') ax sel
          (sub s' sels' (chunk (prodn s') (nth i sel0 0) l))) (seq 0 (length sel0))).
    { apply flat_map_ext_in. intros i Hi. apply in_seq in Hi.
      now rewrite (chunk_flat_map _ _ _ _ 0) by (auto; lia). }
    rewrite <- (map_nth_seq sel0 0) at 2. rewrite flat_map_map.
    apply flat_map_ext_in. intros i Hi. apply in_seq in Hi.
    apply IH; auto; try lia.
    apply chunk_length. rewrite Forall_forall in Hn.
    assert (nth i sel0 0 < n) by (apply Hn, nth_In; lia).
    fold (prodn s') in *. nia.
Qed.

Lemma map_length_upd (sels : list (list nat)) ax (x : list nat) :
  map (@length nat) (upd sels ax x) = upd (map (@length nat) sels) ax (length x).
Proof. revert ax. induction sels; intros [|ax]; simpl; auto. now rewrite IHsels. Qed.

Lemma sels_ok_upd s sels ax x :
  sels_ok s sels -> Forall (fun i => i < nth ax s 0) x -> sels_ok s (upd sels ax x).
Proof.
  intros H. revert ax. induction H; intros [|ax] Hx; simpl in *; constructor; auto; apply IHForall2; auto.
Qed.

(** ** sorting *)
Lemma zinsert_perm z l : Permutation (zinsert z l) (z :: l).
Proof.
  induction l as [|x l IH]; simpl; auto. destruct (Z.leb z x); auto.
  rewrite IH. apply perm_swap.
Qed.
Lemma zsort_perm l : Permutation (zsort l) l.
Proof. induction l; simpl; auto. rewrite zinsert_perm. now apply perm_skip. Qed.
Lemma zinsert_sorted z l : LocallySorted Z.le l -> LocallySorted Z.le (zinsert z l).
Proof.
  induction l as [|x l IH]; simpl; intros H.
  - constructor.
  - destruct (Z.leb_spec z x).
    + constructor; auto.
    + inversion H; subst; simpl.
      * constructor; [constructor|lia].
      * specialize (IH H3). simpl in IH. destruct (Z.leb_spec z b).
        -- constructor; auto; lia.
        -- constructor; auto.
Qed.
Lemma zsort_locally_sorted l : LocallySorted Z.le (zsort l).
Proof. induction l; simpl. constructor. now apply zinsert_sorted. Qed.
Lemma zsort_sorted l : Sorted Z.le (zsort l).
Proof. apply Sorted_LocallySorted_iff, zsort_locally_sorted. Qed.
Lemma sorted_nodup_lt l : Sorted Z.le l -> NoDup l -> StronglySorted Z.lt l.
Proof.
  intros H Hn. apply Sorted_StronglySorted in H; [|intros a b c; lia].
  induction H; constructor; inversion Hn; subst; auto.
  rewrite Forall_forall in *. intros x Hx. specialize (H0 _ Hx).
  assert (x <> a) by (intros ->; contradiction). lia.
Qed.
(** Two strictly increasing lists with the same elements are equal. *)
Lemma strictly_sorted_unique l m :
  StronglySorted Z.lt l -> StronglySorted Z.lt m -> (forall z, In z l <-> In z m) -> l = m.
Proof.
  revert m. induction l as [|a l IH]; intros [|b m] Hl Hm E; auto.
  - exfalso. apply (E b). now left.
  - exfalso. apply (E a). now left.
  - inversion Hl; inversion Hm; subst. rewrite Forall_forall in H2, H6.
    assert (a = b).
    { assert (In a (b :: m)) by (apply E; now left).
      assert (In b (a :: l)) by (apply E; now left).
      simpl in *. destruct H, H0; auto. specialize (H2 _ H0). specialize (H6 _ H). lia. }
    subst b. f_equal. apply IH; auto. intros z. split; intros Hz.
    + assert (In z (a :: m)) by (apply E; now right). destruct H; auto.
      subst. specialize (H2 _ Hz). lia.
    + assert (In z (a :: l)) by (apply E; now right). destruct H; auto.
      subst. specialize (H6 _ Hz). lia.
Qed.

Lemma nodup_filter {A} (f : A -> bool) l : NoDup l -> NoDup (filter f l).
Proof. apply NoDup_filter. Qed.

Lemma rmapM_ok {A B} (f : A -> res B) (h : A -> B) l :
  (forall a, In a l -> f a = Ok (h a)) -> rmapM f l = Ok (map h l).
Proof. induction l; simpl; intros; auto. rewrite H, IHl; simpl; auto. Qed.
