(** Lemmas about tabulated arrays ([tab], [transpose]). *)
From Coq Require Import String ZArith Bool Arith List Lia.
From Verif Require Import Prelude PreludeFacts Num GridModel GeoModel.
Import ListNotations.

Definition inb (s idx : list nat) : Prop := Forall2 (fun n i => i < n) s idx.

Lemma tab_length {A} s (f : list nat -> A) : length (tab s f) = prodn s.
Proof.
  revert f. induction s as [|n s IH]; intros f; simpl; auto.
  rewrite (flat_map_length_const _ (prodn s)). now rewrite seq_length. intros; apply IH.
Qed.
Lemma ravel_lt s idx : inb s idx -> ravel s idx < prodn s.
Proof.
  induction 1; simpl; [lia|]. fold (prodn l) in *. nia.
Qed.
Lemma nth_flat_map_const {A B} (f : A -> list B) m sel i j d da :
  (forall x, In x sel -> length (f x) = m) -> i < length sel -> j < m ->
  nth (i * m + j) (flat_map f sel) d = nth j (f (nth i sel da)) d.
Proof.
  intros Hm Hi Hj. rewrite <- (chunk_flat_map f m i sel da) by auto.
  rewrite nth_chunk; auto. rewrite (flat_map_length_const f m) by auto. nia.
Qed.
Lemma nth_tab {A} s (f : list nat -> A) idx d :
  inb s idx -> nth (ravel s idx) (tab s f) d = f idx.
Proof.
  intros H. revert f. induction H; intros f; simpl; auto.
  rewrite (nth_flat_map_const _ _ _ _ _ _ 0).
  - rewrite seq_nth by auto. simpl. rewrite IHForall2. reflexivity.
  - intros. apply tab_length.
  - now rewrite seq_length.
  - now apply ravel_lt.
Qed.
Lemma nth_error_tab {A} s (f : list nat -> A) idx :
  inb s idx -> nth_error (tab s f) (ravel s idx) = Some (f idx).
Proof.
  intros H. rewrite (nth_error_nth' _ (f idx)).
  - f_equal. now apply nth_tab.
  - rewrite tab_length. now apply ravel_lt.
Qed.
Lemma tab_ext {A} s (f g : list nat -> A) :
  (forall idx, inb s idx -> f idx = g idx) -> tab s f = tab s g.
Proof.
  revert f g. induction s as [|n s IH]; intros f g H; simpl.
  - f_equal. apply H. constructor.
  - apply flat_map_ext_in. intros i Hi. apply in_seq in Hi. apply IH.
    intros idx Hx. apply H. constructor; auto. lia.
Qed.
Lemma unravel s n : n < prodn s -> exists idx, inb s idx /\ ravel s idx = n.
Proof.
  revert n. induction s as [|m s IH]; intros n H; simpl in *.
  - exists []. split; [constructor|]. simpl. lia.
  - fold (prodn s) in *. destruct (Nat.eq_dec (prodn s) 0) as [E|E]; [rewrite E in H; lia|].
    destruct (IH (n mod prodn s)) as (r & Hr & E1). now apply Nat.mod_upper_bound.
    exists (n / prodn s :: r). split.
    + constructor; auto. apply Nat.div_lt_upper_bound; auto. lia.
    + simpl. rewrite E1. pose proof (Nat.div_mod n (prodn s) E). lia.
Qed.
Lemma inb3 a b c idx : inb [a;b;c] idx -> exists i j k, idx = [i;j;k] /\ i < a /\ j < b /\ k < c.
Proof.
  intros H. inversion H; subst. inversion H4; subst. inversion H6; subst. inversion H8; subst.
  eauto 10.
Qed.
Lemma inb2 a b idx : inb [a;b] idx -> exists i j, idx = [i;j] /\ i < a /\ j < b.
Proof. intros H. inversion H; subst. inversion H4; subst. inversion H6; subst. eauto. Qed.
Lemma mk_inb3 a b c i j k : i < a -> j < b -> k < c -> inb [a;b;c] [i;j;k].
Proof. repeat constructor; auto. Qed.
Lemma mk_inb2 a b i j : i < a -> j < b -> inb [a;b] [i;j].
Proof. repeat constructor; auto. Qed.

Lemma combine_app {A B} (l l' : list A) (m m' : list B) :
  length l = length m -> combine (l ++ l') (m ++ m') = combine l m ++ combine l' m'.
Proof.
  revert m. induction l; destruct m; simpl; intros; try discriminate; auto. f_equal. auto.
Qed.
Lemma map2_tab {A B C} (h : A -> B -> C) s f g :
  map2 h (tab s f) (tab s g) = tab s (fun r => h (f r) (g r)).
Proof.
  revert f g. induction s as [|n s IH]; intros f g; auto. simpl.
  generalize (seq 0 n). intros l. induction l; auto. simpl.
  rewrite <- IH, <- IHl. unfold map2. rewrite <- map_app. f_equal.
  apply combine_app. now rewrite !tab_length.
Qed.
Lemma combine_tab {A B} s (f : list nat -> A) (g : list nat -> B) :
  combine (tab s f) (tab s g) = tab s (fun r => (f r, g r)).
Proof.
  rewrite <- (map2_tab pair). unfold map2. rewrite <- (map_id (combine _ _)) at 1.
  apply map_ext. now intros [? ?].
Qed.

Lemma transpose_021 {A} (d : A) a b c f :
  transpose d [a;b;c] [0;2;1] (tab [a;b;c] f)
  = tab [a;c;b] (fun r => f [nth 0 r 0; nth 2 r 0; nth 1 r 0]).
Proof.
  unfold transpose. cbn [map nth]. apply tab_ext. intros idx H.
  apply inb3 in H as (i & j & k & -> & ? & ? & ?). cbn [length seq map Nat.eqb nth].
  apply nth_tab. now apply mk_inb3.
Qed.
Lemma transpose_201 {A} (d : A) a b c f :
  transpose d [a;b;c] [2;0;1] (tab [a;b;c] f)
  = tab [c;a;b] (fun r => f [nth 1 r 0; nth 2 r 0; nth 0 r 0]).
Proof.
  unfold transpose. cbn [map nth]. apply tab_ext. intros idx H.
  apply inb3 in H as (i & j & k & -> & ? & ? & ?). cbn [length seq map Nat.eqb nth].
  apply nth_tab. now apply mk_inb3.
Qed.
Lemma transpose_210 {A} (d : A) a b c f :
  transpose d [a;b;c] [2;1;0] (tab [a;b;c] f)
  = tab [c;b;a] (fun r => f [nth 2 r 0; nth 1 r 0; nth 0 r 0]).
Proof.
  unfold transpose. cbn [map nth]. apply tab_ext. intros idx H.
  apply inb3 in H as (i & j & k & -> & ? & ? & ?). cbn [length seq map Nat.eqb nth].
  apply nth_tab. now apply mk_inb3.
Qed.
Lemma transpose_102 {A} (d : A) a b c f :
  transpose d [a;b;c] [1;0;2] (tab [a;b;c] f)
  = tab [b;a;c] (fun r => f [nth 1 r 0; nth 0 r 0; nth 2 r 0]).
Proof.
  unfold transpose. cbn [map nth]. apply tab_ext. intros idx H.
  apply inb3 in H as (i & j & k & -> & ? & ? & ?). cbn [length seq map Nat.eqb nth].
  apply nth_tab. now apply mk_inb3.
Qed.
Lemma transpose_10 {A} (d : A) a b f :
  transpose d [a;b] [1;0] (tab [a;b] f) = tab [b;a] (fun r => f [nth 1 r 0; nth 0 r 0]).
Proof.
  unfold transpose. cbn [map nth]. apply tab_ext. intros idx H.
  apply inb2 in H as (i & j & -> & ? & ?). cbn [length seq map Nat.eqb nth].
  apply nth_tab. now apply mk_inb2.
Qed.
Lemma transpose_length {A} (d : A) s axes l :
  length (transpose d s axes l) = prodn (map (fun a => nth a s 0) axes).
Proof. unfold transpose. apply tab_length. Qed.

(** Arrays that depend on one axis only. *)
Lemma tab3_flat {A} a b c (f : list nat -> A) :
  tab [a;b;c] f = flat_map (fun i => flat_map (fun j => map (fun k => f [i;j;k]) (seq 0 c))
                                               (seq 0 b)) (seq 0 a).
Proof.
  simpl. apply flat_map_ext. intros i. apply flat_map_ext. intros j.
  apply flat_map_singleton.
Qed.
Lemma flat_map_const_seq {A} (l : list A) a n :
  flat_map (fun _ => l) (seq a n) = concat (repeat l n).
Proof. revert a. induction n; intros; simpl; auto. now rewrite IHn. Qed.
Lemma concat_repeat_mul {A} (l : list A) n m :
  concat (repeat (concat (repeat l n)) m) = concat (repeat l (m * n)).
Proof.
  induction m; simpl; auto. rewrite IHm, repeat_app, concat_app. reflexivity.
Qed.
Lemma tab3_last {A} a b c (h : nat -> A) :
  tab [a;b;c] (fun r => h (nth 2 r 0)) = concat (repeat (map h (seq 0 c)) (a * b)).
Proof.
  rewrite tab3_flat. cbn [nth].
  transitivity (flat_map (fun _ : nat => concat (repeat (map h (seq 0 c)) b)) (seq 0 a)).
  - apply flat_map_ext. intros. now rewrite flat_map_const_seq.
  - now rewrite flat_map_const_seq, concat_repeat_mul.
Qed.
Lemma tab3_first {A} a b c (h : nat -> A) :
  tab [a;b;c] (fun r => h (nth 0 r 0)) = flat_map (fun i => repeat (h i) (b * c)) (seq 0 a).
Proof.
  rewrite tab3_flat. cbn [nth]. apply flat_map_ext. intros i.
  transitivity (flat_map (fun _ : nat => repeat (h i) c) (seq 0 b)).
  - apply flat_map_ext. intros _. generalize 0. induction c; intros; simpl; auto. now rewrite IHc.
  - rewrite flat_map_const_seq. clear. induction b; simpl; auto.
    now rewrite IHb, <- repeat_app.
Qed.

Lemma map_nth_seq0 {A} (l : list A) n d : length l = n -> map (fun i => nth i l d) (seq 0 n) = l.
Proof. intros <-. apply map_nth_seq. Qed.

Lemma np_tile_concat {A} (l : list A) m : np_tile l m = concat (repeat l m).
Proof. apply flat_map_const_seq. Qed.
Lemma np_tile_tab {A} (l : list A) m d :
  np_tile l m = tab [m; length l] (fun r => nth (nth 1 r 0) l d).
Proof.
  simpl. unfold np_tile. apply flat_map_ext. intros i. rewrite flat_map_singleton.
  now rewrite map_nth_seq.
Qed.
Lemma np_repeat_seq {A} (l : list A) m d :
  np_repeat l m = flat_map (fun i => repeat (nth i l d) m) (seq 0 (length l)).
Proof.
  unfold np_repeat. rewrite <- (map_nth_seq l d) at 1.
  apply flat_map_map.
Qed.
Lemma tab2_first {A} a b (h : nat -> A) :
  tab [a; b] (fun r => h (nth 0 r 0)) = flat_map (fun i => repeat (h i) b) (seq 0 a).
Proof.
  simpl. apply flat_map_ext. intros i. rewrite flat_map_singleton.
  generalize 0. induction b; intros; simpl; auto. now rewrite IHb.
Qed.
Lemma tab3_mid {A} a b c (h : nat -> A) :
  tab [a;b;c] (fun r => h (nth 1 r 0))
  = flat_map (fun _ => flat_map (fun j => repeat (h j) c) (seq 0 b)) (seq 0 a).
Proof.
  rewrite tab3_flat. cbn [nth]. apply flat_map_ext. intros i. apply flat_map_ext. intros j.
  generalize 0. induction c; intros; simpl; auto. now rewrite IHc.
Qed.
