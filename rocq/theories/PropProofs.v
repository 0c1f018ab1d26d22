(** Proofs about [PropModel.v]: arrays, isotropy and geometry factors. *)
From Coq Require Import String ZArith Bool Arith List Lia Reals Lra.
From Verif Require Import Prelude PreludeFacts Num GridModel GridSpec GridProofs GridNeighbors
  GeoModel GeoSpec TabFacts GeoProofs PropModel PropSpec.
Import ListNotations.
Close Scope R_scope.
Open Scope nat_scope.

(** ** Arrays restricted to the interior *)
Definition per_in {A} (g : grid) (b : bool) (f : nat -> nat -> nat -> A) : list A :=
  tab [count (nz g) b; count (ny g) b; count (nx g) b]
      (fun r => f (first_cell (nx g) b + nth 2 r 0) (first_cell (ny g) b + nth 1 r 0)
                  (first_cell (nz g) b + nth 0 r 0)).

Lemma count_true n : count n true = pad n.
Proof. unfold count. rewrite <- pad_padded. lia. Qed.
Lemma first_count_le n b : 1 <= n -> first_cell n b + count n b <= pad n.
Proof.
  intros. destruct b; [rewrite count_true; simpl; lia|].
  unfold first_cell, first_inner, count, pad. destruct (Nat.ltb_spec 1 n); lia.
Qed.
Lemma count_pos n b : 1 <= n -> 1 <= count n b.
Proof. intros. destruct b; [rewrite count_true; now apply pad_pos|auto]. Qed.
Lemma count_one n b : ~ 1 < n -> 1 <= n -> count n b = 1 /\ first_cell n b = 0.
Proof.
  intros. assert (n = 1) by lia. subst. destruct b; auto.
Qed.
Lemma count_flow n b : 1 < n -> 1 < count n b.
Proof. intros. destruct b; [rewrite count_true; unfold pad; destruct (Nat.ltb_spec 1 n); lia|auto]. Qed.
Lemma get_n_count g b : wf g -> get_n g b = count (nx g) b * count (ny g) b * count (nz g) b.
Proof.
  intros W. destruct b.
  - rewrite !count_true, get_n_true by auto. lia.
  - unfold get_n. simpl. lia.
Qed.
Lemma per_in_true {A} g (f : nat -> nat -> nat -> A) : per_in g true f = per_cell g f.
Proof. unfold per_in, per_cell. rewrite !count_true. reflexivity. Qed.
Lemma map_seq_shift {A} (f : nat -> A) s n : map f (seq s n) = map (fun i => f (s + i)) (seq 0 n).
Proof.
  revert s f. induction n; intros; simpl; auto. rewrite Nat.add_0_r. f_equal.
  rewrite IHn. rewrite <- (seq_shift n 0), map_map. apply map_ext. intros. f_equal. lia.
Qed.
Lemma flat_map_seq_shift {A} (f : nat -> list A) s n :
  flat_map f (seq s n) = flat_map (fun i => f (s + i)) (seq 0 n).
Proof. rewrite !flat_map_concat_map. now rewrite map_seq_shift. Qed.
Lemma per_cell_inner {A} g (f : nat -> nat -> nat -> A) : wf g ->
  at_cells_id g (per_cell g f) = Ok (per_in g false f).
Proof.
  intros W. rewrite (at_cells_id_nth _ _ (f 0 0 0)) by (auto using per_cell_length). f_equal.
  destruct W as (Hx & Hy & Hz). unfold interior_ids.
  rewrite per_cell_box by (apply keepsel_lt; auto). rewrite !midsel_seq by auto.
  unfold per_in. rewrite tab3_flat. cbn [nth count first_cell].
  rewrite flat_map_seq_shift. apply flat_map_ext. intros k.
  rewrite flat_map_seq_shift. apply flat_map_ext. intros j.
  now rewrite map_seq_shift.
Qed.
(** Position in the (interior) array. *)
Definition at3 (g : grid) (b : bool) (i j k : nat) : nat :=
  i + count (nx g) b * (j + count (ny g) b * k).
Lemma per_in_length {A} g b (f : nat -> nat -> nat -> A) : wf g -> length (per_in g b f) = get_n g b.
Proof. intros. unfold per_in. rewrite tab_length, get_n_count by auto. simpl. lia. Qed.
Lemma nth_per_in {A} g b (f : nat -> nat -> nat -> A) i j k d :
  i < count (nx g) b -> j < count (ny g) b -> k < count (nz g) b ->
  nth (at3 g b i j k) (per_in g b f) d =
  f (first_cell (nx g) b + i) (first_cell (ny g) b + j) (first_cell (nz g) b + k).
Proof.
  intros. unfold per_in.
  replace (at3 g b i j k) with (ravel [count (nz g) b; count (ny g) b; count (nx g) b] [k; j; i])
    by (unfold at3; simpl; lia).
  rewrite nth_tab by (now apply mk_inb3). reflexivity.
Qed.
Lemma at3_lt g b i j k : wf g ->
  i < count (nx g) b -> j < count (ny g) b -> k < count (nz g) b -> at3 g b i j k < get_n g b.
Proof.
  intros. rewrite get_n_count by auto.
  replace (at3 g b i j k) with (ravel [count (nz g) b; count (ny g) b; count (nx g) b] [k; j; i])
    by (unfold at3; simpl; lia).
  eapply Nat.lt_le_trans. apply ravel_lt. now apply mk_inb3. simpl. lia.
Qed.
Lemma at3_surj g b p : wf g -> p < get_n g b -> exists i j k,
  i < count (nx g) b /\ j < count (ny g) b /\ k < count (nz g) b /\ p = at3 g b i j k.
Proof.
  intros W H. rewrite get_n_count in H by auto.
  destruct (unravel [count (nz g) b; count (ny g) b; count (nx g) b] p) as (r & Hr & E).
  { simpl. lia. }
  apply inb3 in Hr as (k & j & i & -> & ? & ? & ?). exists i, j, k. repeat split; auto.
  rewrite <- E. unfold at3. simpl. lia.
Qed.

(** Any array of the right length is a per-cell array. *)
Lemma list_per_cell {A} g (l : list A) d : wf g -> length l = get_n g true ->
  l = per_cell g (fun i j k => nth (idx g i j k) l d).
Proof.
  intros W L. apply (nth_ext _ _ d d).
  - now rewrite per_cell_length.
  - intros n Hn. rewrite L, get_n_true in Hn by auto.
    destruct (idx_surj g n W) as (i & j & k & ? & ? & ? & ->); [lia|].
    now rewrite nth_per_cell.
Qed.
Lemma combine_per_in {A B} g b (f : nat -> nat -> nat -> A) (h : nat -> nat -> nat -> B) :
  combine (per_in g b f) (per_in g b h) = per_in g b (fun i j k => (f i j k, h i j k)).
Proof. unfold per_in. now rewrite combine_tab. Qed.

(** ** Slices of an array *)
Lemma nth_firstn_lt {A} (l : list A) n i d : i < n -> nth i (firstn n l) d = nth i l d.
Proof. revert n i. induction l; intros n i H; destruct n; try lia; auto. destruct i; simpl; auto. apply IHl. lia. Qed.
Lemma nth_skipn_add {A} (l : list A) n i d : nth i (skipn n l) d = nth (n + i) l d.
Proof. revert l. induction n; intros [|a l]; simpl; auto. destruct i; auto. Qed.
Lemma nth_diag {A B} (f : A -> A -> B) (l : list A) o p d d' : o <= length l -> p + o < length l ->
  nth p (map2 f (firstn (length l - o) l) (skipn o l)) d' = f (nth p l d) (nth (p + o) l d).
Proof.
  intros H1 H2. rewrite (nth_map2 f _ _ p d d).
  - f_equal.
    + apply nth_firstn_lt. lia.
    + rewrite nth_skipn_add. f_equal. lia.
  - rewrite firstn_length. lia.
  - rewrite skipn_length. lia.
Qed.
Lemma diag_length {A B} (f : A -> A -> B) (l : list A) o :
  length (map2 f (firstn (length l - o) l) (skipn o l)) = length l - o.
Proof. unfold map2. rewrite map_length, combine_length, firstn_length, skipn_length. lia. Qed.
Lemma slices_1 {A} (l : list A) : removelast l = firstn (length l - 1) l /\ tl l = skipn 1 l.
Proof.
  split; [|destruct l; auto]. rewrite removelast_firstn_len. f_equal. lia.
Qed.

Section entries.
Context {F : Type} {NF : Num F}.
Lemma zero_every_length s m (l : list F) : length (zero_every s m l) = length l.
Proof. unfold zero_every. rewrite map_length, combine_length, seq_length. lia. Qed.
Lemma nth_zero_every s m (l : list F) p : p < length l ->
  nth p (zero_every s m l) n0 =
  if (s <=? p) && ((p - s) mod m =? 0) then n0 else nth p l n0.
Proof.
  intros H. unfold zero_every. rewrite (nth_map' _ _ p (0, n0)).
  - rewrite combine_nth by (now rewrite seq_length). rewrite seq_nth by auto. reflexivity.
  - rewrite combine_length, seq_length. lia.
Qed.
Lemma zero_every_mod m p : 1 <= m -> ((m - 1 <=? p) && ((p - (m - 1)) mod m =? 0) = (S p mod m =? 0))%bool.
Proof.
  intros H. destruct (Nat.leb_spec (m - 1) p) as [L|L]; simpl.
  - f_equal. replace (S p) with (p - (m - 1) + 1 * m) by lia. now rewrite Nat.mod_add by lia.
  - rewrite Nat.mod_small by lia. reflexivity.
Qed.
Lemma arange_step_one a b : 1 <= a -> a <= b -> arange_step a b = [0].
Proof.
  intros. unfold arange_step. replace ((a + b - 1) / b) with 1; auto.
  apply (Nat.div_unique _ _ 1 (a - 1)); lia.
Qed.
Lemma pyset_nat {A} (l : list A) n v : n < length l -> pyset l (Z.of_nat n) v = Ok (upd l n v).
Proof.
  intros. unfold pyset. destruct (Z.ltb_spec (Z.of_nat n) 0); [lia|].
  destruct (Z.leb_spec 0 (Z.of_nat n)); [|lia].
  destruct (Z.ltb_spec (Z.of_nat n) (Z.of_nat (length l))); [|lia]. simpl. now rewrite Nat2Z.id.
Qed.
End entries.

(** ** Constant arrays *)
Section const.
Lemma Reqb_true a b : Reqb a b = true <-> a = b.
Proof. unfold Reqb. destruct (Req_EM_T a b); split; congruence. Qed.
Lemma Rltb_true a b : Rltb a b = true <-> (a < b)%R.
Proof. unfold Rltb. destruct (Rlt_dec a b); split; congruence. Qed.
Lemma all_same_ok (l : list R) : l <> [] -> exists b, all_same l = Ok b /\
  (b = true <-> forall x y, In x l -> In y l -> x = y).
Proof.
  destruct l as [|a l]; [congruence|]. intros _. eexists. split; [reflexivity|].
  rewrite forallb_forall. cbn [neqb Num_R]. split.
  - intros H u v Hu Hv. apply H in Hu, Hv. apply Reqb_true in Hu, Hv. congruence.
  - intros H u Hu. apply Reqb_true. apply H; auto. now left.
Qed.
Lemma all_const_ok (ls : list (list R)) : (forall l, In l ls -> l <> []) ->
  exists b, all_const (map Ok ls) = Ok b /\
  (b = true <-> forall l x y, In l ls -> In x l -> In y l -> x = y).
Proof.
  induction ls as [|l ls IH]; intros H.
  - exists true. split; auto. split; auto. intros _ l x y [].
  - cbn [map all_const rbind]. destruct (all_same_ok l (H l (or_introl eq_refl))) as (b & -> & Hb). cbn [rbind].
    destruct IH as (b' & E & Hb'). { intros; apply H; now right. }
    destruct b.
    + exists b'. split; auto. rewrite Hb'. split.
      * intros K l' u v [<-|I]; [apply Hb; auto|now apply K].
      * intros K l' u v I. apply K. now right.
    + exists false. split; auto. split; [discriminate|]. intros K. apply Hb. intros. eapply K; eauto. now left.
Qed.
End const.

(** ** Formulas *)
Lemma G_arith_comm T c c' : G_arith (F:=R) T c c' = G_arith T c' c.
Proof.
  destruct c as [[k A] d], c' as [[k' A'] d']. unfold G_arith. cbn [nadd nmul ndiv Num_R].
  rewrite (Rplus_comm k'), (Rplus_comm A'), (Rplus_comm d'). reflexivity.
Qed.
Lemma G_harm_comm T c c' : G_harm (F:=R) T c c' = G_harm T c' c.
Proof.
  destruct c as [[k A] d], c' as [[k' A'] d']. unfold G_harm. cbn [nadd nmul ndiv Num_R].
  rewrite Rplus_comm. reflexivity.
Qed.
Lemma G_harm_series T k A d k' A' d' : G_harm (F:=R) T (k, A, d) (k', A', d') = series T k A d k' A' d'.
Proof. reflexivity. Qed.
Lemma G_arith_series T k A d d' : (0 < k -> 0 < A -> 0 < d -> 0 < d' ->
  G_arith (F:=R) T (k, A, d) (k, A, d') = series T k A d k A d')%R.
Proof.
  intros. unfold G_arith, series. cbn [nadd nmul ndiv Num_R n2 nofZ].
  change (@n2 R Num_R) with 2%R. field. repeat split; try lra.
Qed.
Lemma G_arith_pos T k A d k' A' d' : (0 < T -> 0 < k -> 0 < A -> 0 < d -> 0 < k' -> 0 < A' -> 0 < d' ->
  0 < G_arith (F:=R) T (k, A, d) (k', A', d'))%R.
Proof.
  intros. unfold G_arith. cbn [nadd nmul ndiv Num_R]. change (@n2 R Num_R) with 2%R.
  apply Rdiv_lt_0_compat; [|lra]. repeat apply Rmult_lt_0_compat; lra.
Qed.
Lemma series_pos T k A d k' A' d' : (0 < T -> 0 < k -> 0 < A -> 0 < d -> 0 < k' -> 0 < A' -> 0 < d' ->
  0 < series T k A d k' A' d')%R.
Proof.
  intros. unfold series. apply Rdiv_lt_0_compat; [lra|].
  apply Rplus_lt_0_compat; apply Rdiv_lt_0_compat; auto; now apply Rmult_lt_0_compat.
Qed.

(** ** A grid object with rock properties *)
Section rock.
Context (o : gobj R) (x y z : nat) (u : bool) (dx dy dz : dinput R) (K : rock o x y z u dx dy dz).
Let g := gr (geom o).

Lemma rk_built : built (geom o) x y z u dx dy dz.
Proof. apply geo_new_built. apply K. Qed.
Lemma rk_gr : g = mkGrid x y z u.
Proof. apply (b_gr _ _ _ _ _ _ _ _ rk_built). Qed.
Lemma rk_wf : wf g.
Proof. apply (b_wf _ _ _ _ _ _ _ _ rk_built). Qed.

Definition klist (a : axis) : list R := match get_cells_k o a true with Ok l => l | Err _ => [] end.
Definition dval (a : axis) (i j k : nat) : R :=
  match a with AX => sp dx i | AY => sp dy j | _ => sp dz k end.
Definition Aval (a : axis) (i j k : nat) : R :=
  (match a with AX => sp dy j * sp dz k | AY => sp dx i * sp dz k | _ => sp dx i * sp dy j end)%R.
Definition kval (a : axis) (i j k : nat) : R := nth (idx g i j k) (klist a) 0%R.
Definition cv (a : axis) (i j k : nat) : R * R * R := (kval a i j k, Aval a i j k, dval a i j k).

Lemma flow_dash a : flows g a -> a <> ADash.
Proof. intros H ->. unfold flows in H. simpl in H. lia. Qed.
Lemma klist_ok a : flows g a -> get_cells_k o a true = Ok (klist a) /\ length (klist a) = get_n g true.
Proof. intros H. unfold klist. destruct (rk_k _ _ _ _ _ _ _ _ K a H) as (l & -> & L & _). auto. Qed.
Lemma sp_pos (d : dinput R) n i : positive_input d -> spacing_ok n d -> i < pad n -> (0 < sp d i)%R.
Proof.
  unfold positive_input, spacing_ok, sp. rewrite <- pad_padded. destruct d; auto. intros H E Hi.
  rewrite Forall_forall in H. apply H. apply nth_In. lia.
Qed.
Lemma pos_all a i j k : flows g a -> i < pad x -> j < pad y -> k < pad z ->
  (0 < kval a i j k /\ 0 < Aval a i j k /\ 0 < dval a i j k)%R.
Proof.
  intros Fa Hi Hj Hk. pose proof rk_built as [_ _ Ox Oy Oz _ _ _ _ _ _ _ _ _].
  pose proof K as [_ Px Py Pz _ Kk _].
  pose proof (sp_pos dx x i Px Ox Hi). pose proof (sp_pos dy y j Py Oy Hj).
  pose proof (sp_pos dz z k Pz Oz Hk). split; [|split].
  - unfold kval. destruct (Kk a Fa) as (l & El & L & P). destruct (klist_ok a Fa) as (E' & _).
    assert (Ekl : klist a = l) by congruence. rewrite Ekl. rewrite Forall_forall in P. apply P. apply nth_In.
    rewrite L. fold g. rewrite get_n_true by apply rk_wf.
    pose proof (idx_lt g i j k). rewrite rk_gr in *. cbn [nx ny nz] in *. auto.
  - unfold Aval. destruct a; now apply Rmult_lt_0_compat.
  - unfold dval. destruct a; auto.
Qed.
Lemma kAd_canon a b : flows g a -> get_kAd o a b = Ok (per_in g b (cv a)).
Proof.
  intros Fa. pose proof (flow_dash a Fa) as Na. pose proof rk_wf as W. pose proof rk_built as B.
  destruct (klist_ok a Fa) as (E & L).
  assert (Ek : get_cells_k o a b = Ok (per_in g b (kval a))).
  { unfold get_cells_k in *. destruct (kname a) as [n|]; [|discriminate]. cbn [rbind] in *. unfold get_prop in *.
    destruct (cur (pget n (prs o))) as [l|]; [|discriminate]. assert (El : l = klist a) by congruence. unfold ggrid. fold g.
    rewrite El. rewrite (list_per_cell g (klist a) 0%R W) by auto. rewrite per_cell_inner by auto.
    fold (kval a). destruct b; [rewrite per_in_true|]; reflexivity. }
  unfold get_kAd. rewrite Ek. cbn [rbind]. unfold get_cells_A, get_cells_d.
  rewrite (cd_canon _ _ _ _ _ _ _ _ B), (cA_canon _ _ _ _ _ _ _ _ B) by auto. fold g.
  rewrite !per_cell_inner by auto.
  destruct b; cbn [rbind]; rewrite <- ?per_in_true, !combine_per_in; reflexivity.
Qed.

Lemma kname_inv n : In n [KX; KY; KZ] -> exists a, kname a = Ok n.
Proof. intros [<-|[<-|[<-|[]]]]; [exists AX|exists AY|exists AZ]; reflexivity. Qed.

(** Isotropy: every permeability that is given is constant over the interior. *)
Lemma isotropic_ok : exists b, is_isotropic o = Ok b /\
  (b = true -> forall a i j k i' j' k', flows g a ->
     i < x -> j < y -> k < z -> i' < x -> j' < y -> k' < z ->
     kval a (first_inner x + i) (first_inner y + j) (first_inner z + k) =
     kval a (first_inner x + i') (first_inner y + j') (first_inner z + k')).
Proof.
  pose proof rk_wf as W. unfold is_isotropic.
  set (names := filter (defined o) [KX; KY; KZ]).
  set (lst := fun n => match get_prop o n false with Ok l => l | Err _ => [] end).
  assert (E : forall n, In n names -> get_prop o n false = Ok (lst n) /\ lst n <> [] /\
     exists l, cur (pget n (prs o)) = Some l /\ lst n = per_in g false (fun i j k => nth (idx g i j k) l 0%R)).
  { intros n Hn. apply filter_In in Hn as (_ & D). unfold defined in D. unfold lst, get_prop.
    destruct (cur (pget n (prs o))) as [l|] eqn:El; [|discriminate].
    pose proof (rk_len _ _ _ _ _ _ _ _ K n l El) as L. fold g in L. unfold ggrid. fold g.
    assert (Ea : at_cells_id g l = Ok (per_in g false (fun i j k => nth (idx g i j k) l 0%R))).
    { rewrite (list_per_cell g l 0%R W L) at 1. now apply per_cell_inner. }
    rewrite Ea. split; auto. split; [|eauto].
    intros Z. apply (f_equal (@length R)) in Z. rewrite per_in_length in Z by auto.
    unfold get_n in Z. simpl in Z. destruct W as (?&?&?). destruct (nx g), (ny g), (nz g); simpl in Z; lia. }
  rewrite (map_ext_in _ (fun n => Ok (lst n)) names) by (intros n Hn; now destruct (E n Hn)).
  rewrite <- (map_map lst Ok).
  destruct (all_const_ok (map lst names)) as (b & -> & Hb).
  { intros l Hl. apply in_map_iff in Hl as (n & <- & Hn). now destruct (E n Hn) as (_ & ? & _). }
  exists b. split; auto. intros Bt. rewrite Hb in Bt. intros a i j k i' j' k' Fa Hi Hj Hk Hi' Hj' Hk'.
  pose proof (flow_dash a Fa) as Na. destruct (klist_ok a Fa) as (Ek & Lk).
  assert (exists n, kname a = Ok n /\ In n names /\ cur (pget n (prs o)) = Some (klist a)) as (n & En & In_n & Ec).
  { unfold get_cells_k in Ek. destruct (kname a) as [n|] eqn:En; [|discriminate]. cbn [rbind] in Ek.
    unfold get_prop in Ek. destruct (cur (pget n (prs o))) as [l|] eqn:El; [|discriminate].
    exists n. split; auto. split; [|congruence]. apply filter_In. split.
    - destruct a; inversion En; simpl; auto. 
    - unfold defined. now rewrite El. }
  destruct (E n In_n) as (_ & _ & l & El & Ll). assert (l = klist a) by congruence. subst l.
  apply (Bt (lst n)); [now apply in_map| |]; rewrite Ll.
  - assert (P : at3 g false i j k < length (per_in g false (fun i j k => nth (idx g i j k) (klist a) 0%R))).
    { rewrite per_in_length by auto. apply at3_lt; auto; rewrite rk_gr; auto. }
    pose proof (nth_In _ 0%R P) as Q. rewrite nth_per_in in Q by (rewrite rk_gr; auto).
    rewrite rk_gr in Q at 2 3 4. exact Q.
  - assert (P : at3 g false i' j' k' < length (per_in g false (fun i j k => nth (idx g i j k) (klist a) 0%R))).
    { rewrite per_in_length by auto. apply at3_lt; auto; rewrite rk_gr; auto. }
    pose proof (nth_In _ 0%R P) as Q. rewrite nth_per_in in Q by (rewrite rk_gr; auto).
    rewrite rk_gr in Q at 2 3 4. exact Q.
Qed.
Lemma regular_ok : exists b, is_regular o = Ok b.
Proof.
  pose proof rk_wf as W. pose proof rk_built as B. unfold is_regular.
  set (lst := fun a => match get_cells_d (geom o) a false with Ok l => l | Err _ => [] end).
  assert (E : forall a, In a [AX; AY; AZ] -> get_cells_d (geom o) a false = Ok (lst a) /\ lst a <> []).
  { intros a Ha. assert (Na : a <> ADash) by (intros ->; simpl in Ha; intuition congruence).
    unfold lst, get_cells_d. rewrite (cd_canon _ _ _ _ _ _ _ _ B) by auto. fold g. rewrite per_cell_inner by auto.
    split; auto. intros Z. apply (f_equal (@length R)) in Z. rewrite per_in_length in Z by auto.
    unfold get_n in Z. simpl in Z. destruct W as (?&?&?). destruct (nx g), (ny g), (nz g); simpl in Z; lia. }
  rewrite (map_ext_in _ (fun n => Ok (lst n))) by (intros n Hn; now destruct (E n Hn)).
  rewrite <- (map_map lst Ok).
  destruct (all_const_ok (map lst [AX; AY; AZ])) as (b & -> & _); eauto.
  intros l Hl. apply in_map_iff in Hl as (n & <- & Hn). now destruct (E n Hn).
Qed.
End rock.
