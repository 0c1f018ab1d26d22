(** Proofs about [GridModel.v] against [GridSpec.v]. *)
From Coq Require Import String ZArith Bool Arith List Lia Permutation Sorted.
From Verif Require Import Prelude PreludeFacts GridModel GridSpec.
Import ListNotations.

(** ** Direction, dimension, shape *)
Definition flow_axes (g : grid) : list axis :=
  (if 1 <? nx g then [AX] else []) ++ (if 1 <? ny g then [AY] else [])
  ++ (if 1 <? nz g then [AZ] else []).

Ltac cases_flow g H :=
  destruct H as [?Hx [?Hy ?Hz]];
  destruct (Nat.ltb_spec 1 (nx g)); destruct (Nat.ltb_spec 1 (ny g));
  destruct (Nat.ltb_spec 1 (nz g));
  repeat match goal with
  | h : ?n <= 1, h' : 1 <= ?n |- _ => assert (n = 1) by lia; clear h h'
  end.

Lemma get_D_spec g : get_D g = length (flow_axes g).
Proof.
  unfold get_D, flow_axes. simpl.
  destruct (1 <? nx g), (1 <? ny g), (1 <? nz g); reflexivity.
Qed.

Lemma get_fdir_spec g : wf g ->
  get_fdir g = match flow_axes g with [] => [ADash] | l => l end.
Proof.
  intros H. unfold get_fdir. rewrite get_D_spec. unfold flow_axes, shape_inner.
  cases_flow g H; simpl; unfold argmax, argmin; simpl; auto;
  repeat match goal with
  | |- context [Nat.ltb ?a ?b] => destruct (Nat.ltb_spec a b); try lia; simpl
  end; auto.
Qed.

Lemma amem_fdir g a : wf g -> a <> ADash -> amem a (get_fdir g) = (1 <? size g a).
Proof.
  intros H Ha. rewrite get_fdir_spec by auto. unfold flow_axes.
  destruct a; try congruence; simpl;
  destruct (1 <? nx g), (1 <? ny g), (1 <? nz g); reflexivity.
Qed.

Definition pad (n : nat) : nat := if 1 <? n then n + 2 else n.
Lemma pad_padded n : Z.of_nat (pad n) = padded n.
Proof. unfold pad, padded. destruct (1 <? n); lia. Qed.
Lemma nx_b_spec g : wf g -> nx_b g = pad (nx g).
Proof. intros H. unfold nx_b. rewrite amem_fdir by (auto; congruence). reflexivity. Qed.
Lemma ny_b_spec g : wf g -> ny_b g = pad (ny g).
Proof. intros H. unfold ny_b. rewrite amem_fdir by (auto; congruence). reflexivity. Qed.
Lemma nz_b_spec g : wf g -> nz_b g = pad (nz g).
Proof. intros H. unfold nz_b. rewrite amem_fdir by (auto; congruence). reflexivity. Qed.
Lemma get_shape_true g : wf g -> get_shape g true = [pad (nx g); pad (ny g); pad (nz g)].
Proof. intros. unfold get_shape. now rewrite nx_b_spec, ny_b_spec, nz_b_spec. Qed.
Lemma get_n_true g : wf g -> get_n g true = pad (nx g) * pad (ny g) * pad (nz g).
Proof. intros. unfold get_n. rewrite get_shape_true by auto. simpl. lia. Qed.
Lemma pad_pos n : 1 <= n -> 1 <= pad n.
Proof. unfold pad. destruct (1 <? n); lia. Qed.

(** ** Slicing in canonical form *)
Definition keepsel (lr : bool * bool) (n : nat) : list nat :=
  if 1 <? n then slice_idx (fst lr) (snd lr) (n + 2) else [0].

Lemma sub_squeeze_head {A} s sels (l : list A) :
  length l = prodn s -> sub (1 :: s) ([0] :: sels) l = sub s sels l.
Proof. intros H. simpl. rewrite app_nil_r, <- H, chunk_whole. reflexivity. Qed.
Lemma sub_squeeze_2 {A} n s sel sels (l : list A) :
  Forall (fun i => i < n) sel -> length l = n * prodn s ->
  sub (n :: 1 :: s) (sel :: [0] :: sels) l = sub (n :: s) (sel :: sels) l.
Proof.
  intros Hs H. simpl. apply flat_map_ext_in. intros i Hi.
  rewrite app_nil_r. rewrite Nat.add_0_r. fold (prodn s). f_equal.
  rewrite Forall_forall in Hs. specialize (Hs _ Hi).
  replace (prodn s) with (length (chunk (prodn s) i l)) at 1.
  - apply chunk_whole.
  - apply chunk_length. nia.
Qed.

Lemma sub_squeeze_3 {A} m n sel0 sel (l : list A) :
  Forall (fun i => i < m) sel0 -> Forall (fun i => i < n) sel -> length l = m * n ->
  sub [m; n; 1] [sel0; sel; [0]] l = sub [m; n] [sel0; sel] l.
Proof.
  intros H0 H1 H. change (flat_map (fun i => sub [n;1] [sel;[0]] (chunk (n*1) i l)) sel0 =
    flat_map (fun i => sub [n] [sel] (chunk (n*1) i l)) sel0).
  apply flat_map_ext_in. intros i Hi. apply sub_squeeze_2; auto.
  rewrite Forall_forall in H0. specialize (H0 _ Hi). simpl. apply chunk_length. nia.
Qed.

Lemma slice_idx_lt a b n : Forall (fun i => i < n) (slice_idx a b n).
Proof.
  apply Forall_forall. unfold slice_idx. intros i Hi. apply in_seq in Hi.
  destruct a, b; lia.
Qed.

Lemma map_nth_slice x n m :
  Forall (fun i => i < n) x -> n = m -> map (fun i => nth i (seq 0 n) 0) x = x.
Proof.
  intros H _. rewrite <- (map_id x) at 2. apply map_ext_in. intros i Hi.
  rewrite Forall_forall in H. rewrite seq_nth; auto.
Qed.

(** One slicing step on an axis that has not been sliced yet. *)
Lemma take_step {A} s sels ax sel (l : list A) :
  sels_ok s sels -> length l = prodn s -> ax < length s ->
  nth ax sels [] = seq 0 (nth ax s 0) ->
  Forall (fun i => i < nth ax s 0) sel ->
  take_ax (map (@length nat) sels) ax sel (sub s sels l) = sub s (upd sels ax sel) l.
Proof.
  intros H1 H2 H3 H4 H5. rewrite take_ax_sub; auto.
  - rewrite H4. rewrite (map_nth_slice _ _ (nth ax s 0)); auto.
  - rewrite H4, seq_length. auto.
Qed.

Definition st {A} (s : list nat) (sels : list (list nat)) (l : list A) : list nat * list A :=
  (map (@length nat) sels, sub s sels l).

Lemma st_init {A} s (l : list A) : length l = prodn s -> (s, l) = st s (map (seq 0) s) l.
Proof.
  intros. unfold st. rewrite sub_full by auto. f_equal.
  rewrite map_map. rewrite <- (map_id s) at 1. apply map_ext. intros. now rewrite seq_length.
Qed.

Lemma nth_map_length ax (sels : list (list nat)) :
  nth ax (map (@length nat) sels) 0 = length (nth ax sels []).
Proof. change 0 with (@length nat []). apply map_nth. Qed.

Lemma sl_st {A} a b ax s sels (l : list A) :
  sels_ok s sels -> length l = prodn s -> ax < length s ->
  nth ax sels [] = seq 0 (nth ax s 0) ->
  sl a b ax (st s sels l) = st s (upd sels ax (slice_idx a b (nth ax s 0))) l.
Proof.
  intros. unfold sl, st, take_shape. simpl. rewrite nth_map_length, H2, seq_length.
  rewrite map_length_upd. f_equal. apply take_step; auto. apply slice_idx_lt.
Qed.
Lemma ends_st {A} ax s sels (l : list A) :
  sels_ok s sels -> length l = prodn s -> ax < length s ->
  nth ax sels [] = seq 0 (nth ax s 0) -> 1 <= nth ax s 0 ->
  ends ax (st s sels l) = st s (upd sels ax [0; nth ax s 0 - 1]) l.
Proof.
  intros. unfold ends, st, take_shape. simpl. rewrite nth_map_length, H2, seq_length.
  rewrite map_length_upd. f_equal. apply take_step; auto.
  repeat constructor; lia.
Qed.

(** Canonical three-axis form. *)
Definition sub3 {A} (g : grid) (sk sj si : list nat) (l : list A) : list A :=
  sub [pad (nz g); pad (ny g); pad (nx g)] [sk; sj; si] l.

Ltac solve_sels :=
  unfold sels_ok; simpl;
  repeat first [ apply Forall2_cons | apply Forall2_nil ];
  first [ apply slice_idx_lt
        | apply Forall_forall; intros ?i ?Hi; apply in_seq in Hi; lia
        | repeat constructor; lia ].


Lemma reshape_ok {A} s (l : list A) : length l = prodn s -> reshape s l = Ok l.
Proof. intros H. unfold reshape. now rewrite H, Nat.eqb_refl. Qed.

(** Split into the eight flow patterns; [px], [py], [pz] are the padded sizes. *)
Ltac flow_split g H :=
  destruct H as [?Hx [?Hy ?Hz]];
  destruct (Nat.ltb_spec 1 (nx g)) as [Fx|Fx];
  destruct (Nat.ltb_spec 1 (ny g)) as [Fy|Fy];
  destruct (Nat.ltb_spec 1 (nz g)) as [Fz|Fz];
  [ | | | | | | | ];
  try (assert (Ex : nx g = 1) by lia; rewrite ?Ex in *);
  try (assert (Ey : ny g = 1) by lia; rewrite ?Ey in *);
  try (assert (Ez : nz g = 1) by lia; rewrite ?Ez in *).

Ltac cut_all :=
  repeat first [ rewrite sl_st; [ | solve [solve_sels] | simpl; lia | simpl; lia | reflexivity ]
               | rewrite ends_st; [ | solve [solve_sels] | simpl; lia | simpl; lia | reflexivity
                                  | simpl; lia ] ].

Ltac squeeze :=
  repeat first [ rewrite sub_squeeze_head by (simpl; lia)
               | rewrite sub_squeeze_3 by first [ apply slice_idx_lt
                   | (apply Forall_forall; intros ?i ?Hi; apply in_seq in Hi; lia)
                   | (repeat constructor; lia) | simpl; lia ]
               | rewrite sub_squeeze_2 by first [ apply slice_idx_lt
                   | (apply Forall_forall; intros ?i ?Hi; apply in_seq in Hi; lia)
                   | (repeat constructor; lia) | simpl; lia ] ].

Lemma remove_canon {A} g (data : list A) m lr :
  wf g -> length data = get_n g true -> remove_mode m = Ok lr ->
  remove_boundaries g data m =
  Ok (sub3 g (keepsel lr (nz g)) (keepsel lr (ny g)) (keepsel lr (nx g)) data).
Proof.
  intros H Hl Hm. rewrite get_n_true in Hl by auto.
  unfold remove_boundaries, get_fshape.
  rewrite get_shape_true, get_fdir_spec, Hm, get_D_spec by auto.
  unfold flow_axes, keepsel, sub3, pad in *. destruct lr as [a b].
  destruct (unify g); flow_split g H; cbn [app rbind fst snd negb length Nat.eqb nth];
  (rewrite reshape_ok by (simpl; lia)); cbn [rbind];
  rewrite ?(st_init _ data) by (simpl; lia); cut_all;
  cbn [map upd nth st snd fst]; change (seq 0 1) with [0]; squeeze; try reflexivity.
Qed.

Definition fullsel (n : nat) : list nat := seq 0 (pad n).
Definition midsel (n : nat) : list nat := keepsel (true, true) n.
Definition endsel (n : nat) : list nat := [0; pad n - 1].

(** The boundary layers of one array, in the order in which the code
    concatenates them. *)
Definition layers {A} (g : grid) (data : list A) : list A :=
  match flow_axes g with
  | [AX; AY; AZ] =>
      sub3 g (fullsel (nz g)) (endsel (ny g)) (fullsel (nx g)) data
      ++ sub3 g (fullsel (nz g)) (midsel (ny g)) (endsel (nx g)) data
      ++ sub3 g (endsel (nz g)) (midsel (ny g)) (midsel (nx g)) data
  | [AX] => sub3 g [0] [0] (endsel (nx g)) data
  | [AY] => sub3 g [0] (endsel (ny g)) [0] data
  | [AZ] => sub3 g (endsel (nz g)) [0] [0] data
  | [AX; AY] => sub3 g [0] (endsel (ny g)) (fullsel (nx g)) data
                ++ sub3 g [0] (midsel (ny g)) (endsel (nx g)) data
  | [AX; AZ] => sub3 g (endsel (nz g)) [0] (fullsel (nx g)) data
                ++ sub3 g (midsel (nz g)) [0] (endsel (nx g)) data
  | [AY; AZ] => sub3 g (endsel (nz g)) (fullsel (ny g)) [0] data
                ++ sub3 g (midsel (nz g)) (endsel (ny g)) [0] data
  | _ => data
  end.

Lemma extract_canon {A} g (data : list A) :
  wf g -> length data = get_n g true -> extract_raw g data = Ok (layers g data).
Proof.
  intros H Hl. rewrite get_n_true in Hl by auto.
  unfold extract_raw, get_fshape, layers.
  rewrite get_shape_true, get_fdir_spec, get_D_spec by auto.
  unfold flow_axes, fullsel, midsel, endsel, keepsel, sub3, pad in *.
  destruct (unify g); flow_split g H; cbn [app rbind fst snd negb length Nat.eqb nth];
  (rewrite reshape_ok by (simpl; lia)); cbn [rbind];
  rewrite ?(st_init _ data) by (simpl; lia); cut_all;
  cbn [map upd nth st snd fst]; change (seq 0 1) with [0]; squeeze; try reflexivity.
Qed.

(** ** Ids of a box of coordinates *)
Definition idx (g : grid) (i j k : nat) : nat := i + pad (nx g) * (j + pad (ny g) * k).
Definition box (g : grid) (sk sj si : list nat) : list nat :=
  flat_map (fun k => flat_map (fun j => map (fun i => idx g i j k) si) sj) sk.

Lemma In_box g sk sj si n :
  In n (box g sk sj si) <->
  exists i j k, In i si /\ In j sj /\ In k sk /\ n = idx g i j k.
Proof.
  unfold box. rewrite in_flat_map. split.
  - intros (k & Hk & H). apply in_flat_map in H as (j & Hj & H).
    apply in_map_iff in H as (i & <- & Hi). exists i, j, k. auto.
  - intros (i & j & k & Hi & Hj & Hk & ->). exists k. split; auto.
    apply in_flat_map. exists j. split; auto. apply in_map_iff. eauto.
Qed.

Lemma idx_inj_x a i i' q q' : i < a -> i' < a -> i + a * q = i' + a * q' -> i = i' /\ q = q'.
Proof.
  intros H H' E.
  assert (q = q') by (apply (f_equal (fun x => x / a)) in E;
    rewrite !(Nat.mul_comm a), !Nat.div_add, !Nat.div_small in E by lia; lia).
  subst. split; auto. lia.
Qed.
Lemma idx_inj g i j k i' j' k' :
  i < pad (nx g) -> i' < pad (nx g) -> j < pad (ny g) -> j' < pad (ny g) ->
  idx g i j k = idx g i' j' k' -> i = i' /\ j = j' /\ k = k'.
Proof.
  unfold idx. intros H1 H2 H3 H4 E. apply idx_inj_x in E as [-> E]; auto.
  apply idx_inj_x in E as [-> ->]; auto.
Qed.
Lemma idx_lt g i j k :
  i < pad (nx g) -> j < pad (ny g) -> k < pad (nz g) ->
  idx g i j k < pad (nx g) * pad (ny g) * pad (nz g).
Proof.
  unfold idx. intros.
  assert (j + pad (ny g) * k + 1 <= pad (ny g) * pad (nz g)) by nia. nia.
Qed.
Lemma idx_surj g n : wf g -> n < pad (nx g) * pad (ny g) * pad (nz g) ->
  exists i j k, i < pad (nx g) /\ j < pad (ny g) /\ k < pad (nz g) /\ n = idx g i j k.
Proof.
  intros (Hx & Hy & Hz) Hn. apply pad_pos in Hx, Hy, Hz.
  exists (n mod pad (nx g)), ((n / pad (nx g)) mod pad (ny g)), (n / pad (nx g) / pad (ny g)).
  repeat split.
  - apply Nat.mod_upper_bound. lia.
  - apply Nat.mod_upper_bound. lia.
  - apply Nat.div_lt_upper_bound; [lia|]. apply Nat.div_lt_upper_bound; [lia|]. lia.
  - unfold idx. pose proof (Nat.div_mod n (pad (nx g))). pose proof (Nat.div_mod (n / pad (nx g)) (pad (ny g))). lia.
Qed.

Lemma sub3_box {A} g sk sj si (l : list A) d :
  Forall (fun i => i < pad (nz g)) sk -> Forall (fun i => i < pad (ny g)) sj ->
  Forall (fun i => i < pad (nx g)) si -> length l = pad (nx g) * pad (ny g) * pad (nz g) ->
  sub3 g sk sj si l = map (fun n => nth n l d) (box g sk sj si).
Proof.
  intros Hk Hj Hi Hl. unfold sub3, box. simpl. rewrite Nat.mul_1_r.
  rewrite map_flat_map. apply flat_map_ext_in. intros k Ik.
  rewrite map_flat_map. apply flat_map_ext_in. intros j Ij. rewrite map_map.
  rewrite <- flat_map_singleton. apply flat_map_ext_in. intros i Ii.
  rewrite Forall_forall in Hk, Hj, Hi. specialize (Hk _ Ik). specialize (Hj _ Ij).
  specialize (Hi _ Ii).
  set (a := pad (nx g)) in *. set (b := pad (ny g)) in *. set (c := pad (nz g)) in *.
  assert (L1 : length (chunk (b * a) k l) = b * a) by (apply chunk_length; nia).
  assert (L2 : length (chunk a j (chunk (b * a) k l)) = a) by (apply chunk_length; nia).
  assert (L3 : length (chunk 1 i (chunk a j (chunk (b * a) k l))) = 1)
    by (apply chunk_length; nia).
  destruct (chunk 1 i (chunk a j (chunk (b * a) k l))) as [|x [|]] eqn:E; try discriminate.
  f_equal. change x with (nth 0 [x] d). rewrite <- E.
  rewrite nth_chunk by (try rewrite L2; nia).
  rewrite nth_chunk by (try rewrite L1; nia).
  rewrite nth_chunk by nia. f_equal. unfold idx. fold a b. nia.
Qed.

Lemma keepsel_lt lr n : 1 <= n -> Forall (fun i => i < pad n) (keepsel lr n).
Proof.
  intros. unfold keepsel, pad. destruct (1 <? n). apply slice_idx_lt. repeat constructor; lia.
Qed.
Lemma fullsel_lt n : Forall (fun i => i < pad n) (fullsel n).
Proof. apply Forall_forall. intros i Hi. apply in_seq in Hi. lia. Qed.
Lemma endsel_lt n : 1 <= n -> Forall (fun i => i < pad n) (endsel n).
Proof. intros H. apply pad_pos in H. repeat constructor; lia. Qed.
Lemma zero_lt n : 1 <= n -> Forall (fun i => i < pad n) [0].
Proof. intros H. apply pad_pos in H. repeat constructor; lia. Qed.

Definition layer_ids (g : grid) : list nat :=
  match flow_axes g with
  | [AX; AY; AZ] =>
      box g (fullsel (nz g)) (endsel (ny g)) (fullsel (nx g))
      ++ box g (fullsel (nz g)) (midsel (ny g)) (endsel (nx g))
      ++ box g (endsel (nz g)) (midsel (ny g)) (midsel (nx g))
  | [AX] => box g [0] [0] (endsel (nx g))
  | [AY] => box g [0] (endsel (ny g)) [0]
  | [AZ] => box g (endsel (nz g)) [0] [0]
  | [AX; AY] => box g [0] (endsel (ny g)) (fullsel (nx g))
                ++ box g [0] (midsel (ny g)) (endsel (nx g))
  | [AX; AZ] => box g (endsel (nz g)) [0] (fullsel (nx g))
                ++ box g (midsel (nz g)) [0] (endsel (nx g))
  | [AY; AZ] => box g (endsel (nz g)) (fullsel (ny g)) [0]
                ++ box g (midsel (nz g)) (endsel (ny g)) [0]
  | _ => seq 0 (get_n g true)
  end.

Lemma layers_ids {A} g (data : list A) d :
  wf g -> length data = get_n g true ->
  layers g data = map (fun n => nth n data d) (layer_ids g).
Proof.
  intros H Hl. pose proof Hl as Hl'. rewrite get_n_true in Hl by auto.
  destruct H as (Hx & Hy & Hz).
  pose proof (fullsel_lt (nx g)). pose proof (fullsel_lt (ny g)). pose proof (fullsel_lt (nz g)).
  pose proof (endsel_lt _ Hx). pose proof (endsel_lt _ Hy). pose proof (endsel_lt _ Hz).
  pose proof (zero_lt _ Hx). pose proof (zero_lt _ Hy). pose proof (zero_lt _ Hz).
  pose proof (keepsel_lt (true,true) _ Hx) as Kx. pose proof (keepsel_lt (true,true) _ Hy) as Ky.
  pose proof (keepsel_lt (true,true) _ Hz) as Kz.
  unfold layers, layer_ids, flow_axes.
  destruct (1 <? nx g), (1 <? ny g), (1 <? nz g); cbn [app];
    rewrite ?map_app; repeat f_equal; try (apply sub3_box; auto).
  rewrite <- Hl'. symmetry. apply map_nth_seq.
Qed.

(** ** Interior and boundary in natural numbers *)
Definition inn (n i : nat) : Prop := if 1 <? n then 1 <= i <= n else i = 0.
Lemma In_midsel n i : In i (midsel n) <-> inn n i.
Proof.
  unfold midsel, keepsel, inn, slice_idx. destruct (Nat.ltb_spec 1 n); simpl.
  - rewrite in_seq. lia.
  - lia.
Qed.
Lemma inn_dec n i : {inn n i} + {~ inn n i}.
Proof.
  unfold inn. destruct (1 <? n).
  - destruct (le_dec 1 i), (le_dec i n); [left|right|right|right]; lia.
  - apply Nat.eq_dec.
Qed.
Lemma inn_lt n i : 1 <= n -> inn n i -> i < pad n.
Proof. unfold inn, pad. destruct (1 <? n); lia. Qed.

Lemma In_layer_ids g n : wf g -> has_flow g ->
  (In n (layer_ids g) <->
   exists i j k, i < pad (nx g) /\ j < pad (ny g) /\ k < pad (nz g) /\ n = idx g i j k /\
     ~ (inn (nx g) i /\ inn (ny g) j /\ inn (nz g) k)).
Proof.
  intros H F. unfold layer_ids, flow_axes, midsel, keepsel, fullsel, endsel, pad, inn, slice_idx in *.
  unfold has_flow, flows, size in F.
  flow_split g H; try lia; cbn [app fst snd];
  rewrite ?in_app_iff, ?In_box;
  (split;
   [ intros E; repeat match type of E with _ \/ _ => destruct E as [E|E] end;
     destruct E as (i & j & k & Hi & Hj & Hk & ->); exists i, j, k;
     rewrite ?in_seq in *; simpl in Hi, Hj, Hk; repeat split; lia
   | intros (i & j & k & Hi & Hj & Hk & -> & Hn);
     let tac := (exists i, j, k; rewrite ?in_seq; simpl; repeat split; lia) in
     first [ tac
           | (assert (X : (j = 0 \/ j = ny g + 1) \/ (1 <= j <= ny g)) by lia;
              assert (Y : (i = 0 \/ i = nx g + 1) \/ (1 <= i <= nx g)) by lia;
              assert (Z : (k = 0 \/ k = nz g + 1) \/ (1 <= k <= nz g)) by lia;
              destruct X, Y, Z; try lia;
              first [left; tac | right; tac | right; left; tac | right; right; tac])
           | (assert (X : (j = 0 \/ j = ny g + 1) \/ (1 <= j <= ny g)) by lia;
              assert (Y : (i = 0 \/ i = nx g + 1) \/ (1 <= i <= nx g)) by lia;
              destruct X, Y; try lia; first [left; tac | right; tac])
           | (assert (Z : (k = 0 \/ k = nz g + 1) \/ (1 <= k <= nz g)) by lia;
              destruct Z; try lia; first [left; tac | right; tac]) ] ]).
Qed.

(** ** Order *)
Lemma sorted_app (l m : list nat) :
  StronglySorted lt l -> StronglySorted lt m ->
  (forall x y, In x l -> In y m -> x < y) -> StronglySorted lt (l ++ m).
Proof.
  induction 1; intros Hm Hlt; simpl; auto. constructor.
  - apply IHStronglySorted; auto. intros; apply Hlt; simpl; auto.
  - apply Forall_app. split; auto. apply Forall_forall. intros y Hy. apply Hlt; simpl; auto.
Qed.
Lemma sorted_flat_map (f : nat -> list nat) sel :
  StronglySorted lt sel -> (forall x, In x sel -> StronglySorted lt (f x)) ->
  (forall x y u v, In x sel -> In y sel -> x < y -> In u (f x) -> In v (f y) -> u < v) ->
  StronglySorted lt (flat_map f sel).
Proof.
  induction 1; intros Hf Hlt; simpl; [constructor|].
  rewrite Forall_forall in H0.
  apply sorted_app.
  - apply Hf. now left.
  - apply IHStronglySorted.
    + intros x Hx. apply Hf. now right.
    + intros x y u v Hx Hy. apply Hlt; now right.
  - intros u v Hu Hv. apply in_flat_map in Hv as (y & Hy & Hv).
    apply (Hlt a y); simpl; auto.
Qed.
Lemma sorted_seq a n : StronglySorted lt (seq a n).
Proof.
  revert a. induction n; intros; simpl; constructor; auto.
  apply Forall_forall. intros x Hx. apply in_seq in Hx. lia.
Qed.
Lemma sorted_map_mono (f : nat -> nat) l :
  (forall x y, x < y -> f x < f y) -> StronglySorted lt l -> StronglySorted lt (map f l).
Proof.
  intros Hf. induction 1; simpl; constructor; auto.
  rewrite Forall_forall in *. intros y Hy. apply in_map_iff in Hy as (z & <- & Hz). auto.
Qed.
Lemma sorted_NoDup l : StronglySorted lt l -> NoDup l.
Proof.
  induction 1; constructor; auto. intros Hi. rewrite Forall_forall in H0.
  specialize (H0 _ Hi). lia.
Qed.

Lemma sorted_box g sk sj si :
  StronglySorted lt sk -> StronglySorted lt sj -> StronglySorted lt si ->
  Forall (fun i => i < pad (ny g)) sj -> Forall (fun i => i < pad (nx g)) si ->
  StronglySorted lt (box g sk sj si).
Proof.
  intros Hk Hj Hi Bj Bi. rewrite Forall_forall in Bj, Bi. unfold box.
  apply sorted_flat_map; auto.
  - intros k Ik. apply sorted_flat_map; auto.
    + intros j Ij. apply sorted_map_mono; auto. intros. unfold idx. lia.
    + intros j j' u v Ij Ij' L Hu Hv.
      apply in_map_iff in Hu as (i & <- & Iu). apply in_map_iff in Hv as (i' & <- & Iv).
      apply Bi in Iu, Iv. unfold idx. nia.
  - intros k k' u v Ik Ik' L Hu Hv.
    apply in_flat_map in Hu as (j & Ij & Hu). apply in_flat_map in Hv as (j' & Ij' & Hv).
    apply in_map_iff in Hu as (i & <- & Iu). apply in_map_iff in Hv as (i' & <- & Iv).
    apply Bi in Iu, Iv. apply Bj in Ij, Ij'. unfold idx.
    assert (j + pad (ny g) * k + 1 <= j' + pad (ny g) * k') by nia. nia.
Qed.

Lemma sorted_keepsel lr n : StronglySorted lt (keepsel lr n).
Proof. unfold keepsel. destruct (1 <? n). apply sorted_seq. repeat constructor. Qed.
Lemma sorted_fullsel n : StronglySorted lt (fullsel n).
Proof. apply sorted_seq. Qed.
Lemma sorted_endsel n : 1 < n -> StronglySorted lt (endsel n).
Proof.
  intros. unfold endsel, pad. destruct (Nat.ltb_spec 1 n); [|lia].
  repeat constructor; lia.
Qed.
Lemma sorted_zero : StronglySorted lt [0].
Proof. repeat constructor. Qed.
Lemma NoDup_app {A} (l m : list A) :
  NoDup l -> NoDup m -> (forall x, In x l -> ~ In x m) -> NoDup (l ++ m).
Proof.
  induction 1; simpl; intros Hm Hd; auto. constructor.
  - rewrite in_app_iff. intros [?|?]; auto. apply (Hd x); simpl; auto.
  - apply IHNoDup; auto.
Qed.

Lemma NoDup_layer_ids g : wf g -> NoDup (layer_ids g).
Proof.
  intros (Hx & Hy & Hz).
  pose proof (fullsel_lt (nx g)). pose proof (fullsel_lt (ny g)). pose proof (fullsel_lt (nz g)).
  pose proof (endsel_lt _ Hx). pose proof (endsel_lt _ Hy). pose proof (endsel_lt _ Hz).
  pose proof (zero_lt _ Hx). pose proof (zero_lt _ Hy). pose proof (zero_lt _ Hz).
  pose proof (keepsel_lt (true,true) _ Hx) as Kx. pose proof (keepsel_lt (true,true) _ Hy) as Ky.
  pose proof (keepsel_lt (true,true) _ Hz) as Kz.
  pose proof sorted_zero.
  pose proof (sorted_fullsel (nx g)). pose proof (sorted_fullsel (ny g)).
  pose proof (sorted_fullsel (nz g)).
  pose proof (sorted_keepsel (true,true) (nx g)). pose proof (sorted_keepsel (true,true) (ny g)).
  pose proof (sorted_keepsel (true,true) (nz g)).
  fold (midsel (nx g)) (midsel (ny g)) (midsel (nz g)) in *.
  assert (D1 : forall n i, 1 < n -> In i (endsel n) -> In i (midsel n) -> False).
  { intros n i Hn Hi Hi'. apply In_midsel in Hi'. unfold inn, endsel, pad in *.
    destruct (Nat.ltb_spec 1 n); [|lia]. simpl in Hi. lia. }
  assert (D2 : forall sk sj si sk' sj' si',
     Forall (fun i => i < pad (ny g)) sj -> Forall (fun i => i < pad (nx g)) si ->
     Forall (fun i => i < pad (ny g)) sj' -> Forall (fun i => i < pad (nx g)) si' ->
     ((forall i, In i sk -> In i sk' -> False) \/ (forall i, In i sj -> In i sj' -> False) \/
      (forall i, In i si -> In i si' -> False)) ->
     forall n, In n (box g sk sj si) -> ~ In n (box g sk' sj' si')).
  { intros sk sj si sk' sj' si' B1 B2 B3 B4 Dj n I1 I2. rewrite Forall_forall in *.
    apply In_box in I1 as (i & j & k & Ii & Ij & Ik & ->).
    apply In_box in I2 as (i' & j' & k' & Ii' & Ij' & Ik' & E).
    apply idx_inj in E as (-> & -> & ->); auto.
    destruct Dj as [Dj|[Dj|Dj]]; eauto. }
  unfold layer_ids, flow_axes.
  destruct (Nat.ltb_spec 1 (nx g)); destruct (Nat.ltb_spec 1 (ny g));
    destruct (Nat.ltb_spec 1 (nz g)); cbn [app];
  try pose proof (sorted_endsel (nx g) ltac:(lia));
  try pose proof (sorted_endsel (ny g) ltac:(lia));
  try pose proof (sorted_endsel (nz g) ltac:(lia));
  repeat match goal with |- NoDup (_ ++ _) => apply NoDup_app end; try (apply sorted_NoDup, sorted_box; auto; fail);
  try apply seq_NoDup;
  (intros n I1 I2; repeat match type of I2 with In _ (_ ++ _) => apply in_app_iff in I2 as [I2|I2] end;
   refine (D2 _ _ _ _ _ _ _ _ _ _ _ n I1 I2); auto;
   first [ right; left; intros i Ii Ii'; solve [eapply D1; [| exact Ii | exact Ii']; assumption]
         | right; right; intros i Ii Ii'; solve [eapply D1; [| exact Ii | exact Ii']; assumption]
         | left; intros i Ii Ii'; solve [eapply D1; [| exact Ii | exact Ii']; assumption] ]).
Qed.

(** ** Transfer to integers and coordinates *)
Definition zc (i j k : nat) : coord := (Z.of_nat i, Z.of_nat j, Z.of_nat k).

Lemma natural_idx g i j k : natural_id g (zc i j k) = Z.of_nat (idx g i j k).
Proof. unfold natural_id, zc, idx. rewrite <- !pad_padded. lia. Qed.

Lemma in_grid_zc g c : in_grid g c <->
  exists i j k, c = zc i j k /\ i < pad (nx g) /\ j < pad (ny g) /\ k < pad (nz g).
Proof.
  destruct c as [[x y] z]. unfold in_grid. split.
  - intros H. pose proof (H AX ltac:(congruence)). pose proof (H AY ltac:(congruence)).
    pose proof (H AZ ltac:(congruence)). simpl in *. rewrite <- !pad_padded in *.
    exists (Z.to_nat x), (Z.to_nat y), (Z.to_nat z). unfold zc.
    rewrite !Z2Nat.id by lia. repeat split; lia.
  - intros (i & j & k & E & Hi & Hj & Hk) a Ha. inversion E; subst.
    destruct a; try congruence; simpl; rewrite <- pad_padded; lia.
Qed.
Lemma interior_zc g c : wf g -> (interior g c <->
  exists i j k, c = zc i j k /\ inn (nx g) i /\ inn (ny g) j /\ inn (nz g) k).
Proof.
  intros (Hx & Hy & Hz). destruct c as [[x y] z]. unfold interior, flows. split.
  - intros H. pose proof (H AX ltac:(congruence)). pose proof (H AY ltac:(congruence)).
    pose proof (H AZ ltac:(congruence)). simpl in *.
    exists (Z.to_nat x), (Z.to_nat y), (Z.to_nat z). unfold zc, inn.
    rewrite !Z2Nat.id by lia.
    destruct (Nat.ltb_spec 1 (nx g)), (Nat.ltb_spec 1 (ny g)), (Nat.ltb_spec 1 (nz g));
      repeat split; lia.
  - intros (i & j & k & E & Hi & Hj & Hk) a Ha. inversion E; subst. unfold inn in *.
    destruct (Nat.ltb_spec 1 (nx g)), (Nat.ltb_spec 1 (ny g)), (Nat.ltb_spec 1 (nz g));
    destruct a; try congruence; simpl; lia.
Qed.
Lemma zc_inj i j k i' j' k' : zc i j k = zc i' j' k' -> i = i' /\ j = j' /\ k = k'.
Proof. unfold zc. intros E. inversion E. lia. Qed.

Lemma interior_in_grid g c : wf g -> interior g c -> in_grid g c.
Proof.
  intros H I. apply interior_zc in I; auto. destruct I as (i & j & k & -> & Hi & Hj & Hk).
  destruct H as (?&?&?). apply in_grid_zc. exists i, j, k. repeat split; auto using inn_lt.
Qed.
Lemma interior_dec g c : {interior g c} + {~ interior g c}.
Proof.
  destruct c as [[x y] z]. unfold interior, flows.
  assert (D : forall a, a <> ADash -> forall (n:nat) (v:Z), { ((1 < n)%nat /\ (1 <= v <= Z.of_nat n)%Z) \/ (~ (1 < n)%nat /\ v = 0%Z)} + {~ (((1 < n)%nat /\ (1 <= v <= Z.of_nat n)%Z) \/ (~ (1 < n)%nat /\ v = 0%Z))}).
  { intros _ _ n v. destruct (lt_dec 1 n), (Z_le_dec 1 v), (Z_le_dec v (Z.of_nat n)), (Z.eq_dec v 0);
      first [left; lia | right; lia]. }
  destruct (D AX ltac:(congruence) (nx g) x) as [Ax|Ax];
  [ | right; intros H; apply Ax, (H AX); congruence].
  destruct (D AY ltac:(congruence) (ny g) y) as [Ay|Ay];
  [ | right; intros H; apply Ay, (H AY); congruence].
  destruct (D AZ ltac:(congruence) (nz g) z) as [Az|Az];
  [ | right; intros H; apply Az, (H AZ); congruence].
  left. intros a Ha. destruct a; simpl; auto; congruence.
Qed.

Lemma natural_id_inj g c c' :
  in_grid g c -> in_grid g c' -> natural_id g c = natural_id g c' -> c = c'.
Proof.
  rewrite !in_grid_zc. intros (i & j & k & -> & ? & ? & ?) (i' & j' & k' & -> & ? & ? & ?) E.
  rewrite !natural_idx in E. apply Nat2Z.inj, idx_inj in E as (-> & -> & ->); auto.
Qed.

Definition interior_ids (g : grid) : list nat :=
  box g (midsel (nz g)) (midsel (ny g)) (midsel (nx g)).

Lemma nth_arange n m : n < m -> nth n (arange m) 0%Z = Z.of_nat n.
Proof.
  intros. unfold arange. change 0%Z with (Z.of_nat 0). rewrite map_nth, seq_nth; auto.
Qed.

Lemma box_lt g sk sj si n :
  Forall (fun i => i < pad (nz g)) sk -> Forall (fun i => i < pad (ny g)) sj ->
  Forall (fun i => i < pad (nx g)) si -> In n (box g sk sj si) ->
  n < pad (nx g) * pad (ny g) * pad (nz g).
Proof.
  rewrite !Forall_forall. intros B1 B2 B3 I. apply In_box in I as (i & j & k & ? & ? & ? & ->).
  apply idx_lt; auto.
Qed.

Lemma arange_length n : length (arange n) = n.
Proof. unfold arange. now rewrite map_length, seq_length. Qed.

Lemma cells_id_true g : get_cells_id g true = Ok (arange (get_n g true)).
Proof. reflexivity. Qed.
Lemma cells_id_false g : wf g -> get_cells_id g false = Ok (map Z.of_nat (interior_ids g)).
Proof.
  intros H. unfold get_cells_id, get_order.
  rewrite (remove_canon g _ _ (true,true)); auto using arange_length.
  f_equal. rewrite get_n_true by auto. destruct H as (Hx & Hy & Hz).
  assert (Bx := keepsel_lt (true,true) _ Hx). assert (By := keepsel_lt (true,true) _ Hy).
  assert (Bz := keepsel_lt (true,true) _ Hz).
  rewrite (sub3_box _ _ _ _ _ 0%Z) by (auto using arange_length).
  apply map_ext_in. intros n Hn. apply nth_arange. eapply box_lt; eauto.
Qed.

Lemma In_interior_ids g z : wf g ->
  (In z (map Z.of_nat (interior_ids g)) <-> exists c, interior g c /\ z = natural_id g c).
Proof.
  intros H. rewrite in_map_iff. split.
  - intros (n & <- & Hn). apply In_box in Hn as (i & j & k & Hi & Hj & Hk & ->).
    exists (zc i j k). rewrite natural_idx. split; auto. apply interior_zc; auto.
    exists i, j, k. rewrite !In_midsel in *. auto.
  - intros (c & I & ->). apply interior_zc in I as (i & j & k & -> & Hi & Hj & Hk); auto.
    exists (idx g i j k). rewrite natural_idx. split; auto. apply In_box.
    exists i, j, k. rewrite !In_midsel. auto.
Qed.
Lemma sorted_Z_of_nat l : StronglySorted lt l -> StronglySorted Z.lt (map Z.of_nat l).
Proof.
  induction 1; simpl; constructor; auto. rewrite Forall_forall in *.
  intros z Hz. apply in_map_iff in Hz as (y & <- & Hy). apply H0 in Hy. lia.
Qed.
Lemma sorted_interior_ids g : wf g -> StronglySorted lt (interior_ids g).
Proof.
  intros (Hx & Hy & Hz). unfold interior_ids, midsel.
  apply sorted_box; auto using sorted_keepsel, keepsel_lt.
Qed.

Lemma layer_ids_lt g n : wf g -> has_flow g -> In n (layer_ids g) -> n < get_n g true.
Proof.
  intros H F I. apply In_layer_ids in I as (i & j & k & ? & ? & ? & -> & _); auto.
  rewrite get_n_true by auto. now apply idx_lt.
Qed.

Lemma boundaries_id g : wf g -> has_flow g ->
  get_boundaries_id g = Ok (zsort (map Z.of_nat (layer_ids g))).
Proof.
  intros H F. unfold get_boundaries_id. rewrite cells_id_true. simpl.
  unfold extract_boundaries_z. rewrite extract_canon by auto using arange_length. simpl.
  rewrite (layers_ids _ _ 0%Z) by auto using arange_length. do 2 f_equal.
  apply map_ext_in. intros n Hn. apply nth_arange, layer_ids_lt; auto.
Qed.
Lemma In_boundary_ids g z : wf g -> has_flow g ->
  (In z (map Z.of_nat (layer_ids g)) <-> exists c, boundary_cell g c /\ z = natural_id g c).
Proof.
  intros H F. rewrite in_map_iff. split.
  - intros (n & <- & Hn). apply In_layer_ids in Hn as (i & j & k & Hi & Hj & Hk & -> & N); auto.
    exists (zc i j k). rewrite natural_idx. split; auto. split.
    + apply in_grid_zc. exists i, j, k. auto.
    + intros I. apply interior_zc in I as (i' & j' & k' & E & ? & ? & ?); auto.
      apply zc_inj in E as (-> & -> & ->). tauto.
  - intros (c & (I & N) & ->). apply in_grid_zc in I as (i & j & k & -> & Hi & Hj & Hk).
    exists (idx g i j k). rewrite natural_idx. split; auto. apply In_layer_ids; auto.
    exists i, j, k. repeat split; auto. intros (?&?&?). apply N, interior_zc; auto.
    exists i, j, k. auto.
Qed.
