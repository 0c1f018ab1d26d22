(** Property lemmas about grid indices. *)
From Coq Require Import String ZArith Bool Arith List Lia Permutation Sorted.
From Verif Require Import Prelude PreludeFacts GridModel GridSpec GridProofs GridNeighbors.
Import ListNotations.
Local Open Scope Z_scope.

(** C01: the constructor accepts exactly positive sizes; direction, dimension, shapes. *)
Lemma L_C01_direction_and_shape :
  forall x y z u,
  (forall g, grid_new x y z u = Ok g <->
     (1 <= x)%nat /\ (1 <= y)%nat /\ (1 <= z)%nat /\ g = mkGrid x y z u) /\
  forall g, grid_new x y z u = Ok g ->
  let flow := filter (fun a => Nat.ltb 1 (size g a)) [AX; AY; AZ] in
  get_fdir g = (match flow with [] => [ADash] | _ => flow end) /\
  get_D g = length flow /\
  get_shape g false = [x; y; z] /\
  map Z.of_nat (get_shape g true) = [padded x; padded y; padded z] /\
  get_n g false = (x * y * z)%nat /\
  Z.of_nat (get_n g true) = padded x * padded y * padded z.
Proof.
  intros x y z u.
  assert (A : forall g, grid_new x y z u = Ok g <->
     (1 <= x)%nat /\ (1 <= y)%nat /\ (1 <= z)%nat /\ g = mkGrid x y z u).
  { intros g. unfold grid_new.
    destruct (Nat.leb_spec 1 x); cbn [passert rbind]; [|split; [discriminate|lia]].
    destruct (Nat.leb_spec 1 y); cbn [passert rbind]; [|split; [discriminate|lia]].
    destruct (Nat.leb_spec 1 z); cbn [passert rbind]; [|split; [discriminate|lia]].
    split; [intros E; inversion E; auto | intros (_ & _ & _ & ->); auto]. }
  split; auto. intros g Hg. apply A in Hg as (Hx & Hy & Hz & ->).
  assert (W : wf (mkGrid x y z u)) by (repeat split; auto).
  rewrite get_fdir_spec, get_D_spec by auto. rewrite get_shape_true, get_n_true by auto.
  unfold flow_axes, get_n. cbn [filter size nx ny nz map get_shape shape_inner prodn fold_right].
  rewrite !pad_padded, !Nat2Z.inj_mul, !pad_padded.
  repeat split; try lia; destruct (1 <? x)%nat, (1 <? y)%nat, (1 <? z)%nat; reflexivity.
Qed.

Example ex_C01_case :
  exists g, grid_new 3 1 2 false = Ok g /\ get_fdir g = [AX; AZ] /\ get_n g true = 20%nat.
Proof. eexists. repeat split; reflexivity. Qed.

(** C01: get_fdir gives the same answer when the attribute self.shape has been
    left as the shape with boundary by an earlier call. *)
Lemma L_C01_direction_from_boundary_shape :
  forall g, wf g -> fdir_of_shape (get_D g) (get_shape g true) = get_fdir g.
Proof.
  intros g H. rewrite get_fdir_spec, get_shape_true, get_D_spec by auto.
  unfold flow_axes, pad.
  cases_flow g H; simpl; unfold argmax, argmin; simpl; auto;
  repeat match goal with
  | |- context [Nat.ltb ?a ?b] => destruct (Nat.ltb_spec a b); try lia; simpl
  end; auto.
Qed.
Example ex_C01_stale : wf (mkGrid 4 1 1 true) /\ get_shape (mkGrid 4 1 1 true) true = [6; 1; 1]%nat.
Proof. repeat split; simpl; lia. Qed.

(** C02: ids and coordinates (grid with boundary). *)
Lemma L_C02_id_coords_bijection :
  forall g, wf g ->
  (forall c, in_grid g c ->
     get_cell_id g c true = Some (natural_id g c) /\
     0 <= natural_id g c < Z.of_nat (get_n g true) /\
     get_cell_coords g (natural_id g c) true = Ok c) /\
  (forall c, ~ in_grid g c -> get_cell_id g c true = None) /\
  (forall id, 0 <= id < Z.of_nat (get_n g true) ->
     exists c, in_grid g c /\ get_cell_coords g id true = Ok c /\
               get_cell_id g c true = Some id) /\
  (forall id, ~ 0 <= id < Z.of_nat (get_n g true) -> get_cell_coords g id true = Err TypeError).
Proof.
  intros g W.
  assert (A : forall c, in_grid g c ->
     get_cell_id g c true = Some (natural_id g c) /\
     0 <= natural_id g c < Z.of_nat (get_n g true) /\
     get_cell_coords g (natural_id g c) true = Ok c).
  { intros c G. split; [|split].
    - rewrite cell_id_natural by auto. apply gridb_true in G. now rewrite G.
    - now apply natural_id_range.
    - now apply cell_coords_natural. }
  split; auto. split; [|split].
  - intros c N. rewrite cell_id_natural by auto. destruct (gridb g c) eqn:E; auto.
    apply gridb_true in E. contradiction.
  - intros id H. apply natural_id_surj in H as (c & G & <-); auto.
    exists c. destruct (A c G) as (? & ? & ?). auto.
  - intros id H. unfold get_cell_coords, pv_cell_coords. rewrite get_shape_true by auto.
    rewrite get_n_true in H by auto.
    destruct (Z.leb_spec 0 id); simpl; auto.
    destruct (Z.ltb_spec id (Z.of_nat (pad (nx g)) * Z.of_nat (pad (ny g)) * Z.of_nat (pad (nz g))));
      auto. exfalso. apply H. lia.
Qed.
(** C02: ids and coordinates without boundary cells. *)
Lemma L_C02_id_coords_bijection_inner :
  forall g, wf g ->
  let inside c := match c with (i, j, k) =>
    0 <= i < Z.of_nat (nx g) /\ 0 <= j < Z.of_nat (ny g) /\ 0 <= k < Z.of_nat (nz g) end in
  (forall i j k, inside (i, j, k) ->
     let id := i + Z.of_nat (nx g) * (j + Z.of_nat (ny g) * k) in
     get_cell_id g (i, j, k) false = Some id /\ 0 <= id < Z.of_nat (get_n g false) /\
     get_cell_coords g id false = Ok (i, j, k)) /\
  (forall c, ~ inside c -> get_cell_id g c false = None) /\
  (forall id, 0 <= id < Z.of_nat (get_n g false) ->
     exists c, inside c /\ get_cell_coords g id false = Ok c /\ get_cell_id g c false = Some id).
Proof.
  intros g (Hx & Hy & Hz). unfold get_cell_id, get_cell_coords, pv_cell_id, pv_cell_coords, get_n.
  unfold get_shape, shape_inner. cbn [prodn fold_right].
  set (a := nx g) in *. set (b := ny g) in *. set (e := nz g) in *. clearbody a b e. simpl.
  assert (E : Z.of_nat (a * (b * (e * 1))) = Z.of_nat a * Z.of_nat b * Z.of_nat e) by lia.
  rewrite !E. clear E. set (A := Z.of_nat a). set (B := Z.of_nat b). set (C := Z.of_nat e).
  assert (1 <= A) by lia. assert (1 <= B) by lia. assert (1 <= C) by lia.
  clearbody A B C. clear Hx Hy Hz a b e g.
  assert (P1 : forall i j k, 0 <= i < A -> 0 <= j < B -> 0 <= k < C ->
    0 <= i + A * (j + B * k) < A * B * C).
  { intros. assert (0 <= j + B * k <= B * C - 1) by nia. nia. }
  assert (P2 : forall i j k, 0 <= i < A -> 0 <= j < B -> 0 <= k < C ->
    (i + A * (j + B * k)) mod A = i /\ ((i + A * (j + B * k)) / A) mod B = j /\
    (i + A * (j + B * k)) / (A * B) = k).
  { intros. replace (i + A * (j + B * k)) with (i + (j + k * B) * A) by lia.
    rewrite <- Zdiv.Zdiv_Zdiv by lia.
    rewrite Z_mod_plus_full, Z.div_add, (Z.mod_small i), (Z.div_small i) by lia.
    rewrite Z.add_0_l, Z_mod_plus_full, Z.div_add, Z.mod_small, Z.div_small by lia. auto. }
  assert (Q : forall i j k, ((0 <=? i) && (i <? A) && (0 <=? j) && (j <? B) && (0 <=? k) && (k <? C))%bool
    = true <-> 0 <= i < A /\ 0 <= j < B /\ 0 <= k < C).
  { intros. rewrite !andb_true_iff, !Z.leb_le, !Z.ltb_lt. lia. }
  assert (R : forall i j k, 0 <= i < A /\ 0 <= j < B /\ 0 <= k < C ->
     ((if ((0 <=? i) && (i <? A) && (0 <=? j) && (j <? B) && (0 <=? k) && (k <? C))%bool
      then Some (i + A * (j + B * k)) else None) = Some (i + A * (j + B * k))) /\
     match (if ((0 <=? i + A * (j + B * k)) && (i + A * (j + B * k) <? A * B * C))%bool
        then Some ((i + A * (j + B * k)) mod A, ((i + A * (j + B * k)) / A) mod B,
                    (i + A * (j + B * k)) / (A * B)) else None)
     with Some c => Ok c | None => Err TypeError end = Ok (i, j, k)).
  { intros i j k K. rewrite (proj2 (Q i j k) K). destruct K as (K1 & K2 & K3). split; auto.
    specialize (P1 i j k K1 K2 K3). destruct (P2 i j k K1 K2 K3) as (-> & -> & ->).
    destruct (Z.leb_spec 0 (i + A * (j + B * k))); [|lia].
    destruct (Z.ltb_spec (i + A * (j + B * k)) (A * B * C)); [|lia]. reflexivity. }
  split; [|split].
  - intros i j k K. destruct (R i j k K) as (R1 & R2).
    split; [exact R1|]. split; [apply P1; tauto|exact R2].
  - intros [[i j] k] K. destruct ((0 <=? i) && (i <? A) && (0 <=? j) && (j <? B) && (0 <=? k) && (k <? C))%bool eqn:E; auto.
    apply Q in E. tauto.
  - intros id K.
    assert (K1 : 0 <= id mod A < A) by (apply Z.mod_pos_bound; lia).
    assert (K2 : 0 <= (id / A) mod B < B) by (apply Z.mod_pos_bound; lia).
    assert (K3 : 0 <= id / A / B < C).
    { split. apply Z.div_pos; [apply Z.div_pos; lia|lia].
      apply Z.div_lt_upper_bound; [lia|]. apply Z.div_lt_upper_bound; [lia|]. lia. }
    assert (E : id = id mod A + A * ((id / A) mod B + B * (id / A / B))).
    { pose proof (Z.div_mod id A ltac:(lia)). pose proof (Z.div_mod (id / A) B ltac:(lia)). lia. }
    exists (id mod A, (id / A) mod B, id / A / B). split; [auto|].
    destruct (R _ _ _ (conj K1 (conj K2 K3))) as (R1 & R2). rewrite <- E in R1, R2. rewrite <- E. auto.
Qed.
Example ex_C02_case :
  let g := mkGrid 4 3 2 true in
  wf g /\ in_grid g (5, 2, 3) /\ get_cell_id g (5, 2, 3) true = Some 107 /\
  get_cell_coords g 107 true = Ok (5, 2, 3).
Proof.
  split; [repeat split; simpl; lia|]. split; [|split; reflexivity].
  apply gridb_true. reflexivity.
Qed.

(** C03: interior and boundary ids partition the ids of the grid. *)
Lemma L_C03_interior_boundary_partition :
  forall g, wf g -> has_flow g ->
  exists inner bound,
    get_cells_id g false = Ok inner /\ get_boundaries_id g = Ok bound /\
    StronglySorted Z.lt inner /\ StronglySorted Z.lt bound /\
    (forall id, In id inner <-> exists c, interior g c /\ id = natural_id g c) /\
    (forall id, In id bound <-> exists c, boundary_cell g c /\ id = natural_id g c) /\
    (forall id, In id inner \/ In id bound <-> 0 <= id < Z.of_nat (get_n g true)) /\
    (forall id, ~ (In id inner /\ In id bound)) /\
    length inner = (nx g * ny g * nz g)%nat.
Proof.
  intros g W F. exists (map Z.of_nat (interior_ids g)), (zsort (map Z.of_nat (layer_ids g))).
  assert (M : forall z, In z (zsort (map Z.of_nat (layer_ids g))) <->
      exists c, boundary_cell g c /\ z = natural_id g c).
  { intros z. rewrite <- In_boundary_ids by auto.
    split; apply Permutation_in; [apply zsort_perm|symmetry; apply zsort_perm]. }
  assert (MI := fun z => In_interior_ids g z W).
  split; [now apply cells_id_false|]. split; [now apply boundaries_id|].
  split; [apply sorted_Z_of_nat, sorted_interior_ids; auto|].
  split.
  { apply sorted_nodup_lt. apply zsort_sorted.
    eapply Permutation_NoDup; [symmetry; apply zsort_perm|].
    apply FinFun.Injective_map_NoDup. intros x y; lia. now apply NoDup_layer_ids. }
  split; auto. split; auto. split; [|split].
  - intros id. rewrite MI, M. split.
    + intros [(c & I & ->)|(c & (G & _) & ->)]; apply natural_id_range; auto.
      now apply interior_in_grid.
    + intros H. apply natural_id_surj in H as (c & G & <-); auto.
      destruct (interior_dec g c); [left|right]; exists c; split; auto. split; auto.
  - intros id. rewrite MI, M. intros ((c & I & ->) & (c' & (G & N) & E)).
    apply natural_id_inj in E; auto. now subst. now apply interior_in_grid.
  - rewrite map_length. unfold interior_ids, box.
    assert (L : forall n, (1 <= n)%nat -> length (midsel n) = n).
    { intros n Hn. unfold midsel, keepsel, slice_idx. destruct (Nat.ltb_spec 1 n).
      rewrite seq_length. simpl. lia. simpl. lia. }
    destruct W as (Hx & Hy & Hz).
    rewrite (flat_map_length_const _ (ny g * nx g)).
    + rewrite L by auto. lia.
    + intros k _. rewrite (flat_map_length_const _ (nx g)).
      rewrite L by auto; lia. intros j _. now rewrite map_length, L.
Qed.
Example ex_C03_case :
  let g := mkGrid 3 2 1 false in
  wf g /\ has_flow g /\ get_cells_id g false = Ok [6; 7; 8; 11; 12; 13] /\
  get_boundaries_id g = Ok [0; 1; 2; 3; 4; 5; 9; 10; 14; 15; 16; 17; 18; 19].
Proof. split; [repeat split; simpl; lia|]. split; [left; unfold flows; simpl; lia|]. split; reflexivity. Qed.

(** C04 is false: on the 1x1x1 grid cell 0 is both interior and boundary. *)
Lemma L_C04_single_cell_refuted :
  forall u, exists inner bound id,
    grid_new 1 1 1 u = Ok (mkGrid 1 1 1 u) /\
    get_cells_id (mkGrid 1 1 1 u) false = Ok inner /\
    get_boundaries_id (mkGrid 1 1 1 u) = Ok bound /\ In id inner /\ In id bound.
Proof. intros u. exists [0], [0], 0. destruct u; repeat split; simpl; auto. Qed.

(** C05: remove_boundaries keeps exactly the wanted cells, in increasing id order. *)
Lemma L_C05_remove_boundaries :
  forall (A : Type) g (data : list A) (d : A) (left right : bool), wf g ->
  length data = get_n g true ->
  (left || right = true)%bool ->
  let mode := if left then (if right then "both" else "left")%string else "right"%string in
  exists ids,
    StronglySorted Z.lt ids /\
    (forall id, In id ids <-> exists c, kept left right g c /\ id = natural_id g c) /\
    remove_boundaries g data mode = Ok (map (fun id => nth (Z.to_nat id) data d) ids).
Proof.
  intros A g data d l r W Hl Hlr mode.
  assert (Hm : remove_mode mode = Ok (l, r)) by (destruct l, r; try discriminate; reflexivity).
  pose proof W as (Hx & Hy & Hz).
  exists (map Z.of_nat (box g (keepsel (l,r) (nz g)) (keepsel (l,r) (ny g)) (keepsel (l,r) (nx g)))).
  assert (Bx := keepsel_lt (l,r) _ Hx). assert (By := keepsel_lt (l,r) _ Hy).
  assert (Bz := keepsel_lt (l,r) _ Hz).
  split; [|split].
  - apply sorted_Z_of_nat, sorted_box; auto using sorted_keepsel.
  - assert (K : forall n i, (1 <= n)%nat -> (In i (keepsel (l, r) n) <->
       (i < pad n)%nat /\ ((1 < n)%nat -> (l = true -> i <> 0%nat) /\ (r = true -> i <> n + 1)%nat))).
    { intros n i Hn. unfold keepsel, slice_idx, pad. destruct (Nat.ltb_spec 1 n); simpl.
      - rewrite in_seq. destruct l, r; intuition lia.
      - intuition lia. }
    intros id. rewrite in_map_iff. split.
    + intros (n & <- & Hn). apply In_box in Hn as (i & j & k & Hi & Hj & Hk & ->).
      exists (zc i j k). rewrite natural_idx. split; auto.
      apply K in Hi as [Hi Ki]; auto. apply K in Hj as [Hj Kj]; auto. apply K in Hk as [Hk Kk]; auto.
      split. { apply in_grid_zc. exists i, j, k. auto. }
      intros a Fa. unfold flows in Fa. destruct a; simpl in *; try lia.
      all: intuition lia.
    + intros (c & (G & KK) & ->). apply in_grid_zc in G as (i & j & k & -> & Hi & Hj & Hk).
      exists (idx g i j k). rewrite natural_idx. split; auto. apply In_box.
      exists i, j, k. unfold flows in KK.
      pose proof (KK AX) as K1. pose proof (KK AY) as K2. pose proof (KK AZ) as K3. simpl in *.
      rewrite !K by auto. intuition lia.
  - rewrite (remove_canon g data mode (l, r)) by auto. f_equal.
    rewrite (sub3_box _ _ _ _ _ d) by (auto; rewrite Hl, get_n_true; auto).
    rewrite map_map. apply map_ext. intros. now rewrite Nat2Z.id.
Qed.
(** C05: with remove='both' the kept cells are the interior ones; other mode
    strings and arrays of another length are rejected. *)
Lemma L_C05_both_is_interior :
  forall g, wf g ->
  (forall c, kept true true g c <-> interior g c) /\
  (forall (A : Type) (data : list A) m, length data = get_n g true ->
     m <> "both"%string -> m <> "left"%string -> m <> "right"%string ->
     remove_boundaries g data m = Err ValueError) /\
  (forall (A : Type) (data : list A) m, length data <> get_n g true ->
     remove_boundaries g data m = Err ValueError).
Proof.
  intros g W. split; [|split].
  - intros c. split.
    + intros (G & K) a Ha. specialize (K a). specialize (G a Ha). unfold flows, padded in *.
      destruct (Nat.ltb_spec 1 (size g a)).
      * left. destruct (K H) as [K1 K2]. specialize (K1 eq_refl). specialize (K2 eq_refl). lia.
      * right. split; [lia|]. destruct W as (?&?&?). destruct a; simpl in *; try congruence; lia.
    + intros I. split; [now apply interior_in_grid|]. intros a Fa.
      assert (a <> ADash) by (intros ->; unfold flows in Fa; simpl in Fa; lia).
      destruct (I a H) as [[_ ?]|[N _]]; [|contradiction]. lia.
  - intros A data m Hl N1 N2 N3. unfold remove_boundaries.
    unfold get_fshape. rewrite get_shape_true, get_fdir_spec by auto.
    assert (M : remove_mode m = Err ValueError).
    { unfold remove_mode. apply String.eqb_neq in N1, N2, N3. now rewrite N1, N2, N3. }
    rewrite M. rewrite get_n_true in Hl by auto. unfold flow_axes, pad in *.
    destruct (unify g); flow_split g W; cbn [app rbind negb];
      (rewrite reshape_ok by (simpl; lia)); reflexivity.
  - intros A data m Hl. unfold remove_boundaries, get_fshape.
    rewrite get_shape_true, get_fdir_spec by auto.
    rewrite get_n_true in Hl by auto.
    assert (R : forall s, prodn s = (pad (nx g) * pad (ny g) * pad (nz g))%nat ->
      reshape s data = Err ValueError).
    { intros s E. unfold reshape. destruct (Nat.eqb_spec (length data) (prodn s)); auto. lia. }
    unfold flow_axes, pad in *.
    destruct (unify g); flow_split g W; cbn [app rbind negb];
      (rewrite R by (simpl; lia)); reflexivity.
Qed.
Example ex_C05_case :
  let g := mkGrid 2 2 1 true in wf g /\ length (arange 16) = get_n g true /\
  remove_boundaries g (arange 16) "both" = Ok [5; 6; 9; 10] /\
  remove_boundaries g (arange 16) "left" = Ok [5; 6; 7; 9; 10; 11; 13; 14; 15].
Proof. repeat split; simpl; lia || reflexivity. Qed.

(** C06: extract_boundaries lists every boundary cell's value once; the numeric
    version is the sorted list of the same values. *)
Lemma L_C06_extract_boundaries :
  forall (A : Type) g (data : list A) (d : A), wf g -> has_flow g ->
  length data = get_n g true ->
  exists ids, NoDup ids /\
    (forall id, In id ids <-> exists c, boundary_cell g c /\ id = natural_id g c) /\
    extract_boundaries_pts g data = Ok (map (fun id => nth (Z.to_nat id) data d) ids).
Proof.
  intros A g data d W F Hl. exists (map Z.of_nat (layer_ids g)). split; [|split].
  - apply FinFun.Injective_map_NoDup. intros x y; lia. now apply NoDup_layer_ids.
  - intros id. now apply In_boundary_ids.
  - unfold extract_boundaries_pts. rewrite extract_canon by auto. f_equal.
    rewrite (layers_ids g data d) by auto. rewrite map_map. apply map_ext. intros.
    now rewrite Nat2Z.id.
Qed.
Lemma L_C06_extract_boundaries_sorted :
  forall g (data : list Z), wf g -> has_flow g -> length data = get_n g true ->
  exists vals out, extract_boundaries_pts g data = Ok vals /\
    extract_boundaries_z g data = Ok out /\ Permutation out vals /\ StronglySorted Z.le out.
Proof.
  intros g data W F Hl. unfold extract_boundaries_pts, extract_boundaries_z.
  rewrite extract_canon by auto. simpl. eexists. eexists. split; [reflexivity|].
  split; [reflexivity|]. split. apply zsort_perm.
  apply Sorted_StronglySorted. intros a b c; lia. apply zsort_sorted.
Qed.
Example ex_C06_case :
  let g := mkGrid 2 2 1 true in wf g /\ has_flow g /\ length (arange 16) = get_n g true /\
  extract_boundaries_pts g (arange 16) = Ok [0;1;2;3;12;13;14;15;4;7;8;11].
Proof.
  split; [repeat split; simpl; lia|]. split; [left; unfold flows; simpl; lia|]. split; reflexivity.
Qed.

(** C07: neighbours by id. *)
Lemma L_C07_neighbors_interior :
  forall g c, wf g -> has_flow g -> in_grid g c ->
  exists d, get_cell_neighbors g (natural_id g c) false = Ok d /\
  forall a, StronglySorted Z.lt (dirs_get a d) /\
    forall id, In id (dirs_get a d) <->
      exists c', interior g c' /\ face_adjacent a c c' /\ id = natural_id g c'.
Proof.
  intros g c W F G. rewrite neighbors_id_canon by auto. eexists. split; [reflexivity|].
  assert (SP : forall a, flows g a -> 0 < stride g a).
  { destruct W as (?&?&?). intros a Fa. unfold stride, padded, flows in *.
    destruct a; simpl in *; try lia; destruct (Nat.ltb_spec 1 (nx g)), (Nat.ltb_spec 1 (ny g)); lia. }
  assert (X : forall a, a <> ADash ->
    StronglySorted Z.lt (map (natural_id g) (filter (interiorb g) (adj g a c))) /\
    forall id, In id (map (natural_id g) (filter (interiorb g) (adj g a c))) <->
      exists c', interior g c' /\ face_adjacent a c c' /\ id = natural_id g c').
  { intros a Ha. split.
    - unfold adj. destruct (flowb g a) eqn:Fa; simpl; [|constructor]. apply flowb_true in Fa.
      specialize (SP a Fa).
      destruct (interiorb g (shift a (-1) c)), (interiorb g (shift a 1 c)); cbn [map];
        rewrite ?natural_shift; repeat constructor. lia.
    - intros id. rewrite in_map_iff. split.
      + intros (c' & <- & H). apply filter_In in H as (H & I). apply interiorb_true in I.
        exists c'. split; auto. split; auto. apply face_shift. split; auto. unfold adj in H.
        destruct (flowb g a); simpl in H; [|contradiction]. intuition.
      + intros (c' & I & A & ->). exists c'. split; auto. apply filter_In.
        rewrite interiorb_true. split; auto. apply face_shift in A as (_ & A).
        unfold adj. destruct (flowb g a) eqn:Fa.
        * simpl. intuition.
        * exfalso. assert (N : ~ flows g a) by (rewrite <- flowb_true; congruence).
          specialize (I a Ha). destruct I as [[? ?]|[_ I]]; [contradiction|].
          specialize (G a Ha). unfold padded, flows in *.
          destruct (Nat.ltb_spec 1 (size g a)); [contradiction|].
          destruct A as [->| ->]; rewrite at_shift_same in I by auto;
          destruct W as (?&?&?); destruct a; simpl in *; lia || congruence. }
  intros a. destruct a; try (apply X; congruence).
  simpl. split; [constructor|]. intros id. split; [contradiction|].
  intros (c' & _ & A & _). apply face_shift in A as (A & _). congruence.
Qed.
Lemma L_C07_neighbors_with_boundary :
  forall g c, wf g -> has_flow g -> interior g c ->
  exists d, get_cell_neighbors g (natural_id g c) true = Ok d /\
  forall a, (flows g a -> exists p n, step a p c /\ step a c n /\ in_grid g p /\ in_grid g n /\
                dirs_get a d = [natural_id g p; natural_id g n]) /\
            (~ flows g a -> dirs_get a d = []).
Proof.
  intros g c W F I. rewrite neighbors_id_canon by (auto; now apply interior_in_grid).
  pose proof I as I'. apply interiorb_true in I'. rewrite I'.
  eexists. split; [reflexivity|]. intros a. split.
  - intros Fa. assert (Ha : a <> ADash) by (intros ->; unfold flows in Fa; simpl in Fa; lia).
    exists (shift a (-1) c), (shift a 1 c). rewrite !step_shift. split; [|split; [|split; [|split]]].
    + split; auto. now rewrite shift_shift, shift_0.
    + auto.
    + apply in_grid_shift_interior; auto.
    + apply in_grid_shift_interior; auto.
    + apply flowb_true in Fa. destruct a; simpl; try congruence; unfold adj; now rewrite Fa.
  - intros N. assert (flowb g a = false) by (destruct (flowb g a) eqn:E; auto; now apply flowb_true in E).
    destruct a; simpl; auto; unfold adj; now rewrite H.
Qed.
Lemma L_C07_boundary_cell_rejected :
  forall g c, wf g -> has_flow g -> boundary_cell g c ->
  get_cell_neighbors g (natural_id g c) true = Err AssertionError.
Proof.
  intros g c W F (G & N). rewrite neighbors_id_canon by auto.
  destruct (interiorb g c) eqn:E; auto. apply interiorb_true in E. contradiction.
Qed.
Example ex_C07_case :
  let g := mkGrid 3 3 1 true in
  wf g /\ has_flow g /\ interior g (1, 3, 0) /\ natural_id g (1, 3, 0) = 16 /\
  get_cell_neighbors g 16 false = Ok (mkDirs [17] [11] []) /\
  get_cell_neighbors g 16 true = Ok (mkDirs [15; 17] [11; 21] []).
Proof.
  split; [repeat split; simpl; lia|]. split; [left; unfold flows; simpl; lia|].
  split; [apply interiorb_true; reflexivity|]. repeat split; reflexivity.
Qed.
Example ex_C07_boundary_case :
  let g := mkGrid 3 3 1 true in
  boundary_cell g (0, 2, 0) /\ natural_id g (0, 2, 0) = 10 /\
  get_cell_neighbors g 10 false = Ok (mkDirs [11] [] []).
Proof.
  split; [|split; reflexivity]. split. apply gridb_true; reflexivity.
  rewrite <- interiorb_true. discriminate.
Qed.

(** C08: neighbours by coordinates, converted to ids, are the neighbours by id. *)
Lemma L_C08_neighbors_coords_agree :
  forall g c b, wf g -> has_flow g -> in_grid g c ->
  get_cell_neighbors g (natural_id g c) b =
  rmap (fun d => mkDirs (map (natural_id g) (d_x d)) (map (natural_id g) (d_y d))
                        (map (natural_id g) (d_z d)))
       (get_cell_neighbors_c g c b).
Proof.
  intros g c b W F G. rewrite neighbors_id_canon, neighbors_c_canon by auto.
  destruct b; [destruct (interiorb g c)|]; reflexivity.
Qed.
Example ex_C08_case :
  let g := mkGrid 2 2 2 true in wf g /\ has_flow g /\ in_grid g (1, 1, 1) /\
  get_cell_neighbors_c g (1, 1, 1) false = Ok (mkDirs [(2,1,1)] [(1,2,1)] [(1,1,2)]).
Proof.
  split; [repeat split; simpl; lia|]. split; [left; unfold flows; simpl; lia|].
  split; [apply gridb_true; reflexivity|]. reflexivity.
Qed.

(** C09: symmetry. *)
Lemma L_C09_neighbors_symmetric :
  forall g c c' d d' a, wf g -> has_flow g -> interior g c -> interior g c' ->
  get_cell_neighbors g (natural_id g c) false = Ok d ->
  get_cell_neighbors g (natural_id g c') false = Ok d' ->
  In (natural_id g c') (dirs_get a d) -> In (natural_id g c) (dirs_get a d').
Proof.
  intros g c c' d d' a W F I I' E E' H.
  destruct (L_C07_neighbors_interior g c W F (interior_in_grid g c W I)) as (d1 & E1 & K1).
  destruct (L_C07_neighbors_interior g c' W F (interior_in_grid g c' W I')) as (d2 & E2 & K2).
  rewrite E in E1. inversion E1; subst d1. rewrite E' in E2. inversion E2; subst d2.
  apply K1 in H as (c2 & I2 & A & Eid). apply K2. exists c. split; auto. split; auto.
  apply natural_id_inj in Eid; auto using interior_in_grid. subst.
  destruct A; [right|left]; auto.
Qed.
Example ex_C09_case :
  let g := mkGrid 3 1 1 false in wf g /\ has_flow g /\ interior g (1,0,0) /\ interior g (2,0,0) /\
  get_cell_neighbors g 1 false = Ok (mkDirs [2] [] []) /\
  get_cell_neighbors g 2 false = Ok (mkDirs [1; 3] [] []).
Proof.
  split; [repeat split; simpl; lia|]. split; [left; unfold flows; simpl; lia|].
  split; [apply interiorb_true; reflexivity|]. split; [apply interiorb_true; reflexivity|].
  split; reflexivity.
Qed.

Lemma filter_split_len {A} (f : A -> bool) l :
  (length (filter f l) + length (filter (fun x => negb (f x)) l))%nat = length l.
Proof. induction l; simpl; auto. destruct (f a); simpl; lia. Qed.

Lemma cell_boundaries_canon g c : wf g -> has_flow g -> in_grid g c ->
  get_cell_boundaries g (natural_id g c) =
  if interiorb g c
  then Ok (dirs_of (fun a => map (natural_id g) (filter (fun x => negb (interiorb g x)) (adj g a c))))
  else Err AssertionError.
Proof.
  intros W F G. unfold get_cell_boundaries. rewrite boundaries_id by auto. cbn [rbind].
  rewrite zmem_boundaries by auto. rewrite negb_involutive.
  destruct (interiorb g c) eqn:I; cbn [passert rbind]; auto.
  rewrite neighbors_id_canon by auto. rewrite I. cbn [rbind]. f_equal. unfold dirs_of.
  cbn [d_x d_y d_z].
  assert (X : forall a, filter (fun i => zmem i (zsort (map Z.of_nat (layer_ids g))))
     (map (natural_id g) (adj g a c)) = map (natural_id g) (filter (fun x => negb (interiorb g x)) (adj g a c))).
  { intros a. unfold adj. destruct (flowb g a) eqn:Fa; auto. apply flowb_true in Fa.
    apply interiorb_true in I.
    cbn [map filter]. rewrite !zmem_boundaries by (auto; apply in_grid_shift_interior; auto).
    destruct (interiorb g (shift a (-1) c)), (interiorb g (shift a 1 c)); reflexivity. }
  now rewrite !X.
Qed.

(** C10: boundaries of an interior cell complete its interior neighbours. *)
Lemma L_C10_boundaries_complete_neighbors :
  forall g c, wf g -> has_flow g -> interior g c ->
  exists bnd inn all,
    get_cell_boundaries g (natural_id g c) = Ok bnd /\
    get_cell_neighbors g (natural_id g c) false = Ok inn /\
    get_cell_neighbors g (natural_id g c) true = Ok all /\
    (forall a id, In id (dirs_get a all) <-> In id (dirs_get a bnd) \/ In id (dirs_get a inn)) /\
    (forall a a' id, ~ (In id (dirs_get a bnd) /\ In id (dirs_get a' inn))) /\
    total all = (2 * get_D g)%nat /\ (total bnd + total inn)%nat = total all.
Proof.
  intros g c W F I. pose proof (interior_in_grid g c W I) as G.
  rewrite cell_boundaries_canon, !neighbors_id_canon by auto.
  pose proof I as Ib. apply interiorb_true in Ib. rewrite Ib.
  do 3 eexists. split; [reflexivity|]. split; [reflexivity|]. split; [reflexivity|].
  assert (DG : forall (f : axis -> list coord) a, a <> ADash -> dirs_get a (dirs_of (fun a => map (natural_id g) (f a))) = map (natural_id g) (f a)).
  { intros f a Ha. destruct a; simpl; congruence. }
  assert (DA : forall (f : axis -> list coord), dirs_get ADash (dirs_of (fun a => map (natural_id g) (f a))) = []) by reflexivity.
  assert (AG : forall a x, In x (adj g a c) -> in_grid g x).
  { intros a x Hx. unfold adj in Hx. destruct (flowb g a) eqn:Fa; [|contradiction].
    apply flowb_true in Fa. simpl in Hx. destruct Hx as [<-|[<-|[]]]; apply in_grid_shift_interior; auto. }
  split; [|split; [|split]].
  - intros a id. destruct (axis_eqb a ADash) eqn:Ea.
    { destruct a; try discriminate. rewrite !DA. simpl. tauto. }
    assert (Ha : a <> ADash) by (destruct a; simpl in Ea; congruence).
    rewrite !DG by auto. rewrite !in_map_iff. split.
    + intros (x & <- & Hx). destruct (interiorb g x) eqn:Ix; [right|left]; exists x; split; auto;
      apply filter_In; rewrite ?Ix; auto.
    + intros [(x & <- & Hx)|(x & <- & Hx)]; apply filter_In in Hx as (Hx & _); eauto.
  - intros a a' id [H H'].
    destruct (axis_eqb a ADash) eqn:Ea; [destruct a; try discriminate; contradiction|].
    destruct (axis_eqb a' ADash) eqn:Ea'; [destruct a'; try discriminate; contradiction|].
    assert (Ha : a <> ADash) by (destruct a; simpl in Ea; congruence).
    assert (Ha' : a' <> ADash) by (destruct a'; simpl in Ea'; congruence).
    rewrite DG in H, H' by auto. apply in_map_iff in H as (x & <- & Hx).
    apply in_map_iff in H' as (y & E & Hy). apply filter_In in Hx as (Hx & Nx).
    apply filter_In in Hy as (Hy & Iy). apply natural_id_inj in E; eauto. subst y.
    rewrite Iy in Nx. discriminate.
  - unfold total, dirs_of, adj. cbn [d_x d_y d_z]. rewrite !app_length, !map_length, get_D_spec.
    unfold flow_axes, flowb, size.
    destruct (1 <? nx g)%nat, (1 <? ny g)%nat, (1 <? nz g)%nat; reflexivity.
  - unfold total, dirs_of. cbn [d_x d_y d_z]. rewrite !app_length, !map_length.
    pose proof (filter_split_len (interiorb g) (adj g AX c)).
    pose proof (filter_split_len (interiorb g) (adj g AY c)).
    pose proof (filter_split_len (interiorb g) (adj g AZ c)). lia.
Qed.
Lemma L_C10_boundary_cell_rejected :
  forall g c, wf g -> has_flow g -> boundary_cell g c ->
  get_cell_boundaries g (natural_id g c) = Err AssertionError.
Proof.
  intros g c W F (G & N). rewrite cell_boundaries_canon by auto.
  destruct (interiorb g c) eqn:E; auto. apply interiorb_true in E. contradiction.
Qed.
(** C10: the same by coordinates. *)
Lemma L_C10_boundaries_coords_agree :
  forall g c, wf g -> has_flow g -> in_grid g c ->
  get_cell_boundaries g (natural_id g c) =
  rmap (fun d => mkDirs (map (natural_id g) (d_x d)) (map (natural_id g) (d_y d))
                        (map (natural_id g) (d_z d)))
       (get_cell_boundaries_c g c).
Proof.
  intros g c W F G. rewrite cell_boundaries_canon by auto. unfold get_cell_boundaries_c.
  destruct (boundaries_coords_mem g W F) as (l & E & _ & M). rewrite E. cbn [rbind].
  rewrite M. rewrite (proj2 (gridb_true g c) G). cbn [andb]. rewrite negb_involutive.
  destruct (interiorb g c) eqn:I; cbn [passert rbind]; auto.
  rewrite neighbors_c_canon by auto. rewrite I. cbn [rbind rmap d_x d_y d_z dirs_of].
  apply interiorb_true in I. f_equal. unfold dirs_of.
  assert (X : forall a, filter (fun i => cmem i l) (adj g a c) = filter (fun x => negb (interiorb g x)) (adj g a c)).
  { intros a. unfold adj. destruct (flowb g a) eqn:Fa; auto. apply flowb_true in Fa.
    cbn [filter]. rewrite !M.
    rewrite (proj2 (gridb_true g (shift a (-1) c))), (proj2 (gridb_true g (shift a 1 c))); auto;
      apply in_grid_shift_interior; auto. }
  now rewrite !X.
Qed.
Example ex_C10_case :
  let g := mkGrid 3 3 1 true in
  interior g (1, 3, 0) /\ get_cell_boundaries g 16 = Ok (mkDirs [15] [21] []).
Proof. split; [apply interiorb_true; reflexivity|]. reflexivity. Qed.

(** C11: interior neighbours of a boundary cell. *)
Lemma L_C11_boundary_cell_one_neighbor :
  forall g c, wf g -> has_flow g -> boundary_cell g c ->
  exists d, get_cell_neighbors g (natural_id g c) false = Ok d /\
    (total d <= 1)%nat /\ (total d = 1%nat <-> on_one_face g c).
Proof.
  intros g c W F (G & N). rewrite neighbors_id_canon by auto.
  eexists. split; [reflexivity|].
  set (f := fun a => filter (interiorb g) (adj g a c)).
  change (total (dirs_of (fun a => map (natural_id g) (f a))) <= 1 /\
    (total (dirs_of (fun a => map (natural_id g) (f a))) = 1 <-> on_one_face g c))%nat.
  assert (FD : forall a, flows g a -> a <> ADash)
    by (intros a Fa ->; unfold flows in Fa; simpl in Fa; lia).
  assert (OD : forall a, {outer g a c} + {~ outer g a c}).
  { intros a. unfold outer, flows. destruct (lt_dec 1 (size g a)); [|right; tauto].
    destruct (Z.eq_dec (at_axis a c) 0); [left; auto|].
    destruct (Z.eq_dec (at_axis a c) (Z.of_nat (size g a) + 1)); [left; auto|right; tauto]. }
  (* some axis is outer *)
  assert (EX : exists a, outer g a c).
  { destruct (OD AX) as [|NX]; eauto. destruct (OD AY) as [|NY]; eauto. destruct (OD AZ) as [|NZ]; eauto.
    exfalso. apply N. intros a Ha. specialize (G a Ha). unfold outer, flows, padded in *.
    destruct W as (?&?&?).
    destruct a; simpl in *; try congruence;
    match goal with |- context [(1 < ?n)%nat] => destruct (Nat.ltb_spec 1 n) end; lia. }
  destruct EX as (a & Oa).
  assert (Fa := proj1 Oa). assert (Ha := FD _ Fa).
  (* other axes have no interior neighbour *)
  assert (NB : forall b, b <> a -> f b = []).
  { intros b Hb. unfold f, adj. destruct (flowb g b) eqn:Fb; auto. cbn [filter].
    assert (Z : forall s, interiorb g (shift b s c) = false).
    { intros s. destruct (interiorb g (shift b s c)) eqn:E; auto. apply interiorb_true in E.
      specialize (E a Ha). rewrite at_shift_other in E by congruence. destruct Oa. unfold flows in *. lia. }
    now rewrite !Z. }
  assert (ONE : on_one_face g c -> length (f a) = 1%nat).
  { intros (a' & Oa' & U). assert (a = a') by auto. subst a'.
    unfold f, adj. rewrite (proj2 (flowb_true g a) Fa). cbn [filter].
    assert (K : forall s, (interior g (shift a s c) <-> 1 <= at_axis a c + s <= Z.of_nat (size g a))).
    { intros s. split.
      - intros I. specialize (I a Ha). rewrite at_shift_same in I by auto. intuition lia.
      - intros Hs b Hb. destruct (axis_eqb a b) eqn:Eab.
        + assert (b = a) by (destruct a, b; simpl in Eab; congruence). subst b.
          left. rewrite at_shift_same by auto. auto.
        + assert (b <> a) by (intros ->; destruct a; discriminate).
          rewrite at_shift_other by auto. specialize (G b Hb). 
          assert (~ outer g b c) by (intros O; apply U in O; congruence).
          unfold outer, flows, padded in *. destruct W as (?&?&?).
          destruct (Nat.ltb_spec 1 (size g b)); [left; lia|right].
          destruct b; simpl in *; try congruence; lia. }
    assert (B : forall s, interiorb g (shift a s c) = ((1 <=? at_axis a c + s) && (at_axis a c + s <=? Z.of_nat (size g a)))%bool).
    { intros s. apply eq_true_iff. rewrite interiorb_true, K, andb_true_iff, !Z.leb_le. tauto. }
    rewrite !B. destruct Oa as (_ & O). unfold flows in Fa.
    destruct (Z.leb_spec 1 (at_axis a c + -1)), (Z.leb_spec (at_axis a c + -1) (Z.of_nat (size g a))),
      (Z.leb_spec 1 (at_axis a c + 1)), (Z.leb_spec (at_axis a c + 1) (Z.of_nat (size g a))); simpl; try lia. }
  assert (LE : (length (f a) <= 1)%nat /\ (length (f a) <> 0%nat -> on_one_face g c)).
  { assert (K : forall s, interiorb g (shift a s c) = true -> on_one_face g c /\ 1 <= at_axis a c + s <= Z.of_nat (size g a)).
    { intros s I. apply interiorb_true in I. split.
      - exists a. split; auto. intros b Ob. destruct (axis_eqb a b) eqn:Eab.
        + destruct a, b; simpl in Eab; congruence.
        + exfalso. assert (b <> a) by (intros ->; destruct a; discriminate).
          assert (Hb := FD _ (proj1 Ob)). specialize (I b Hb). rewrite at_shift_other in I by auto.
          destruct Ob. unfold flows in *. lia.
      - specialize (I a Ha). rewrite at_shift_same in I by auto. intuition lia. }
    unfold f, adj. rewrite (proj2 (flowb_true g a) Fa). cbn [filter].
    pose proof (K (-1)). pose proof (K 1).
    destruct (interiorb g (shift a (-1) c)), (interiorb g (shift a 1 c)); cbn [length].
    - destruct (H eq_refl), (H0 eq_refl). destruct Oa. lia.
    - split; [lia|]. intros _. now apply H.
    - split; [lia|]. intros _. now apply H0.
    - split; [lia|]. intros X; congruence. }
  assert (T : total (dirs_of (fun a => map (natural_id g) (f a))) = length (f a)).
  { unfold total, dirs_of. cbn [d_x d_y d_z]. rewrite !app_length, !map_length.
    destruct a; try congruence; rewrite ?(NB AX), ?(NB AY), ?(NB AZ) by congruence; simpl; lia. }
  rewrite T. destruct LE as (LE & U). split; auto. split; auto. intros E. apply U. lia.
Qed.
Example ex_C11_case :
  let g := mkGrid 3 3 1 true in
  wf g /\ has_flow g /\ boundary_cell g (0, 2, 0) /\ boundary_cell g (0, 0, 0) /\
  get_cell_neighbors g (natural_id g (0, 2, 0)) false = Ok (mkDirs [11] [] []) /\
  get_cell_neighbors g (natural_id g (0, 0, 0)) false = Ok (mkDirs [] [] []).
Proof.
  split; [repeat split; simpl; lia|]. split; [left; unfold flows; simpl; lia|].
  split; [|split; [|split; reflexivity]]; split; try (apply gridb_true; reflexivity);
  rewrite <- interiorb_true; discriminate.
Qed.
