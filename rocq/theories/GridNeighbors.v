(** Neighbours and boundaries in canonical form. *)
From Coq Require Import String ZArith Bool Arith List Lia Permutation Sorted.
From Verif Require Import Prelude PreludeFacts GridModel GridSpec GridProofs.
Import ListNotations.
Local Open Scope Z_scope.

Definition shift (a : axis) (s : Z) (c : coord) : coord :=
  match c with
  | (i, j, k) => match a with
                 | AX => (i + s, j, k) | AY => (i, j + s, k) | AZ => (i, j, k + s)
                 | ADash => c
                 end
  end.
Definition stride (g : grid) (a : axis) : Z :=
  match a with
  | AX => 1 | AY => padded (nx g) | AZ => padded (nx g) * padded (ny g) | ADash => 0
  end.
Lemma natural_shift g a s c : natural_id g (shift a s c) = natural_id g c + s * stride g a.
Proof. destruct c as [[i j] k], a; simpl; lia. Qed.
Lemma shift_shift a s t c : shift a s (shift a t c) = shift a (t + s) c.
Proof. destruct c as [[i j] k], a; simpl; auto; rewrite Z.add_assoc; reflexivity. Qed.
Lemma shift_0 a c : shift a 0 c = c.
Proof. destruct c as [[i j] k], a; simpl; rewrite ?Z.add_0_r; reflexivity. Qed.
Lemma at_shift_same a s c : a <> ADash -> at_axis a (shift a s c) = at_axis a c + s.
Proof. destruct c as [[i j] k], a; simpl; congruence. Qed.
Lemma at_shift_other a b s c : b <> a -> at_axis b (shift a s c) = at_axis b c.
Proof. destruct c as [[i j] k], a, b; simpl; congruence. Qed.
Lemma coord_ext c c' : (forall a, a <> ADash -> at_axis a c = at_axis a c') -> c = c'.
Proof.
  intros H. pose proof (H AX ltac:(congruence)). pose proof (H AY ltac:(congruence)).
  pose proof (H AZ ltac:(congruence)). destruct c as [[? ?] ?], c' as [[? ?] ?]. simpl in *. congruence.
Qed.
Lemma step_shift a c c' : step a c c' <-> a <> ADash /\ c' = shift a 1 c.
Proof.
  split.
  - intros (Ha & H1 & H2). split; auto. apply coord_ext. intros b Hb.
    destruct (axis_eqb a b) eqn:E.
    + assert (b = a) by (destruct a, b; simpl in E; congruence). subst.
      now rewrite at_shift_same.
    + assert (b <> a) by (intros ->; destruct a; discriminate).
      rewrite at_shift_other; auto.
  - intros (Ha & ->). repeat split; auto.
    + now rewrite at_shift_same.
    + intros. now rewrite at_shift_other.
Qed.
Lemma face_shift a c c' :
  face_adjacent a c c' <-> a <> ADash /\ (c' = shift a (-1) c \/ c' = shift a 1 c).
Proof.
  unfold face_adjacent. rewrite !step_shift. split.
  - intros [(H & ->)|(H & ->)]; split; auto. left. rewrite shift_shift.
    now rewrite shift_0.
  - intros (H & [->| ->]); auto. right. split; auto. rewrite shift_shift.
    now rewrite shift_0.
Qed.

Lemma in_grid_shift_interior g a s c :
  wf g -> interior g c -> flows g a -> s = -1 \/ s = 1 -> in_grid g (shift a s c).
Proof.
  intros W I F Hs b Hb. pose proof (interior_in_grid g c W I b Hb) as G.
  assert (Ha : a <> ADash) by (destruct a; unfold flows in F; simpl in *; congruence || lia).
  destruct (axis_eqb a b) eqn:E.
  - assert (b = a) by (destruct a, b; simpl in E; congruence). subst b.
    rewrite at_shift_same by auto. specialize (I a Ha). unfold flows in *. unfold padded.
    destruct (Nat.ltb_spec 1 (size g a)); lia.
  - rewrite at_shift_other; auto. intros ->; destruct a; discriminate.
Qed.

Lemma natural_shift_interior g a s c c' :
  wf g -> in_grid g c -> interior g c' -> flows g a -> s = -1 \/ s = 1 ->
  natural_id g c' = natural_id g c + s * stride g a -> c' = shift a s c.
Proof.
  intros W G I F Hs E.
  assert (c = shift a (-s) c').
  { apply (natural_id_inj g); auto.
    - apply in_grid_shift_interior; auto. lia.
    - rewrite natural_shift. lia. }
  subst c. rewrite shift_shift. replace (-s + s) with 0 by lia. now rewrite shift_0.
Qed.

Definition flowb (g : grid) (a : axis) : bool := (1 <? size g a)%nat.
Lemma flowb_true g a : flowb g a = true <-> flows g a.
Proof. unfold flowb, flows. apply Nat.ltb_lt. Qed.
Definition innb (n : nat) (v : Z) : bool :=
  if (1 <? n)%nat then (1 <=? v) && (v <=? Z.of_nat n) else v =? 0.
Definition interiorb (g : grid) (c : coord) : bool :=
  match c with (i, j, k) => innb (nx g) i && innb (ny g) j && innb (nz g) k end.
Lemma innb_spec n v : innb n v = true <->
  ((1 < n)%nat /\ 1 <= v <= Z.of_nat n) \/ (~ (1 < n)%nat /\ v = 0).
Proof. unfold innb. destruct (Nat.ltb_spec 1 n); rewrite ?andb_true_iff; lia. Qed.
Lemma interiorb_true g c : interiorb g c = true <-> interior g c.
Proof.
  destruct c as [[i j] k]. unfold interiorb. rewrite !andb_true_iff, !innb_spec.
  unfold interior, flows. split.
  - intros [[H1 H2] H3] a Ha. destruct a; simpl; auto; congruence.
  - intros H. pose proof (H AX ltac:(congruence)). pose proof (H AY ltac:(congruence)).
    pose proof (H AZ ltac:(congruence)). simpl in *. auto.
Qed.
Definition gridb (g : grid) (c : coord) : bool :=
  match c with (i, j, k) =>
    ((0 <=? i) && (i <? padded (nx g)) && ((0 <=? j) && (j <? padded (ny g)))
    && ((0 <=? k) && (k <? padded (nz g))))%bool end.
Lemma gridb_true g c : gridb g c = true <-> in_grid g c.
Proof.
  destruct c as [[i j] k]. unfold gridb. rewrite !andb_true_iff, !Z.leb_le, !Z.ltb_lt.
  unfold in_grid. split.
  - intros [[? ?] ?] a Ha. destruct a; simpl; auto; congruence.
  - intros H. pose proof (H AX ltac:(congruence)). pose proof (H AY ltac:(congruence)).
    pose proof (H AZ ltac:(congruence)). simpl in *. auto.
Qed.

Definition adj (g : grid) (a : axis) (c : coord) : list coord :=
  if flowb g a then [shift a (-1) c; shift a 1 c] else [].
Definition dirs_of {A} (f : axis -> list A) : dirs A := mkDirs (f AX) (f AY) (f AZ).

Lemma eq_true_iff (a b : bool) : (a = true <-> b = true) -> a = b.
Proof. destruct a, b; intros [? ?]; auto; symmetry; auto. Qed.

(** Membership of ids and of coordinates. *)
Lemma zmem_interior g c a s : wf g -> in_grid g c -> flows g a -> s = -1 \/ s = 1 ->
  zmem (natural_id g c + s * stride g a) (map Z.of_nat (interior_ids g))
  = interiorb g (shift a s c).
Proof.
  intros W G F Hs. apply eq_true_iff. rewrite zmem_In, In_interior_ids, interiorb_true by auto.
  split.
  - intros (c' & I & E). symmetry in E. apply natural_shift_interior in E; auto. now subst.
  - intros I. exists (shift a s c). split; auto. now rewrite natural_shift.
Qed.

Lemma In_arange z n : In z (arange n) <-> 0 <= z < Z.of_nat n.
Proof.
  unfold arange. rewrite in_map_iff. split.
  - intros (x & <- & H). apply in_seq in H. lia.
  - intros H. exists (Z.to_nat z). rewrite in_seq. lia.
Qed.
Lemma natural_id_range g c : wf g -> in_grid g c ->
  0 <= natural_id g c < Z.of_nat (get_n g true).
Proof.
  intros W G. apply in_grid_zc in G as (i & j & k & -> & ? & ? & ?). rewrite natural_idx.
  rewrite get_n_true by auto. pose proof (idx_lt g i j k ltac:(auto) ltac:(auto) ltac:(auto)). lia.
Qed.
Lemma natural_id_surj g z : wf g -> 0 <= z < Z.of_nat (get_n g true) ->
  exists c, in_grid g c /\ natural_id g c = z.
Proof.
  intros W H. rewrite get_n_true in H by auto.
  destruct (idx_surj g (Z.to_nat z) W) as (i & j & k & ? & ? & ? & E); [lia|].
  exists (zc i j k). split. apply in_grid_zc; eauto 10. rewrite natural_idx, <- E. lia.
Qed.

Lemma zmem_boundaries g c : wf g -> has_flow g -> in_grid g c ->
  zmem (natural_id g c) (zsort (map Z.of_nat (layer_ids g))) = negb (interiorb g c).
Proof.
  intros W F G. apply eq_true_iff. rewrite zmem_In.
  assert (forall z, In z (zsort (map Z.of_nat (layer_ids g))) <-> In z (map Z.of_nat (layer_ids g))).
  { intros z. split; apply Permutation_in; [apply zsort_perm|symmetry; apply zsort_perm]. }
  rewrite H, In_boundary_ids by auto. rewrite negb_true_iff.
  rewrite <- not_true_iff_false, interiorb_true. split.
  - intros (c' & (G' & N) & E). apply natural_id_inj in E; auto. now subst.
  - intros N. exists c. split; auto. split; auto.
Qed.

Lemma get_D_pos g : wf g -> has_flow g -> (1 <= get_D g)%nat.
Proof.
  intros W F. rewrite get_D_spec. unfold flow_axes, has_flow, flows, size in *.
  destruct (Nat.ltb_spec 1 (nx g)), (Nat.ltb_spec 1 (ny g)), (Nat.ltb_spec 1 (nz g)); simpl; lia.
Qed.

(** The body of get_cell_neighbors per axis. *)
Lemma neighbors_body g id (keep : list Z -> list Z) : wf g -> has_flow g ->
  (let fd := get_fdir g in let D := get_D g in
   let r0 := dirs_empty in
   let r1 := if (1 <=? D)%nat
            then dirs_set (nth 0 fd ADash) (keep [id - 1; id + 1]%Z) r0 else r0 in
   let r2 := if (2 <=? D)%nat
            then let n := if amem AX fd then Z.of_nat (nx_b g) else Z.of_nat (ny_b g) in
                 dirs_set (nth 1 fd ADash) (keep [id - n; id + n]%Z) r1 else r1 in
   let r3 := if (3 <=? D)%nat
            then let n := (Z.of_nat (nx_b g) * Z.of_nat (ny_b g))%Z in
                 dirs_set (nth 2 fd ADash) (keep [id - n; id + n]%Z) r2 else r2 in
   r3) = dirs_of (fun a => if flowb g a then keep [id + -1 * stride g a; id + 1 * stride g a] else []).
Proof.
  intros W F. cbv zeta. rewrite amem_fdir, nx_b_spec, ny_b_spec, !pad_padded by (auto; congruence).
  rewrite get_fdir_spec, get_D_spec by auto.
  unfold dirs_of, flowb, stride, padded, flow_axes, has_flow, flows, size in *.
  assert (K : forall x y, x = y -> keep [id - x; id + x] = keep [id + -1 * y; id + 1 * y]).
  { intros x y ->. replace (id + -1 * y) with (id - y) by lia. now rewrite Z.mul_1_l. }
  flow_split g W; try lia; cbn [app length nth Nat.leb dirs_set dirs_empty d_x d_y d_z];
    f_equal; apply K; lia.
Qed.

Lemma neighbors_id_canon g c b : wf g -> has_flow g -> in_grid g c ->
  get_cell_neighbors g (natural_id g c) b =
  if b then if interiorb g c then Ok (dirs_of (fun a => map (natural_id g) (adj g a c)))
            else Err AssertionError
  else Ok (dirs_of (fun a => map (natural_id g) (filter (interiorb g) (adj g a c)))).
Proof.
  intros W F G. unfold get_cell_neighbors. rewrite boundaries_id by auto. cbn [rbind].
  rewrite zmem_boundaries by auto.
  assert (R : forall ids, get_cells_id g b = Ok ids ->
     get_cells_id g b = Ok ids /\ True) by auto.
  destruct b.
  - rewrite andb_true_r. rewrite negb_involutive. destruct (interiorb g c) eqn:I; cbn [passert rbind]; auto.
    rewrite cells_id_true. cbn [rbind].
    apply interiorb_true in I. pose proof (neighbors_body g (natural_id g c)
      (fun l => filter (fun i => zmem i (arange (get_n g true))) l) W F) as B.
    apply (f_equal Ok) in B. etransitivity; [exact B|]. clear B.
    f_equal. unfold dirs_of.
    assert (X : forall a, (if flowb g a then filter (fun i => zmem i (arange (get_n g true)))
        [natural_id g c + -1 * stride g a; natural_id g c + 1 * stride g a] else [])
        = map (natural_id g) (adj g a c)).
    { intros a. unfold adj. destruct (flowb g a) eqn:Fa; auto. apply flowb_true in Fa.
      assert (Y : forall s, s = -1 \/ s = 1 ->
        zmem (natural_id g c + s * stride g a) (arange (get_n g true)) = true).
      { intros s Hs. rewrite zmem_In, In_arange, <- natural_shift.
        apply natural_id_range; auto. apply in_grid_shift_interior; auto. }
      cbn [filter]. rewrite (Y (-1)), (Y 1) by auto. cbn [map]. now rewrite !natural_shift. }
    now rewrite !X.
  - rewrite andb_false_r. cbn [negb passert rbind]. rewrite cells_id_false by auto. cbn [rbind].
    pose proof (neighbors_body g (natural_id g c)
      (fun l => filter (fun i => zmem i (map Z.of_nat (interior_ids g))) l) W F) as B.
    apply (f_equal Ok) in B. etransitivity; [exact B|]. clear B.
    f_equal. unfold dirs_of.
    assert (X : forall a, (if flowb g a then filter (fun i => zmem i (map Z.of_nat (interior_ids g)))
        [natural_id g c + -1 * stride g a; natural_id g c + 1 * stride g a] else [])
        = map (natural_id g) (filter (interiorb g) (adj g a c))).
    { intros a. unfold adj. destruct (flowb g a) eqn:Fa; auto. apply flowb_true in Fa.
      cbn [filter]. rewrite (zmem_interior g c a (-1)), (zmem_interior g c a 1) by auto.
      destruct (interiorb g (shift a (-1) c)), (interiorb g (shift a 1 c));
        cbn [map]; now rewrite ?natural_shift. }
    now rewrite !X.
Qed.

(** ** Coordinates *)
Lemma cell_coords_natural g c : wf g -> in_grid g c ->
  get_cell_coords g (natural_id g c) true = Ok c.
Proof.
  intros W G. apply in_grid_zc in G as (i & j & k & -> & Hi & Hj & Hk).
  unfold get_cell_coords, pv_cell_coords. rewrite get_shape_true by auto.
  rewrite natural_idx. unfold idx.
  set (a := pad (nx g)) in *. set (b := pad (ny g)) in *. set (e := pad (nz g)) in *.
  assert (0 <= Z.of_nat (i + a * (j + b * k)) < Z.of_nat a * Z.of_nat b * Z.of_nat e).
  { pose proof (idx_lt g i j k Hi Hj Hk) as L. unfold idx in L. fold a b e in L. lia. }
  destruct (Z.leb_spec 0 (Z.of_nat (i + a * (j + b * k)))); [|lia].
  destruct (Z.ltb_spec (Z.of_nat (i + a * (j + b * k)))
    (Z.of_nat a * Z.of_nat b * Z.of_nat e)); [|lia]. simpl.
  replace (Z.of_nat (i + a * (j + b * k))) with
    (Z.of_nat i + (Z.of_nat j + Z.of_nat k * Z.of_nat b) * Z.of_nat a) by lia.
  rewrite <- Zdiv.Zdiv_Zdiv by lia.
  rewrite Z_mod_plus_full, Z.div_add, (Z.mod_small (Z.of_nat i)), (Z.div_small (Z.of_nat i)) by lia.
  rewrite Z.add_0_l, Z_mod_plus_full, Z.div_add, Z.mod_small, Z.div_small by lia.
  reflexivity.
Qed.
Lemma cell_id_natural g c : wf g ->
  get_cell_id g c true = if gridb g c then Some (natural_id g c) else None.
Proof.
  intros W. unfold get_cell_id, pv_cell_id. rewrite get_shape_true by auto.
  destruct c as [[i j] k]. unfold gridb, natural_id. rewrite !pad_padded, !andb_assoc. reflexivity.
Qed.

Definition decode (g : grid) (z : Z) : coord :=
  match get_cell_coords g z true with Ok c => c | Err _ => (0, 0, 0) end.
Lemma cells_coords_canon g b : wf g ->
  exists ids, get_cells_id g b = Ok ids /\
  get_cells_coords g b = Ok (map (decode g) ids) /\
  (forall z, In z ids -> exists c, in_grid g c /\ z = natural_id g c).
Proof.
  intros W. assert (K : exists ids, get_cells_id g b = Ok ids /\
    (forall z, In z ids -> exists c, in_grid g c /\ z = natural_id g c)).
  { destruct b.
    - eexists. split. reflexivity. intros z Hz. apply In_arange in Hz.
      apply natural_id_surj in Hz as (c & ? & ?); eauto.
    - eexists. split. apply cells_id_false; auto. intros z Hz.
      apply In_interior_ids in Hz as (c & ? & ?); auto. exists c. split; auto.
      now apply interior_in_grid. }
  destruct K as (ids & E & K). exists ids. repeat split; auto.
  unfold get_cells_coords. rewrite E. simpl. apply rmapM_ok. intros z Hz.
  destruct (K z Hz) as (c & G & ->). unfold decode. now rewrite cell_coords_natural.
Qed.
Lemma decode_natural g c : wf g -> in_grid g c -> decode g (natural_id g c) = c.
Proof. intros. unfold decode. now rewrite cell_coords_natural. Qed.

Lemma coord_eqb_eq c c' : coord_eqb c c' = true <-> c = c'.
Proof.
  destruct c as [[i j] k], c' as [[i' j'] k']. simpl. rewrite !andb_true_iff, !Z.eqb_eq.
  split; [intros [[-> ->] ->]; auto | intros E; inversion E; auto].
Qed.
Lemma cmem_In c l : cmem c l = true <-> In c l.
Proof.
  unfold cmem. rewrite existsb_exists. split.
  - intros (x & H & E). apply coord_eqb_eq in E. now subst.
  - intros H. exists c. split; auto. now apply coord_eqb_eq.
Qed.

Lemma cells_coords_mem g (b : bool) : wf g -> exists l, get_cells_coords g b = Ok l /\
  forall c, cmem c l = if b then gridb g c else interiorb g c.
Proof.
  intros W. destruct (cells_coords_canon g b W) as (ids & E1 & E2 & K).
  eexists. split. apply E2. intros c. apply eq_true_iff. rewrite cmem_In, in_map_iff.
  destruct b.
  - rewrite gridb_true. split.
    + intros (z & <- & Hz). destruct (K z Hz) as (c' & G & ->). now rewrite decode_natural.
    + intros G. exists (natural_id g c). split. now apply decode_natural.
      rewrite cells_id_true in E1. inversion E1. apply In_arange. now apply natural_id_range.
  - rewrite interiorb_true. rewrite cells_id_false in E1 by auto. inversion E1; subst.
    split.
    + intros (z & <- & Hz). apply In_interior_ids in Hz as (c' & I & ->); auto.
      rewrite decode_natural; auto. now apply interior_in_grid.
    + intros I. exists (natural_id g c). split. apply decode_natural; auto.
      now apply interior_in_grid. apply In_interior_ids; eauto.
Qed.

Lemma boundaries_coords_canon g : wf g -> has_flow g ->
  get_boundaries_coords g = Ok (map (fun n => decode g (Z.of_nat n)) (layer_ids g)).
Proof.
  intros W F. unfold get_boundaries_coords.
  destruct (cells_coords_canon g true W) as (ids & E1 & E2 & K).
  rewrite E2. simpl. rewrite cells_id_true in E1. inversion E1; subst ids.
  unfold extract_boundaries_pts.
  rewrite extract_canon by (auto; now rewrite map_length, arange_length). f_equal.
  rewrite (layers_ids _ _ (decode g 0)) by (auto; now rewrite map_length, arange_length).
  apply map_ext_in. intros n Hn. rewrite map_nth. f_equal. apply nth_arange.
  now apply layer_ids_lt.
Qed.
Lemma boundaries_coords_mem g : wf g -> has_flow g -> exists l,
  get_boundaries_coords g = Ok l /\ NoDup l /\
  forall c, cmem c l = (gridb g c && negb (interiorb g c))%bool.
Proof.
  intros W F. eexists. split. now apply boundaries_coords_canon. split.
  - rewrite <- (map_map Z.of_nat (decode g)).
    assert (N : NoDup (map Z.of_nat (layer_ids g))).
    { apply FinFun.Injective_map_NoDup. intros x y; lia. now apply NoDup_layer_ids. }
    assert (I : forall z, In z (map Z.of_nat (layer_ids g)) -> exists c, in_grid g c /\ z = natural_id g c).
    { intros z Hz. apply In_boundary_ids in Hz as (c & (G & _) & ->); eauto. }
    induction (map Z.of_nat (layer_ids g)); simpl; constructor.
    + inversion N; subst. intros Hi. apply in_map_iff in Hi as (z & E & Hz).
      destruct (I a) as (c & G & ->); [now left|]. destruct (I z) as (c' & G' & ->); [now right|].
      rewrite !decode_natural in E by auto. subst. contradiction.
    + inversion N; subst. apply IHl; auto. intros; apply I; now right.
  - intros c. apply eq_true_iff. rewrite cmem_In, <- (map_map Z.of_nat (decode g)), in_map_iff.
    rewrite andb_true_iff, negb_true_iff, <- not_true_iff_false, interiorb_true, gridb_true. split.
    + intros (z & <- & Hz). apply In_boundary_ids in Hz as (c' & (G & N) & ->); auto.
      now rewrite decode_natural.
    + intros (G & N). exists (natural_id g c). split. now apply decode_natural.
      apply In_boundary_ids; auto. exists c. split; [split|]; auto.
Qed.

Lemma gridb_of_interior g c : wf g -> interiorb g c = true -> gridb g c = true.
Proof. intros W I. apply gridb_true, interior_in_grid; auto. now apply interiorb_true. Qed.

Lemma neighbors_c_canon g c b : wf g -> has_flow g -> in_grid g c ->
  get_cell_neighbors_c g c b =
  if b then if interiorb g c then Ok (dirs_of (fun a => adj g a c)) else Err AssertionError
  else Ok (dirs_of (fun a => filter (interiorb g) (adj g a c))).
Proof.
  intros W F G. unfold get_cell_neighbors_c.
  destruct (boundaries_coords_mem g W F) as (l & E & _ & M). rewrite E. cbn [rbind]. rewrite M.
  apply gridb_true in G. rewrite G. cbn [andb]. apply gridb_true in G.
  destruct (cells_coords_mem g b W) as (cs & E' & M'). 
  destruct b.
  - rewrite andb_true_r, negb_involutive. destruct (interiorb g c) eqn:I; cbn [passert rbind]; auto.
    rewrite E'. cbn [rbind]. destruct c as [[i j] k]. rewrite !amem_fdir by (auto; congruence).
    f_equal. unfold dirs_of. apply interiorb_true in I.
    assert (X : forall a, flowb g a = true ->
      filter (fun i => cmem i cs) [shift a (-1) (i, j, k); shift a 1 (i, j, k)] = adj g a (i, j, k)).
    { intros a Fa. unfold adj. rewrite Fa. cbn [filter]. rewrite !M'.
      apply flowb_true in Fa.
      rewrite (proj2 (gridb_true g (shift a (-1) (i,j,k)))), (proj2 (gridb_true g (shift a 1 (i,j,k)))); auto;
      apply in_grid_shift_interior; auto. }
    f_equal.
    + unfold adj. destruct (flowb g AX) eqn:FX; unfold flowb in FX; rewrite FX; auto.
      pose proof (X AX FX) as Y. unfold adj, flowb in Y. rewrite FX in Y. exact Y.
    + unfold adj. destruct (flowb g AY) eqn:FX; unfold flowb in FX; rewrite FX; auto.
      pose proof (X AY FX) as Y. unfold adj, flowb in Y. rewrite FX in Y. exact Y.
    + unfold adj. destruct (flowb g AZ) eqn:FX; unfold flowb in FX; rewrite FX; auto.
      pose proof (X AZ FX) as Y. unfold adj, flowb in Y. rewrite FX in Y. exact Y.
  - rewrite andb_false_r. cbn [negb passert rbind]. rewrite E'. cbn [rbind]. destruct c as [[i j] k].
    rewrite !amem_fdir by (auto; congruence). f_equal. unfold dirs_of, adj, flowb.
    assert (X : forall l, filter (fun i => cmem i cs) l = filter (interiorb g) l).
    { intros l0. apply filter_ext. auto. }
    rewrite !X. simpl size.
    destruct (1 <? nx g)%nat, (1 <? ny g)%nat, (1 <? nz g)%nat; reflexivity.
Qed.
