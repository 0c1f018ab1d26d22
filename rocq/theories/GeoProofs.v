(** Proofs about [GeoModel.v]. *)
From Coq Require Import String ZArith Bool Arith List Lia Reals Lra.
From Verif Require Import Prelude PreludeFacts Num GridModel GridSpec GridProofs GridNeighbors
  GeoModel GeoSpec TabFacts.
Import ListNotations.
Close Scope R_scope.
Open Scope nat_scope.

(** ** Arrays in natural order *)
Definition per_cell {A} (g : grid) (f : nat -> nat -> nat -> A) : list A :=
  tab [pad (nz g); pad (ny g); pad (nx g)]
      (fun r => f (nth 2 r 0) (nth 1 r 0) (nth 0 r 0)).

Lemma ravel_idx g i j k : ravel [pad (nz g); pad (ny g); pad (nx g)] [k; j; i] = idx g i j k.
Proof. unfold idx. simpl. lia. Qed.
Lemma per_cell_length {A} g (f : nat -> nat -> nat -> A) : wf g ->
  length (per_cell g f) = get_n g true.
Proof. intros. unfold per_cell. rewrite tab_length, get_n_true by auto. simpl. lia. Qed.
Lemma nth_per_cell {A} g (f : nat -> nat -> nat -> A) i j k d :
  i < pad (nx g) -> j < pad (ny g) -> k < pad (nz g) ->
  nth (idx g i j k) (per_cell g f) d = f i j k.
Proof.
  intros. rewrite <- ravel_idx. unfold per_cell.
  rewrite nth_tab by (now apply mk_inb3). reflexivity.
Qed.
Lemma pyget_per_cell {A} g (f : nat -> nat -> nat -> A) i j k : wf g ->
  i < pad (nx g) -> j < pad (ny g) -> k < pad (nz g) ->
  pyget (per_cell g f) (natural_id g (zc i j k)) = Ok (f i j k).
Proof.
  intros W Hi Hj Hk. rewrite natural_idx.
  assert (L : idx g i j k < length (per_cell g f)).
  { rewrite per_cell_length, get_n_true by auto. now apply idx_lt. }
  rewrite (pyget_nth _ _ (f i j k) L). now rewrite nth_per_cell.
Qed.
Lemma per_cell_ext {A} g (f h : nat -> nat -> nat -> A) :
  (forall i j k, i < pad (nx g) -> j < pad (ny g) -> k < pad (nz g) -> f i j k = h i j k) ->
  per_cell g f = per_cell g h.
Proof.
  intros H. apply tab_ext. intros r Hr. apply inb3 in Hr as (k & j & i & -> & ? & ? & ?).
  simpl. auto.
Qed.
Lemma map2_per_cell {A B C} (h : A -> B -> C) g f f' :
  map2 h (per_cell g f) (per_cell g f') = per_cell g (fun i j k => h (f i j k) (f' i j k)).
Proof. unfold per_cell. now rewrite map2_tab. Qed.
Lemma per_cell_box {A} g (f : nat -> nat -> nat -> A) sk sj si d :
  Forall (fun i => i < pad (nz g)) sk -> Forall (fun i => i < pad (ny g)) sj ->
  Forall (fun i => i < pad (nx g)) si ->
  map (fun n => nth n (per_cell g f) d) (box g sk sj si)
  = flat_map (fun k => flat_map (fun j => map (fun i => f i j k) si) sj) sk.
Proof.
  rewrite !Forall_forall. intros Hk Hj Hi. unfold box.
  rewrite map_flat_map. apply flat_map_ext_in. intros k Ik.
  rewrite map_flat_map. apply flat_map_ext_in. intros j Ij. rewrite map_map.
  apply map_ext_in. intros i Ii. apply nth_per_cell; auto.
Qed.

(** [array[self.cells_id]] *)
Lemma at_cells_id_nth {A} g (l : list A) d : wf g -> length l = get_n g true ->
  at_cells_id g l = Ok (map (fun n => nth n l d) (interior_ids g)).
Proof.
  intros W Hl. unfold at_cells_id. rewrite cells_id_false by auto. cbn [rbind].
  assert (B : forall n, In n (interior_ids g) -> n < length l).
  { intros n Hn. rewrite Hl, get_n_true by auto. destruct W as (?&?&?).
    eapply box_lt; [| | |exact Hn]; apply keepsel_lt; auto. }
  induction (interior_ids g) as [|n ns IH]; auto. simpl.
  rewrite (pyget_nth l n d) by (apply B; now left). simpl. rewrite IH. reflexivity.
  intros; apply B; now right.
Qed.
Lemma remove_both_nth {A} g (l : list A) d : wf g -> length l = get_n g true ->
  remove_boundaries g l "both" = Ok (map (fun n => nth n l d) (interior_ids g)).
Proof.
  intros W Hl. rewrite (remove_canon g l "both" (true, true)) by auto. f_equal.
  destruct W as (?&?&?).
  rewrite (sub3_box _ _ _ _ _ d); auto using keepsel_lt. rewrite Hl. apply get_n_true. repeat split; auto.
Qed.

Lemma prod_bad x y z px py pz : 1 <= px -> 1 <= py -> 1 <= pz ->
  x = px \/ px = 1 /\ x <> 1 -> y = py \/ py = 1 /\ y <> 1 -> z = pz \/ pz = 1 /\ z <> 1 ->
  x * y * z = px * py * pz -> x = px /\ y = py /\ z = pz.
Proof.
  intros Px Py Pz Hx Hy Hz E.
  assert (1 <= px * py * pz). { assert (1 <= px * py) by nia. nia. }
  assert (x <> 0) by (intros ->; simpl in E; lia).
  assert (y <> 0) by (intros ->; rewrite Nat.mul_0_r in E; simpl in E; lia).
  assert (z <> 0) by (intros ->; rewrite Nat.mul_0_r in E; lia).
  assert (Lx : px <= x) by lia. assert (Ly : py <= y) by lia. assert (Lz : pz <= z) by lia.
  assert (Q : px * py <= x * y) by (apply Nat.mul_le_mono; auto).
  assert (x * y = px * py).
  { destruct (Nat.eq_dec (x * y) (px * py)); auto. exfalso.
    assert (px * py + 1 <= x * y) by lia. nia. }
  assert (z = pz). { rewrite H3 in E. apply Nat.mul_cancel_l in E; auto. nia. }
  assert (x = px). { destruct (Nat.eq_dec x px); auto. exfalso. assert (px + 1 <= x) by lia. nia. }
  assert (y = py). { subst x. apply Nat.mul_cancel_l in H3; auto. }
  auto.
Qed.

(** ** Spacing *)
Section spacing.
Context {F : Type} {NF : Num F}.

Definition sp (d : dinput F) (i : nat) : F := match d with Scalar v => v | Vec l => nth i l n0 end.
Definition axvec (n : nat) (d : dinput F) : list F := map (sp d) (seq 0 n).

Lemma repeat_map_const {A} (a : A) n : repeat a n = map (fun _ => a) (seq 0 n).
Proof. generalize 0. induction n; intros; simpl; auto. now rewrite <- IHn. Qed.

Lemma axvec_vec n l : length l = n -> axvec n (Vec l) = l.
Proof. intros <-. exact (map_nth_seq l n0). Qed.
Lemma bcast_ok n d :
  (match d with Scalar _ => True | Vec l => length l = n end) -> bcast n d = Ok (axvec n d).
Proof.
  unfold axvec. destruct d; simpl; intros H.
  - now rewrite repeat_map_const.
  - subst. rewrite Nat.eqb_refl. f_equal. symmetry. apply map_nth_seq.
Qed.

Lemma n_max_ge g : wf g -> pad (nx g) <= get_n_max g true /\ pad (ny g) <= get_n_max g true /\
  pad (nz g) <= get_n_max g true.
Proof. intros. unfold get_n_max. rewrite get_shape_true by auto. simpl. lia. Qed.

Lemma calc_axis_ok n nmax d : 1 <= n -> pad n <= nmax -> spacing_ok n d ->
  exists v, calc_axis (1 <? n) (pad n) nmax d = Ok (v, axvec (pad n) d) /\
    firstn (pad n) v = axvec (pad n) d.
Proof.
  intros Hn Hm Hok. unfold spacing_ok in Hok. rewrite <- pad_padded in Hok. unfold calc_axis.
  destruct (Nat.ltb_spec 1 n) as [Fl|Fl].
  - exists (axvec (pad n) d). split.
    + destruct d; cbn [bcast] in *.
      * rewrite repeat_map_const. reflexivity.
      * apply Nat2Z.inj in Hok. rewrite Hok, Nat.eqb_refl. cbn [passert rbind].
        rewrite (axvec_vec _ _ Hok). reflexivity.
    + rewrite firstn_all2; auto. unfold axvec. now rewrite map_length, seq_length.
  - assert (n = 1) by lia. subst n. change (pad 1) with 1 in *. destruct d as [v|l].
    + exists (repeat v nmax). simpl. split; auto. destruct nmax; [lia|]. reflexivity.
    + apply Nat2Z.inj in Hok. destruct l as [|v [|]]; try discriminate.
      exists (repeat v nmax). split.
      * unfold bcast. destruct (Nat.eqb_spec (length [v]) nmax); subst; reflexivity.
      * destruct nmax; [lia|]. reflexivity.
Qed.

Lemma calc_cells_d_ok g dx dy dz : wf g ->
  spacing_ok (nx g) dx -> spacing_ok (ny g) dy -> spacing_ok (nz g) dz ->
  exists G, calc_cells_d g dx dy dz = Ok G /\ gr G = g /\
    firstn (pad (nx g)) (ax_x G) = axvec (pad (nx g)) dx /\
    firstn (pad (ny g)) (ax_y G) = axvec (pad (ny g)) dy /\
    firstn (pad (nz g)) (ax_z G) = axvec (pad (nz g)) dz /\
    (1 < nx g -> ax_x G = axvec (pad (nx g)) dx) /\
    (1 < ny g -> ax_y G = axvec (pad (ny g)) dy) /\
    (1 < nz g -> ax_z G = axvec (pad (nz g)) dz) /\
    cd_x G = per_cell g (fun i j k => sp dx i) /\
    cd_y G = per_cell g (fun i j k => sp dy j) /\
    cd_z G = per_cell g (fun i j k => sp dz k).
Proof.
  intros W Ox Oy Oz. pose proof W as (Hx & Hy & Hz). pose proof (n_max_ge g W) as (Mx & My & Mz).
  unfold calc_cells_d. rewrite !amem_fdir, nx_b_spec, ny_b_spec, nz_b_spec by (auto; congruence).
  cbn [size].
  destruct (calc_axis_ok _ _ _ Hx Mx Ox) as (vx & Ex & Vx). rewrite Ex. cbn [rbind].
  destruct (calc_axis_ok _ _ _ Hy My Oy) as (vy & Ey & Vy). rewrite Ey. cbn [rbind].
  destruct (calc_axis_ok _ _ _ Hz Mz Oz) as (vz & Ez & Vz). rewrite Ez. cbn [rbind fst snd].
  assert (LA : forall n d, length (axvec n d) = n) by (intros; unfold axvec; now rewrite map_length, seq_length).
  unfold meshgrid3. rewrite !LA.
  rewrite transpose_021, transpose_201, transpose_210. cbn [nth].
  rewrite !reshape_ok by (rewrite tab_length; unfold get_n; rewrite get_shape_true by auto; simpl; lia).
  cbn [rbind]. eexists. split; [reflexivity|]. cbn [gr ax_x ax_y ax_z cd_x cd_y cd_z].
  assert (NA : forall n d i, i < n -> nth i (axvec n d) n0 = sp d i).
  { intros n d i Hi. unfold axvec. rewrite (nth_indep _ n0 (sp d 0)).
    rewrite map_nth, seq_nth; auto. now rewrite map_length, seq_length. }
  assert (FA : forall n v d, firstn (pad n) v = axvec (pad n) d -> calc_axis (1 <? n) (pad n) (get_n_max g true) d = Ok (v, axvec (pad n) d) ->
     1 < n -> v = axvec (pad n) d).
  { intros n v d _ E Fl. unfold calc_axis in E. destruct (Nat.ltb_spec 1 n); [|lia].
    apply rbind_ok in E as (? & _ & E). apply rbind_ok in E as (? & _ & E). congruence. }
  do 4 (split; auto). do 3 (split; [eapply FA; eauto|]). split; [|split].
  - unfold per_cell. rewrite (tab3_last _ _ _ (fun i => nth i (axvec (pad (nx g)) dx) n0)).
    rewrite (tab3_last _ _ _ (sp dx)). rewrite (Nat.mul_comm (pad (ny g))). do 2 f_equal.
    apply map_ext_in. intros i Hi. apply in_seq in Hi. apply NA. lia.
  - unfold per_cell. apply tab_ext. intros r Hr. apply inb3 in Hr as (k & j & i & -> & ? & ? & ?).
    cbn [nth]. now apply NA.
  - unfold per_cell. rewrite (tab3_first _ _ _ (fun i => nth i (axvec (pad (nz g)) dz) n0)).
    rewrite (tab3_first _ _ _ (sp dz)). rewrite (Nat.mul_comm (pad (nx g))).
    apply flat_map_ext_in. intros i Hi. apply in_seq in Hi. rewrite NA by lia. reflexivity.
Qed.

Lemma calc_axis_bad n nmax (d : dinput F) : 1 <= n -> ~ spacing_ok n d ->
  calc_axis (1 <? n) (pad n) nmax d = Err AssertionError \/
  calc_axis (1 <? n) (pad n) nmax d = Err ValueError \/
  n = 1 /\ exists v l, calc_axis (1 <? n) (pad n) nmax d = Ok (v, l) /\ length l <> 1.
Proof.
  intros Hn Hok. unfold spacing_ok in Hok. rewrite <- pad_padded in Hok. unfold calc_axis.
  destruct d as [v|l]; [tauto|].
  destruct (Nat.ltb_spec 1 n) as [Fl|Fl].
  - left. destruct (Nat.eqb_spec (length l) (pad n)); auto. lia.
  - assert (n = 1) by lia. subst n. change (pad 1) with 1 in *. right.
    destruct (bcast nmax (Vec l)) eqn:E; simpl.
    + right. split; auto. do 2 eexists. split; [reflexivity|]. lia.
    + left. unfold bcast in E. destruct (Nat.eqb (length l) nmax); [discriminate|].
      destruct l as [|a [|]]; try discriminate; destruct (Nat.eqb nmax 1); congruence.
Qed.
Lemma calc_axis_len n nmax (d : dinput F) v l : 1 <= n -> pad n <= nmax ->
  calc_axis (1 <? n) (pad n) nmax d = Ok (v, l) ->
  (spacing_ok n d /\ length l = pad n) \/ (~ spacing_ok n d /\ pad n = 1 /\ length l <> 1).
Proof.
  intros Hn Hm E.
  assert (D : spacing_ok n d \/ ~ spacing_ok n d).
  { unfold spacing_ok. destruct d; auto. destruct (Z.eq_dec (Z.of_nat (length l0)) (padded n)); auto. }
  destruct D as [O|O].
  - left. split; auto. destruct (calc_axis_ok n nmax d Hn Hm O) as (v' & E' & _). rewrite E' in E. inversion E.
    unfold axvec. now rewrite map_length, seq_length.
  - right. split; auto. destruct (calc_axis_bad n nmax d Hn O) as [B|[B|(-> & v' & l' & B & L)]];
      rewrite B in E; try discriminate. inversion E; subst. auto.
Qed.
Lemma calc_axis_err n nmax (d : dinput F) e : calc_axis (1 <? n) (pad n) nmax d = Err e ->
  e = AssertionError \/ e = ValueError.
Proof.
  unfold calc_axis. assert (B : forall m e, bcast m d = Err e -> e = ValueError).
  { intros m e0. unfold bcast. destruct d; [discriminate|].
    destruct (Nat.eqb (length l) m); [discriminate|].
    destruct l as [|a [|]]; try discriminate; destruct (Nat.eqb m 1); congruence. }
  destruct (1 <? n).
  - destruct d as [|l]; cbn [rbind].
    + destruct (bcast (pad n) (Scalar v)) eqn:E; simpl; [discriminate|]. intros X; inversion X; subst. eauto.
    + destruct (length l =? pad n); cbn [passert rbind]; [|intros X; inversion X; auto].
      destruct (bcast (pad n) (Vec l)) eqn:E; simpl; [discriminate|]. intros X; inversion X; subst. eauto.
  - destruct (bcast nmax d) eqn:E; simpl; [discriminate|]. intros X; inversion X; subst. eauto.
Qed.

Lemma calc_cells_d_bad g dx dy dz : wf g ->
  ~ (spacing_ok (nx g) dx /\ spacing_ok (ny g) dy /\ spacing_ok (nz g) dz) ->
  calc_cells_d g dx dy dz = Err AssertionError \/ calc_cells_d g dx dy dz = Err ValueError.
Proof.
  intros W N. pose proof W as (Hx & Hy & Hz). pose proof (n_max_ge g W) as (Mx & My & Mz).
  unfold calc_cells_d. rewrite !amem_fdir, nx_b_spec, ny_b_spec, nz_b_spec by (auto; congruence).
  cbn [size].
  destruct (calc_axis (1 <? nx g) (pad (nx g)) (get_n_max g true) dx) as [[vx lx]|e] eqn:Ex;
    [|apply calc_axis_err in Ex as [->| ->]; auto].
  destruct (calc_axis (1 <? ny g) (pad (ny g)) (get_n_max g true) dy) as [[vy ly]|e] eqn:Ey;
    [|apply calc_axis_err in Ey as [->| ->]; auto].
  destruct (calc_axis (1 <? nz g) (pad (nz g)) (get_n_max g true) dz) as [[vz lz]|e] eqn:Ez;
    [|apply calc_axis_err in Ez as [->| ->]; auto].
  right. cbn [rbind fst snd]. unfold meshgrid3, reshape.
  rewrite !transpose_length. cbn [map nth].
  assert (Q : prodn [length ly; length lz; length lx] <> prodn [get_n g true]).
  { intros E. unfold get_n in E. rewrite get_shape_true in E by auto. cbn [prodn fold_right] in E.
    apply calc_axis_len in Ex; auto. apply calc_axis_len in Ey; auto. apply calc_axis_len in Ez; auto.
    apply N. destruct (prod_bad (length ly) (length lz) (length lx) (pad (ny g)) (pad (nz g)) (pad (nx g)))
      as (L1 & L2 & L3); auto using pad_pos; try tauto; try (clear - E; lia).
    assert (K : forall n (d : dinput F) (l : list F), (spacing_ok n d /\ length l = pad n \/ ~ spacing_ok n d /\ pad n = 1 /\ length l <> 1) ->
      length l = pad n -> spacing_ok n d) by (clear; intros; destruct H as [[]|(_ & ? & ?)]; auto; congruence).
    repeat split; eapply K; eauto. }
  destruct (Nat.eqb_spec (prodn [length ly; length lz; length lx]) (prodn [get_n g true])); [contradiction|].
  reflexivity.
Qed.
End spacing.

Lemma nth_map' {A B} (f : A -> B) l i a b : i < length l -> nth i (map f l) b = f (nth i l a).
Proof. intros. rewrite (nth_indep _ b (f a)) by (now rewrite map_length). apply map_nth. Qed.
Lemma nth_map2 {A B C} (f : A -> B -> C) l m i a b c : i < length l -> i < length m ->
  nth i (map2 f l m) c = f (nth i l a) (nth i m b).
Proof.
  intros. unfold map2. revert m i H H0. induction l; intros m i H H0; [simpl in H; lia|].
  destruct m; [simpl in H0; lia|]. destruct i; auto. simpl in *. apply IHl; lia.
Qed.

(** ** Lookups *)
Lemma nd_get_ravel {A} s (l : list A) ix (zs : list Z) :
  inb s ix -> zs = map Z.of_nat ix -> length l = prodn s ->
  nd_get s zs l = match nth_error l (ravel s ix) with Some a => Ok a | None => Err IndexError end.
Proof.
  intros H -> _. unfold nd_get. replace (nd_index s (map Z.of_nat ix)) with (Ok (ravel s ix)); auto.
  symmetry. induction H; auto. cbn [map nd_index].
  destruct (Z.ltb_spec (Z.of_nat y) 0); [lia|].
  destruct (Z.leb_spec 0 (Z.of_nat y)); [|lia]. destruct (Z.ltb_spec (Z.of_nat y) (Z.of_nat x)); [|lia].
  cbn [andb]. rewrite IHForall2. cbn [rbind]. rewrite Nat2Z.id. reflexivity.
Qed.

Lemma cell_lookup_id {A} g (l : list A) i j k : wf g -> length l = get_n g true ->
  i < pad (nx g) -> j < pad (ny g) -> k < pad (nz g) ->
  cell_lookup g l (ById (natural_id g (zc i j k)))
  = match nth_error l (idx g i j k) with Some a => Ok a | None => Err IndexError end.
Proof.
  intros W L Hi Hj Hk. unfold cell_lookup. rewrite natural_idx.
  assert (idx g i j k < length l) by (rewrite L, get_n_true by auto; now apply idx_lt).
  destruct l as [|a l]; [simpl in *; lia|].
  rewrite (pyget_nth _ _ a) by auto. now rewrite (nth_error_nth' _ a) by auto.
Qed.

Lemma icoords_in g c : wf g -> in_grid g c ->
  get_cell_icoords g c =
  match c with
  | (i, j, k) =>
      if (negb (unify g) && (get_D g <=? 2))%bool then
        let ic := filter (fun x => (0 <? x)%Z) [k; j; i] in
        let* _ := passert (Nat.eqb (length ic) (get_D g)) in Ok ic
      else Ok [k; j; i]
  end.
Proof.
  intros W I. unfold get_cell_icoords. destruct (cells_coords_mem g true W) as (l & -> & K).
  cbn [rbind]. rewrite K. apply gridb_true in I. rewrite I. reflexivity.
Qed.

Lemma fshape_ravel g : wf g -> exists s, get_fshape g true = Ok s /\ prodn s = get_n g true /\
  ((unify g = true \/ get_D g = 3) -> forall i j k, i < pad (nx g) -> j < pad (ny g) -> k < pad (nz g) ->
     inb s [k; j; i] /\ ravel s [k; j; i] = idx g i j k).
Proof.
  intros W. rewrite get_n_true, get_D_spec by auto. unfold get_fshape. rewrite get_shape_true, get_fdir_spec by auto.
  unfold flow_axes, idx, pad. flow_split g W; cbn [filter size]; destruct (unify g); cbn;
    eexists; (split; [reflexivity|]); (split; [simpl; lia|]); intros [U|U]; try discriminate;
    intros i j k Hi Hj Hk; (split; [apply mk_inb3; auto; lia|simpl; lia]).
Qed.

Lemma cell_lookup_coords {A} g (l : list A) i j k : wf g -> length l = get_n g true ->
  (unify g = true \/ get_D g = 3) ->
  i < pad (nx g) -> j < pad (ny g) -> k < pad (nz g) ->
  cell_lookup g l (ByCoords (zc i j k)) = cell_lookup g l (ById (natural_id g (zc i j k))).
Proof.
  intros W L U Hi Hj Hk. rewrite cell_lookup_id by auto. unfold cell_lookup.
  destruct (fshape_ravel g W) as (s & Es & Ps & Q). rewrite Es. cbn [rbind].
  rewrite reshape_ok by congruence. cbn [rbind].
  rewrite icoords_in by (auto; apply in_grid_zc; eauto 10). unfold zc.
  replace (negb (unify g) && (get_D g <=? 2))%bool with false.
  2:{ destruct U as [->| ->]; simpl; auto. now rewrite andb_false_r. }
  cbn [rbind]. destruct (Q U i j k Hi Hj Hk) as (B & R).
  rewrite (nd_get_ravel s l [k; j; i]); auto; [now rewrite R|congruence].
Qed.

Ltac eqnth := match goal with
  | |- match nth_error ?l ?a with _ => _ end = match nth_error ?l ?b with _ => _ end =>
      replace b with a by (simpl; lia); reflexivity
  end.
Definition flow_pos (g : grid) (i j k : nat) : Prop :=
  (1 < nx g -> 0 < i) /\ (1 < ny g -> 0 < j) /\ (1 < nz g -> 0 < k).

Lemma cell_lookup_plain {A} g (l : list A) i j k : wf g -> length l = get_n g true ->
  unify g = false -> get_D g <> 3 -> get_D g <> 0 ->
  i < pad (nx g) -> j < pad (ny g) -> k < pad (nz g) ->
  (flow_pos g i j k ->
   cell_lookup g l (ByCoords (zc i j k)) = cell_lookup g l (ById (natural_id g (zc i j k)))) /\
  (~ flow_pos g i j k -> cell_lookup g l (ByCoords (zc i j k)) = Err AssertionError).
Proof.
  intros W L U D3 D0 Hi Hj Hk. rewrite cell_lookup_id by auto. unfold cell_lookup.
  rewrite icoords_in by (auto; apply in_grid_zc; eauto 10). rewrite U.
  destruct (fshape_ravel g W) as (s & Es & Ps & _). rewrite Es. cbn [rbind].
  rewrite reshape_ok by congruence. cbn [rbind]. unfold zc.
  assert (Lp : length l = prodn s) by congruence.
  revert Es D3 D0. unfold get_fshape. rewrite get_shape_true, get_fdir_spec, get_D_spec by auto. rewrite U.
  unfold flow_axes, flow_pos, idx. cbn [filter size].
  clear L Ps. unfold pad in *.
  flow_split g W; cbn [app negb length Nat.leb andb filter];
    intros Es D3 D0; try congruence; inversion Es; subst s;
    repeat match goal with
    | H : ?x < 1 |- _ => assert (x = 0) by lia; subst x; clear H
    end; cbn [Z.of_nat Z.ltb Z.compare filter length];
    repeat match goal with
    | |- context [ (0 <? Z.of_nat ?x)%Z ] => destruct (Z.ltb_spec 0 (Z.of_nat x)); cbn [filter length]
    end; cbn [Nat.eqb passert rbind];
    (split; intros P; [|first [reflexivity | exfalso; apply P; repeat split; lia]]);
    try (exfalso; lia);
    match goal with
    | |- nd_get ?s [Z.of_nat ?a] ?l = _ =>
        rewrite (nd_get_ravel s l [a]); [ cbn [ravel prodn fold_right]; eqnth | repeat constructor; lia | reflexivity | auto ]
    | |- nd_get ?s [Z.of_nat ?a; Z.of_nat ?b] ?l = _ =>
        rewrite (nd_get_ravel s l [a; b]); [ cbn [ravel prodn fold_right]; eqnth | repeat constructor; lia | reflexivity | auto ]
    end.
Qed.

(** ** Centres, corners and volumes over the reals *)
Lemma rsum_ext f h lo n : (forall i, lo <= i < lo + n -> f i = h i) -> rsum f lo n = rsum h lo n.
Proof.
  revert lo. induction n; intros lo H; simpl; auto. rewrite (H lo) by lia. f_equal.
  apply IHn. intros. apply H. lia.
Qed.
Lemma rsum_last f lo n : rsum f lo (S n) = (rsum f lo n + f (lo + n)%nat)%R.
Proof.
  revert lo. induction n; intros lo.
  - simpl. rewrite Nat.add_0_r. lra.
  - cbn [rsum] in *. rewrite IHn. rewrite <- Nat.add_succ_comm. lra.
Qed.
Lemma rsum_shift f lo n : rsum f (S lo) n = rsum (fun i => f (S i)) lo n.
Proof. revert lo. induction n; intros; simpl; auto. now rewrite IHn. Qed.
Lemma rsum_scal f c lo n : rsum (fun i => (c * f i)%R) lo n = (c * rsum f lo n)%R.
Proof. revert lo. induction n; intros; simpl. lra. rewrite IHn. lra. Qed.

Lemma nsum_acc (l : list R) a : fold_left nadd l a = (a + nsum l)%R.
Proof.
  unfold nsum. change (@nadd R Num_R) with Rplus. change (@n0 R Num_R) with 0%R.
  revert a. induction l as [|x l IH]; intros a; simpl; [lra|].
  rewrite IH. rewrite (IH (0 + x)%R). lra.
Qed.
Lemma nsum_cons (a : R) l : nsum (a :: l) = (a + nsum l)%R.
Proof. unfold nsum at 1. simpl. rewrite nsum_acc. lra. Qed.
Lemma nsum_app (l m : list R) : nsum (l ++ m) = (nsum l + nsum m)%R.
Proof.
  induction l as [|a l IH]; [unfold nsum; simpl; fold (nsum m); lra|].
  simpl app. rewrite !nsum_cons, IH. lra.
Qed.
Lemma nsum_map_seq (f : nat -> R) lo n : nsum (map f (seq lo n)) = rsum f lo n.
Proof. revert lo. induction n; intros; simpl; auto. now rewrite nsum_cons, IHn. Qed.
Lemma nsum_flat_seq (f : nat -> list R) lo n :
  nsum (flat_map f (seq lo n)) = rsum (fun i => nsum (f i)) lo n.
Proof. revert lo. induction n; intros; simpl; auto. now rewrite nsum_app, IHn. Qed.
Lemma nsum_map_flat {A} (f : A -> list R) l : nsum (flat_map f l) = nsum (map (fun a => nsum (f a)) l).
Proof. induction l; simpl; auto. now rewrite nsum_app, nsum_cons, IHl. Qed.

Lemma sum_product (f g h : nat -> R) a la b lb c lc :
  nsum (flat_map (fun k => flat_map (fun j => map (fun i => (f i * g j * h k)%R) (seq a la))
     (seq b lb)) (seq c lc)) = (rsum f a la * rsum g b lb * rsum h c lc)%R.
Proof.
  rewrite nsum_flat_seq.
  rewrite (rsum_ext _ (fun k => (rsum f a la * rsum g b lb) * h k)%R).
  - apply rsum_scal.
  - intros k _. rewrite nsum_flat_seq.
    rewrite (rsum_ext _ (fun j => (rsum f a la * h k) * g j)%R).
    + rewrite rsum_scal. lra.
    + intros j _. rewrite nsum_map_seq.
      rewrite (rsum_ext _ (fun i => (g j * h k) * f i)%R) by (intros; lra).
      rewrite rsum_scal. lra.
Qed.

Lemma midsel_seq n : 1 <= n -> midsel n = seq (first_inner n) n.
Proof.
  intros H. unfold midsel, keepsel, first_inner. destruct (Nat.ltb_spec 1 n).
  - unfold slice_idx. simpl. f_equal. lia.
  - assert (n = 1) by lia. now subst.
Qed.

Lemma sp_rspacing (d : dinput R) i : sp d i = rspacing d i.
Proof. reflexivity. Qed.

Lemma cumsum_from_length (l : list R) a : length (cumsum_from a l) = length l.
Proof. revert a. induction l; intros; simpl; auto. Qed.
Lemma nth_cumsum (l : list R) a m : m <= length l ->
  nth m (a :: cumsum_from a l) 0%R = (a + rsum (fun i => nth i l 0%R) 0 m)%R.
Proof.
  revert a m. induction l as [|x l IH]; intros a m H.
  - simpl in H. assert (m = 0) by lia. subst. simpl. lra.
  - destruct m; [simpl; lra|]. 
    change (nth (S m) (a :: cumsum_from a (x :: l)) 0%R)
      with (nth m ((a + x)%R :: cumsum_from (a + x)%R l) 0%R).
    rewrite IH by (simpl in H; lia). cbn [rsum]. rewrite rsum_shift. cbn [nth]. lra.
Qed.

Lemma nth_center (d : list R) nb i : i < length d -> i < nb ->
  nth i (calc_d_center d nb) 0%R = (rsum (fun m => nth m d 0%R) 0 i + nth i d 0%R / 2)%R.
Proof.
  intros H1 H2. unfold calc_d_center.
  assert (NF : forall (l : list R) n i, i < n -> nth i (firstn n l) 0%R = nth i l 0%R).
  { clear. induction l; intros n i H; destruct n; try lia; auto. destruct i; simpl; auto. apply IHl. lia. }
  rewrite NF by auto. destruct d as [|x d]; [simpl in H1; lia|].
  cbn [map]. destruct i as [|i].
  - cbn [nth rsum]. change (ndiv x n2) with (x / 2)%R. lra.
  - cbn [nth].
    assert (L : length (removelast (x :: d)) = length d).
    { rewrite removelast_firstn_len. rewrite firstn_length. simpl. lia. }
    assert (Li : i < length d) by (simpl in H1; lia).
    rewrite (nth_map2 nadd _ _ i 0%R 0%R)
      by (rewrite ?map_length; unfold cumsum; rewrite ?cumsum_from_length, ?L; auto).
    rewrite (nth_map' _ _ i 0%R) by auto.
    change (ndiv (nth i d 0%R) n2) with (nth i d 0 / 2)%R.
    assert (C : nth i (cumsum (removelast (x :: d))) 0%R = rsum (fun m => nth m (x :: d) 0%R) 0 (S i)).
    { pose proof (nth_cumsum (removelast (x :: d)) 0%R (S i)) as Q. rewrite L in Q.
      specialize (Q Li). cbn [nth] in Q. unfold cumsum. change (@n0 R Num_R) with 0%R. rewrite Q.
      rewrite Rplus_0_l. apply rsum_ext. intros m Hm. rewrite removelast_firstn_len.
      apply NF. simpl. lia. }
    change (@nadd R Num_R) with Rplus. rewrite C. cbn [nth]. apply Rplus_comm.
Qed.
Lemma calc_d_center_length (d : list R) nb : length (calc_d_center d nb) = Nat.min nb (length d).
Proof.
  unfold calc_d_center. rewrite firstn_length. f_equal. destruct d as [|x d]; auto.
  cbn [map length]. unfold map2. rewrite map_length, combine_length, map_length. unfold cumsum.
  rewrite cumsum_from_length, removelast_firstn_len, firstn_length. simpl. lia.
Qed.

Lemma nth_dup (c : list R) m : m < 2 * (length c - 1) ->
  nth m (corner_dup c) 0%R = nth (S m / 2) c 0%R.
Proof.
  intros H. unfold corner_dup.
  assert (RL : forall (l : list R) i, S i < length l -> nth i (removelast l) 0%R = nth i l 0%R).
  { clear. induction l as [|a l IH]; intros i Hi; [simpl in Hi; lia|]. destruct l; [simpl in Hi; lia|].
    cbn [removelast]. destruct i; auto. cbn [nth]. apply IH. simpl in *. lia. }
  assert (NR : forall (l : list R) i, nth i (np_repeat l 2) 0%R = nth (i / 2) l 0%R).
  { clear. induction l as [|a l IH]; intros i.
    - change (np_repeat (@nil R) 2) with (@nil R). now destruct i, (_ / 2).
    - destruct i as [|[|i]]; auto. change (nth (S (S i)) (np_repeat (a :: l) 2) 0%R) with (nth i (np_repeat l 2) 0%R).
      rewrite IH. replace (S (S i)) with (i + 1 * 2) by lia. rewrite Nat.div_add by lia.
      rewrite Nat.add_1_r. reflexivity. }
  assert (TL : forall (l : list R) i, nth i (tl l) 0%R = nth (S i) l 0%R).
  { clear. destruct l; auto. destruct i; auto. }
  assert (LN : length (np_repeat c 2) = 2 * length c).
  { unfold np_repeat. rewrite (flat_map_length_const _ 2). lia. intros; apply repeat_length. }
  rewrite RL, TL, NR; auto.
  assert (length (tl (np_repeat c 2)) = 2 * length c - 1) by (destruct (np_repeat c 2); simpl in *; lia).
  lia.
Qed.
Lemma corner_dup_length (c : list R) : length (corner_dup c) = 2 * (length c - 1).
Proof.
  unfold corner_dup. rewrite removelast_firstn_len, firstn_length.
  assert (LN : length (np_repeat c 2) = 2 * length c).
  { unfold np_repeat. rewrite (flat_map_length_const _ 2). lia. intros; apply repeat_length. }
  destruct (np_repeat c 2); simpl in *; lia.
Qed.

(** The three corner arrays as one tabulated array. *)
Lemma corners_tab (xc yc zc : list R) a b c :
  length xc = 2 * a -> length yc = 2 * b -> length zc = 2 * c ->
  combine (combine (np_tile xc (4 * b * c))
     (transpose n0 [2 * a; length (np_tile yc (2 * c))] [1; 0]
              (np_tile (np_tile yc (2 * c)) (2 * a))))
     (np_repeat zc (4 * a * b))
  = tab [2 * c; 2 * b; 2 * a] (fun r => (nth (nth 2 r 0) xc 0%R, nth (nth 1 r 0) yc 0%R, nth (nth 0 r 0) zc 0%R)).
Proof.
  intros Lx Ly Lz.
  rewrite <- !combine_tab. f_equal; [f_equal|].
  - rewrite (tab3_last _ _ _ (fun i => nth i xc 0%R)). rewrite map_nth_seq0 by auto.
    rewrite np_tile_concat. do 2 f_equal. lia.
  - rewrite (np_tile_tab (np_tile yc (2 * c)) (2 * a) 0%R), transpose_10. cbn [nth].
    rewrite (tab2_first _ _ (fun i => nth i (np_tile yc (2 * c)) 0%R)).
    rewrite <- (np_repeat_seq (np_tile yc (2 * c)) (2 * a)).
    rewrite (tab3_mid _ _ _ (fun j => nth j yc 0%R)).
    unfold np_repeat, np_tile at 1.
    rewrite <- Ly. rewrite <- (np_repeat_seq yc (2 * a)).
    generalize (seq 0 (2 * c)). intros l. induction l; cbn [flat_map]; auto.
    rewrite flat_map_app, IHl. reflexivity.
  - rewrite (tab3_first _ _ _ (fun i => nth i zc 0%R)).
    rewrite (np_repeat_seq _ _ 0%R). rewrite Lz. apply flat_map_ext. intros. f_equal. lia.
Qed.

(** ** A grid that was built *)
Section built.
Context {F : Type} {NF : Num F}.
Record built (G : geo F) (x y z : nat) (u : bool) (dx dy dz : dinput F) : Prop := {
  b_gr : gr G = mkGrid x y z u;
  b_wf : wf (gr G);
  b_okx : spacing_ok x dx; b_oky : spacing_ok y dy; b_okz : spacing_ok z dz;
  b_ax : firstn (pad x) (ax_x G) = axvec (pad x) dx;
  b_ay : firstn (pad y) (ax_y G) = axvec (pad y) dy;
  b_az : firstn (pad z) (ax_z G) = axvec (pad z) dz;
  b_axf : 1 < x -> ax_x G = axvec (pad x) dx;
  b_ayf : 1 < y -> ax_y G = axvec (pad y) dy;
  b_azf : 1 < z -> ax_z G = axvec (pad z) dz;
  b_cx : cd_x G = per_cell (gr G) (fun i j k => sp dx i);
  b_cy : cd_y G = per_cell (gr G) (fun i j k => sp dy j);
  b_cz : cd_z G = per_cell (gr G) (fun i j k => sp dz k) }.

Lemma spacing_ok_dec n (d : dinput F) : spacing_ok n d \/ ~ spacing_ok n d.
Proof. unfold spacing_ok. destruct d; auto. destruct (Z.eq_dec (Z.of_nat (length l)) (padded n)); auto. Qed.

Lemma geo_new_built x y z u dx dy dz G :
  geo_new x y z u dx dy dz = Ok G -> built G x y z u dx dy dz.
Proof.
  unfold geo_new, grid_new. intros E.
  destruct (Nat.leb_spec 1 x); cbn [passert rbind] in E; [|discriminate].
  destruct (Nat.leb_spec 1 y); cbn [passert rbind] in E; [|discriminate].
  destruct (Nat.leb_spec 1 z); cbn [passert rbind] in E; [|discriminate].
  set (g := mkGrid x y z u) in *.
  assert (W : wf g) by (repeat split; auto).
  assert (O : spacing_ok x dx /\ spacing_ok y dy /\ spacing_ok z dz).
  { destruct (spacing_ok_dec x dx), (spacing_ok_dec y dy), (spacing_ok_dec z dz); auto;
      exfalso; destruct (calc_cells_d_bad g dx dy dz W ltac:(cbn [g nx ny nz]; tauto)); congruence. }
  destruct O as (Ox & Oy & Oz).
  destruct (calc_cells_d_ok g dx dy dz W Ox Oy Oz) as (G' & E' & Eg & R). rewrite E' in E.
  inversion E; subst G'. decompose [and] R. split; rewrite ?Eg; auto.
Qed.

Lemma geo_new_ok x y z u dx dy dz : 1 <= x -> 1 <= y -> 1 <= z ->
  spacing_ok x dx -> spacing_ok y dy -> spacing_ok z dz ->
  exists G, geo_new x y z u dx dy dz = Ok G.
Proof.
  intros. unfold geo_new, grid_new.
  destruct (Nat.leb_spec 1 x), (Nat.leb_spec 1 y), (Nat.leb_spec 1 z); try lia. cbn [passert rbind].
  destruct (calc_cells_d_ok (mkGrid x y z u) dx dy dz) as (G & E & _); auto; [repeat split; auto|].
  eauto.
Qed.

Context (G : geo F) (x y z : nat) (u : bool) (dx dy dz : dinput F) (B : built G x y z u dx dy dz).
Lemma cd_canon a : a <> ADash -> cd G a = per_cell (gr G) (fun i j k =>
  match a with AX => sp dx i | AY => sp dy j | _ => sp dz k end).
Proof. destruct B. destruct a; intros; simpl; congruence. Qed.
Lemma cA_canon a : a <> ADash -> cA G a = per_cell (gr G) (fun i j k =>
  match a with AX => nmul (sp dy j) (sp dz k) | AY => nmul (sp dx i) (sp dz k) | _ => nmul (sp dx i) (sp dy j) end).
Proof.
  destruct B. destruct a; intros; unfold cA; rewrite ?b_cx0, ?b_cy0, ?b_cz0, ?map2_per_cell; congruence.
Qed.
Lemma cV_canon : cV G = per_cell (gr G) (fun i j k => nmul (nmul (sp dx i) (sp dy j)) (sp dz k)).
Proof. destruct B. unfold cV. now rewrite b_cx0, b_cy0, b_cz0, !map2_per_cell. Qed.
Lemma at_id {A} (f : nat -> nat -> nat -> A) c : in_grid (gr G) c ->
  cell_lookup (gr G) (per_cell (gr G) f) (ById (natural_id (gr G) c)) = Ok (f (pos AX c) (pos AY c) (pos AZ c)).
Proof.
  intros I. apply in_grid_zc in I as (i & j & k & -> & Hi & Hj & Hk). destruct B.
  unfold cell_lookup. rewrite pyget_per_cell by auto. unfold pos, zc. cbn [at_axis].
  now rewrite !Nat2Z.id.
Qed.
Lemma sp_spacing n (d : dinput F) (i : Z) : spacing_ok n d -> (0 <= i < padded n)%Z ->
  spacing d i = Some (sp d (Z.to_nat i)).
Proof.
  unfold spacing_ok, spacing, sp. destruct d; auto. intros E H.
  rewrite (nth_error_nth' _ n0); auto. lia.
Qed.
End built.

Section builtR.
Context (G : geo R) (x y z : nat) (u : bool) (dx dy dz : dinput R) (B : built G x y z u dx dy dz).
Lemma axis_center n (d : dinput R) (v : list R) : 1 <= n -> firstn (pad n) v = axvec (pad n) d ->
  length (calc_d_center v (pad n)) = pad n /\
  forall i, i < pad n -> nth i (calc_d_center v (pad n)) 0%R = (left_face d i + rspacing d i / 2)%R.
Proof.
  intros Hn Hv.
  assert (L : pad n <= length v).
  { apply (f_equal (@length R)) in Hv. unfold axvec in Hv. rewrite firstn_length, map_length, seq_length in Hv. lia. }
  assert (N : forall i, i < pad n -> nth i v 0%R = rspacing d i).
  { intros i Hi. transitivity (nth i (firstn (pad n) v) 0%R).
    - clear - Hi. revert i Hi. generalize (pad n) as m. induction v; intros m i Hi; destruct m; try lia; auto.
      destruct i; simpl; auto. apply IHv. lia.
    - rewrite Hv. unfold axvec. rewrite (nth_map' _ _ i 0) by (now rewrite seq_length). now rewrite seq_nth. }
  split. rewrite calc_d_center_length. lia.
  intros i Hi. rewrite nth_center by lia. rewrite N by auto. f_equal.
  apply rsum_ext. intros m Hm. apply N. lia.
Qed.
Lemma centers_canon : get_cells_center G true = Ok (per_cell (gr G) (fun i j k =>
  (left_face dx i + rspacing dx i / 2, left_face dy j + rspacing dy j / 2, left_face dz k + rspacing dz k / 2)%R)).
Proof.
  destruct B. pose proof b_wf0 as W. rewrite b_gr0 in W. destruct W as (Hx & Hy & Hz). cbn [nx ny nz] in *.
  unfold get_cells_center. rewrite b_gr0. rewrite nx_b_spec, ny_b_spec, nz_b_spec by (repeat split; auto).
  cbn [nx ny nz].
  destruct (axis_center x dx _ Hx b_ax0) as (Lx & Nx).
  destruct (axis_center y dy _ Hy b_ay0) as (Ly & Ny).
  destruct (axis_center z dz _ Hz b_az0) as (Lz & Nz).
  unfold meshgrid3. rewrite Lx, Ly, Lz, !combine_tab, transpose_021, transpose_102. cbn [nth].
  f_equal. unfold per_cell. apply tab_ext. intros r Hr. cbn [nx ny nz] in *.
  apply inb3 in Hr as (k & j & i & -> & Hk & Hj & Hi).
  cbn [nth]. change (@n0 R Num_R) with 0%R. now rewrite Nx, Ny, Nz.
Qed.
Lemma axis_corners n (d : dinput R) (v : list R) (b : bool) : 1 <= n -> spacing_ok n d ->
  firstn (pad n) v = axvec (pad n) d -> (1 < n -> v = axvec (pad n) d) ->
  let c := corner_dup (corner_axis (1 <? n) b v) in
  length c = 2 * count n b /\
  forall m, m < 2 * count n b -> nth m c 0%R = left_face d (first_cell n b + S m / 2).
Proof.
  intros Hn Ok Hv Hf c.
  assert (Pn : Z.to_nat (padded n) = pad n) by (rewrite <- pad_padded; lia).
  assert (LA : forall m, length (axvec m d) = m) by (intros; unfold axvec; now rewrite map_length, seq_length).
  assert (NA : forall m i, i < m -> nth i (axvec m d) 0%R = rspacing d i).
  { intros. unfold axvec. rewrite (nth_map' _ _ i 0) by (now rewrite seq_length). now rewrite seq_nth. }
  set (e := corner_axis (1 <? n) b v) in *.
  assert (E : length e = S (count n b) /\ forall m, m <= count n b -> nth m e 0%R = left_face d (first_cell n b + m)).
  { unfold e, corner_axis, count, first_cell, first_inner. rewrite Pn. unfold pad in *.
    destruct (Nat.ltb_spec 1 n) as [Fl|Fl].
    - rewrite (Hf Fl). clear Hf Hv e c Pn.
      set (l := axvec (n + 2) d). assert (Ll : length l = n + 2) by apply LA.
      assert (C : forall m, m <= n + 2 -> nth m (0%R :: cumsum l) 0%R = left_face d m).
      { intros m Hm. unfold cumsum. change (@n0 R Num_R) with 0%R. rewrite nth_cumsum by lia.
        unfold left_face. rewrite Rplus_0_l. apply rsum_ext. intros i Hi. apply NA. lia. }
      change (@n0 R Num_R) with 0%R.
      assert (Lc : length (cumsum l) = n + 2) by (unfold cumsum; now rewrite cumsum_from_length).
      destruct b; cbn [negb andb].
      + split. cbn [length]. lia. intros m Hm. apply C. lia.
      + cbn [tl]. split.
        * rewrite removelast_firstn_len, firstn_length. lia.
        * intros m Hm. specialize (C (S m) ltac:(lia)). cbn [nth] in C. rewrite Nat.add_1_l, <- C.
          rewrite removelast_firstn_len.
          assert (NF : forall (l : list R) n i, i < n -> nth i (firstn n l) 0%R = nth i l 0%R).
          { clear. induction l; intros n i H; destruct n; try lia; auto. destruct i; simpl; auto. apply IHl. lia. }
          apply NF. lia.
    - assert (n = 1) by lia. subst n. rewrite andb_false_r.
      destruct v as [|a v]; [discriminate|]. cbn in Hv. inversion Hv; subst a.
      destruct b; (split; [reflexivity|]); intros [|[|m]] Hm; try lia;
        unfold left_face; cbn; unfold sp; destruct d; simpl; lra. }
  destruct E as (E1 & E2). unfold c. split. rewrite corner_dup_length, E1. lia.
  intros m Hm. rewrite nth_dup by lia. apply E2.
  assert (S m / 2 < S (count n b)) by (apply Nat.div_lt_upper_bound; lia). lia.
Qed.
Lemma corners_canon (b : bool) : get_corners G b =
  tab [2 * count z b; 2 * count y b; 2 * count x b] (fun r =>
   (left_face dx (first_cell x b + S (nth 2 r 0) / 2), left_face dy (first_cell y b + S (nth 1 r 0) / 2),
    left_face dz (first_cell z b + S (nth 0 r 0) / 2))).
Proof.
  destruct B. pose proof b_wf0 as W. rewrite b_gr0 in W. destruct W as (Hx & Hy & Hz). cbn [nx ny nz] in *.
  unfold get_corners. rewrite b_gr0. rewrite !amem_fdir by (congruence || (repeat split; auto)).
  cbn [size nx ny nz].
  assert (N : forall n, n + (if (b && (1 <? n))%bool then 2 else 0) = count n b).
  { intros n. unfold count. destruct b; cbn [andb]; [|lia]. rewrite <- pad_padded, Nat2Z.id. unfold pad.
    destruct (1 <? n); lia. }
  rewrite !N.
  destruct (axis_corners x dx _ b Hx b_okx0 b_ax0 b_axf0) as (Lx & Nx).
  destruct (axis_corners y dy _ b Hy b_oky0 b_ay0 b_ayf0) as (Ly & Ny).
  destruct (axis_corners z dz _ b Hz b_okz0 b_az0 b_azf0) as (Lz & Nz).
  rewrite corners_tab by auto. apply tab_ext. intros r Hr.
  apply inb3 in Hr as (k & j & i & -> & Hk & Hj & Hi). cbn [nth]. now rewrite Nx, Ny, Nz.
Qed.
End builtR.
