(** Property lemmas about the geometry of a grid. *)
From Coq Require Import String ZArith Bool Arith List Lia Reals Lra.
From Verif Require Import Prelude PreludeFacts Num GridModel GridSpec GridProofs GridNeighbors
  GeoModel GeoSpec TabFacts GeoProofs.
Import ListNotations.
Close Scope R_scope.
Open Scope nat_scope.

Lemma cases_coords {A} g (l : list A) c : wf g -> length l = get_n g true -> in_grid g c ->
  unify g = true \/ three_d g \/ (has_flow g /\ positive_coords g c) ->
  cell_lookup g l (ByCoords c) = cell_lookup g l (ById (natural_id g c)).
Proof.
  intros W L I H. apply in_grid_zc in I as (i & j & k & -> & Hi & Hj & Hk).
  assert (D : get_D g = 3 \/ get_D g <> 3) by lia.
  destruct (unify g) eqn:U; [now apply cell_lookup_coords; auto|].
  destruct D as [D|D]; [now apply cell_lookup_coords; auto|].
  destruct H as [H|[H|(H & P)]]; [discriminate| |].
  - exfalso. apply D. rewrite get_D_spec. destruct H as (Fx & Fy & Fz). unfold flows in *. cbn [size] in *.
    unfold flow_axes. destruct (Nat.ltb_spec 1 (nx g)), (Nat.ltb_spec 1 (ny g)), (Nat.ltb_spec 1 (nz g)); try lia; reflexivity.
  - apply cell_lookup_plain; auto.
    + rewrite get_D_spec. unfold flow_axes. unfold has_flow, flows in H. cbn [size] in H.
      destruct (Nat.ltb_spec 1 (nx g)), (Nat.ltb_spec 1 (ny g)), (Nat.ltb_spec 1 (nz g)); cbn; try lia.
    + pose proof (P AX). pose proof (P AY). pose proof (P AZ). unfold flows, zc in *. cbn [size at_axis] in *.
      repeat split; lia.
Qed.
Lemma cases_zero {A} g (l : list A) c : wf g -> length l = get_n g true -> in_grid g c ->
  unify g = false -> has_flow g -> ~ three_d g -> (exists a, flows g a /\ at_axis a c = 0%Z) ->
  cell_lookup g l (ByCoords c) = Err AssertionError.
Proof.
  intros W L I U H N (a & Fa & Z0). apply in_grid_zc in I as (i & j & k & -> & Hi & Hj & Hk).
  apply cell_lookup_plain; auto.
  - rewrite get_D_spec. unfold flow_axes, three_d, flows in *. cbn [size] in *.
    destruct (Nat.ltb_spec 1 (nx g)), (Nat.ltb_spec 1 (ny g)), (Nat.ltb_spec 1 (nz g)); cbn; lia.
  - rewrite get_D_spec. unfold flow_axes, has_flow, flows in *. cbn [size] in *.
    destruct (Nat.ltb_spec 1 (nx g)), (Nat.ltb_spec 1 (ny g)), (Nat.ltb_spec 1 (nz g)); cbn; lia.
  - unfold flow_pos, flows, zc in *. destruct a; cbn [size at_axis] in *; try lia.
Qed.
Lemma lens (G : geo R) x y z u dx dy dz : built G x y z u dx dy dz ->
  (forall a, a <> ADash -> length (cd G a) = get_n (gr G) true /\ length (cA G a) = get_n (gr G) true) /\
  length (cV G) = get_n (gr G) true /\
  exists cs, get_cells_center G true = Ok cs /\ length cs = get_n (gr G) true.
Proof.
  intros B. pose proof (b_wf _ _ _ _ _ _ _ _ B). split; [|split].
  - intros a Ha. rewrite (cd_canon G x y z u dx dy dz), (cA_canon G x y z u dx dy dz), !per_cell_length by auto. auto.
  - rewrite (cV_canon G x y z u dx dy dz), per_cell_length by auto. auto.
  - rewrite (centers_canon G x y z u dx dy dz) by auto. eexists. split; [reflexivity|]. now rewrite per_cell_length.
Qed.

(** C12: naming a cell by coordinates or by id gives the same values, with
    unify=True, in three dimensions, or when no flow coordinate is zero. *)
Lemma L_C12_lookup_by_coords :
  forall x y z u (dx dy dz : dinput R) G c,
  geo_new x y z u dx dy dz = Ok G -> in_grid (gr G) c ->
  unify (gr G) = true \/ three_d (gr G) \/ (has_flow (gr G) /\ positive_coords (gr G) c) ->
  let id := ById (natural_id (gr G) c) in
  (forall a, a <> ADash -> get_cell_d G a (ByCoords c) = get_cell_d G a id /\
                           get_cell_A G a (ByCoords c) = get_cell_A G a id) /\
  get_cell_V G (ByCoords c) = get_cell_V G id /\
  get_cell_center G (ByCoords c) = get_cell_center G id.
Proof.
  intros x y z u dx dy dz G c E I H id. apply geo_new_built in E.
  pose proof (b_wf _ _ _ _ _ _ _ _ E) as W. destruct (lens _ _ _ _ _ _ _ _ E) as (L1 & L2 & cs & E3 & L3).
  split; [|split].
  - intros a Ha. destruct (L1 a Ha). split; apply cases_coords; auto.
  - apply cases_coords; auto.
  - unfold get_cell_center. rewrite E3. cbn [rbind]. apply cases_coords; auto.
Qed.
Example ex_C12_case :
  exists G, geo_new 3 2 1 false (Scalar 1%R) (Scalar 2%R) (Scalar 3%R) = Ok G /\
    in_grid (gr G) (1, 2, 0)%Z /\ has_flow (gr G) /\ positive_coords (gr G) (1, 2, 0)%Z.
Proof.
  destruct (geo_new_ok 3 2 1 false (Scalar 1%R) (Scalar 2%R) (Scalar 3%R)) as (G & E); try exact I; try lia.
  exists G. split; auto. apply geo_new_built in E. rewrite (b_gr _ _ _ _ _ _ _ _ E). split; [|split].
  - intros a Ha. destruct a; try congruence; unfold padded; simpl; lia.
  - left. unfold flows. simpl. lia.
  - intros a Ha. unfold flows in Ha. destruct a; simpl in *; lia.
Qed.

(** C12 is false without unify on 1D and 2D grids: a cell with a zero flow
    coordinate cannot be named by coordinates although it can by id. *)
Lemma L_C12_zero_coordinate_rejected :
  forall x y z (dx dy dz : dinput R) G c,
  geo_new x y z false dx dy dz = Ok G -> in_grid (gr G) c ->
  has_flow (gr G) -> ~ three_d (gr G) -> (exists a, flows (gr G) a /\ at_axis a c = 0%Z) ->
  (forall a, a <> ADash -> get_cell_d G a (ByCoords c) = Err AssertionError /\
                           get_cell_A G a (ByCoords c) = Err AssertionError) /\
  get_cell_V G (ByCoords c) = Err AssertionError /\
  get_cell_center G (ByCoords c) = Err AssertionError.
Proof.
  intros x y z dx dy dz G c E I H N Z. apply geo_new_built in E.
  pose proof (b_wf _ _ _ _ _ _ _ _ E) as W. destruct (lens _ _ _ _ _ _ _ _ E) as (L1 & L2 & cs & E3 & L3).
  assert (U : unify (gr G) = false) by now rewrite (b_gr _ _ _ _ _ _ _ _ E).
  split; [|split].
  - intros a Ha. destruct (L1 a Ha). split; apply cases_zero; auto.
  - apply cases_zero; auto.
  - unfold get_cell_center. rewrite E3. cbn [rbind]. apply cases_zero; auto.
Qed.
Lemma L_C12_lookup_by_coords_refuted :
  exists x y z u (dx dy dz : dinput R) G c v,
  geo_new x y z u dx dy dz = Ok G /\ in_grid (gr G) c /\
  get_cell_d G AX (ById (natural_id (gr G) c)) = Ok v /\
  get_cell_d G AX (ByCoords c) = Err AssertionError.
Proof.
  exists 2, 1, 1, false, (Scalar 1%R), (Scalar 2%R), (Scalar 3%R).
  destruct (geo_new_ok 2 1 1 false (Scalar 1%R) (Scalar 2%R) (Scalar 3%R)) as (G & E); try exact I; try lia.
  exists G, (0, 0, 0)%Z, 1%R.
  pose proof E as E'. apply geo_new_built in E'. pose proof (b_gr _ _ _ _ _ _ _ _ E') as Eg.
  assert (I : in_grid (gr G) (0, 0, 0)%Z).
  { rewrite Eg. intros a Ha. destruct a; try congruence; unfold padded; simpl; lia. }
  split; [|split; [|split]]; auto.
  - unfold get_cell_d. rewrite (cd_canon G 2 1 1 false (Scalar 1%R) (Scalar 2%R) (Scalar 3%R)) by (auto; congruence).
    rewrite (at_id G 2 1 1 false (Scalar 1%R) (Scalar 2%R) (Scalar 3%R)); auto.
  - refine (proj1 (proj1 (L_C12_zero_coordinate_rejected _ _ _ _ _ _ _ _ E I _ _ _) AX _)); try congruence.
    + left. rewrite Eg. unfold flows; simpl; lia.
    + rewrite Eg. intros (_ & H & _). unfold flows in H; simpl in H; lia.
    + exists AX. rewrite Eg. unfold flows; simpl; split; auto; lia.
Qed.
Example ex_C12_zero_case :
  exists G, geo_new 2 1 1 false (Scalar 1%R) (Scalar 2%R) (Scalar 3%R) = Ok G /\
    in_grid (gr G) (0, 0, 0)%Z /\ has_flow (gr G) /\ ~ three_d (gr G) /\ flows (gr G) AX.
Proof.
  destruct (geo_new_ok 2 1 1 false (Scalar 1%R) (Scalar 2%R) (Scalar 3%R)) as (G & E); try exact I; try lia.
  exists G. split; auto. apply geo_new_built in E. rewrite (b_gr _ _ _ _ _ _ _ _ E).
  split; [|split; [|split]].
  - intros a Ha. destruct a; try congruence; unfold padded; simpl; lia.
  - left. unfold flows. simpl. lia.
  - intros (_ & H & _). unfold flows in H; simpl in H; lia.
  - unfold flows. simpl. lia.
Qed.

Lemma rmapM_Forall2 {A B} (f : A -> res B) (l : list A) (m : list B) :
  rmapM f l = Ok m -> Forall2 (fun a b => f a = Ok b) l m.
Proof.
  revert m. induction l as [|a l IH]; intros m E; simpl in E.
  - inversion E. constructor.
  - destruct (f a) eqn:Ea; [|discriminate]. cbn [rbind] in E. destruct (rmapM f l) eqn:El; [|discriminate].
    inversion E; subst. constructor; auto.
Qed.
Lemma pyget_all {A} (l : list A) : Forall2 (fun a b => pyget l a = Ok b) (arange (length l)) l.
Proof.
  unfold arange. destruct l as [|d l]; [constructor|]. set (m := d :: l).
  assert (K : forall s, (forall n, In n s -> n < length m) ->
    Forall2 (fun a b => pyget m a = Ok b) (map Z.of_nat s) (map (fun i => nth i m d) s)).
  { induction s; intros H; cbn [map]; constructor.
    - apply pyget_nth. apply H. now left.
    - apply IHs. intros; apply H; now right. }
  specialize (K (seq 0 (length m))). rewrite (map_nth_seq m d) in K. apply K.
  intros n Hn. apply in_seq in Hn. lia.
Qed.
Lemma lists_ids {A} g (l : list A) b : wf g -> length l = get_n g true ->
  exists ids vs, get_cells_id g b = Ok ids /\
    (if b then Ok l else at_cells_id g l) = Ok vs /\
    Forall2 (fun id v => cell_lookup g l (ById id) = Ok v) ids vs.
Proof.
  intros W L. destruct b.
  - rewrite cells_id_true, <- L. do 2 eexists. split; [reflexivity|]. split; [reflexivity|]. apply pyget_all.
  - assert (exists d : A, True) as (d & _).
    { destruct l as [|d l]; eauto. rewrite get_n_true in L by auto. simpl in L. destruct W as (?&?&?).
      pose proof (pad_pos _ H). pose proof (pad_pos _ H0). pose proof (pad_pos _ H1).
      destruct (pad (nx g)), (pad (ny g)), (pad (nz g)); simpl in *; lia. }
    pose proof (at_cells_id_nth g l d W L) as E. rewrite (cells_id_false g W).
    do 2 eexists. split; [reflexivity|]. split; [exact E|].
    unfold at_cells_id in E. rewrite (cells_id_false g W) in E. cbn [rbind] in E.
    apply rmapM_Forall2 in E. exact E.
Qed.

(** C12: the whole-grid arrays list the per-cell values in the order of
    get_cells_id, with and without boundary. *)
Lemma L_C12_arrays_follow_ids :
  forall x y z u (dx dy dz : dinput R) G b,
  geo_new x y z u dx dy dz = Ok G ->
  exists ids, get_cells_id (gr G) b = Ok ids /\
  (forall a, a <> ADash ->
     (exists vs, get_cells_d G a b = Ok vs /\ Forall2 (fun id v => get_cell_d G a (ById id) = Ok v) ids vs) /\
     (exists vs, get_cells_A G a b = Ok vs /\ Forall2 (fun id v => get_cell_A G a (ById id) = Ok v) ids vs)) /\
  (exists vs, get_cells_V G b = Ok vs /\ Forall2 (fun id v => get_cell_V G (ById id) = Ok v) ids vs) /\
  (exists vs, get_cells_center G b = Ok vs /\ Forall2 (fun id v => get_cell_center G (ById id) = Ok v) ids vs).
Proof.
  intros x y z u dx dy dz G b E. apply geo_new_built in E.
  pose proof (b_wf _ _ _ _ _ _ _ _ E) as W. destruct (lens _ _ _ _ _ _ _ _ E) as (L1 & L2 & cs & E3 & L3).
  destruct (lists_ids _ _ b W L2) as (ids & vs & Ei & Ev & Fv).
  exists ids. split; auto. split; [|split].
  - intros a Ha. destruct (L1 a Ha) as (La & LA). split.
    + destruct (lists_ids _ _ b W La) as (ids' & vs' & Ei' & Ev' & Fv'). exists vs'.
      assert (ids' = ids) by congruence. subst. split; auto.
    + destruct (lists_ids _ _ b W LA) as (ids' & vs' & Ei' & Ev' & Fv'). exists vs'.
      assert (ids' = ids) by congruence. subst. split; auto.
  - exists vs. split; auto.
  - destruct (lists_ids _ _ b W L3) as (ids' & vs' & Ei' & Ev' & Fv'). exists vs'.
    assert (ids' = ids) by congruence. subst. split.
    + revert E3. unfold get_cells_center. cbn. intros E3. inversion E3 as [E4]. destruct b; auto.
      * congruence.
      * rewrite E4. auto.
    + unfold get_cell_center. rewrite E3. cbn [rbind]. exact Fv'.
Qed.

(** C13: which spacing arguments are accepted, and the spacing of every cell. *)
Lemma L_C13_spacing :
  forall x y z u (dx dy dz : dinput R),
  let ok := (1 <= x /\ 1 <= y /\ 1 <= z) /\
            spacing_ok x dx /\ spacing_ok y dy /\ spacing_ok z dz in
  (ok -> exists G, geo_new x y z u dx dy dz = Ok G) /\
  (~ ok -> geo_new x y z u dx dy dz = Err AssertionError \/ geo_new x y z u dx dy dz = Err ValueError) /\
  forall G, geo_new x y z u dx dy dz = Ok G -> gr G = mkGrid x y z u /\
  forall a c, a <> ADash -> in_grid (gr G) c ->
  exists v, spacing (arg dx dy dz a) (at_axis a c) = Some v /\
    get_cell_d G a (ById (natural_id (gr G) c)) = Ok v.
Proof.
  intros x y z u dx dy dz ok. split; [|split].
  - intros ((?&?&?)&?&?&?). now apply geo_new_ok.
  - intros N. unfold geo_new, grid_new.
    destruct (Nat.leb_spec 1 x); cbn [passert rbind]; auto.
    destruct (Nat.leb_spec 1 y); cbn [passert rbind]; auto.
    destruct (Nat.leb_spec 1 z); cbn [passert rbind]; auto.
    apply calc_cells_d_bad; [repeat split; auto|]. cbn [nx ny nz]. unfold ok in N. tauto.
  - intros G E. apply geo_new_built in E. split. apply (b_gr _ _ _ _ _ _ _ _ E).
    intros a c Ha I. unfold get_cell_d. rewrite (cd_canon G x y z u dx dy dz) by auto.
    rewrite (at_id G x y z u dx dy dz) by auto.
    pose proof (I a Ha) as R. destruct E as [Bg Bw Bx By Bz _ _ _ _ _ _ _ _ _]. rewrite Bg in R.
    destruct a; try congruence; eexists; (split; [|reflexivity]); unfold arg, pos;
      eapply sp_spacing; eauto.
Qed.
Example ex_C13_case :
  (exists G, geo_new 2 1 1 true (Vec [1; 2; 3; 4]%R) (Vec [5]%R) (Scalar 7%R) = Ok G) /\
  ~ spacing_ok 2 (Vec [1; 2; 3]%R) /\ ~ spacing_ok 1 (Vec [1; 2]%R).
Proof.
  split; [|split].
  - apply geo_new_ok; simpl; auto; try lia.
  - unfold spacing_ok, padded. simpl. lia.
  - unfold spacing_ok, padded. simpl. lia.
Qed.

(** C14: areas, volumes and total volumes. *)
Lemma L_C14_areas_volumes :
  forall x y z u (dx dy dz : dinput R) G,
  geo_new x y z u dx dy dz = Ok G ->
  (forall c, in_grid (gr G) c ->
     let id := ById (natural_id (gr G) c) in
     exists a b d Ax Ay Az V,
     get_cell_d G AX id = Ok a /\ get_cell_d G AY id = Ok b /\ get_cell_d G AZ id = Ok d /\
     get_cell_A G AX id = Ok Ax /\ get_cell_A G AY id = Ok Ay /\ get_cell_A G AZ id = Ok Az /\
     get_cell_V G id = Ok V /\
     (Ax = b * d /\ Ay = a * d /\ Az = a * b /\ V = Ax * a /\ V = Ay * b /\ V = Az * d)%R) /\
  (forall b, get_Vt G b = Ok
     (rsum (rspacing dx) (first_cell x b) (count x b) * rsum (rspacing dy) (first_cell y b) (count y b)
      * rsum (rspacing dz) (first_cell z b) (count z b))%R) /\
  (forall b, exists vs, get_cells_V G b = Ok vs /\ get_Vt G b = Ok (nsum vs)).
Proof.
  intros x y z u dx dy dz G E. apply geo_new_built in E. pose proof (b_wf _ _ _ _ _ _ _ _ E) as W.
  assert (LV : length (cV G) = get_n (gr G) true) by (destruct (lens _ _ _ _ _ _ _ _ E) as (_ & L & _); auto).
  split; [|split].
  - intros c I id. unfold get_cell_d, get_cell_A, get_cell_V, id.
    rewrite !(cd_canon G x y z u dx dy dz), !(cA_canon G x y z u dx dy dz), (cV_canon G x y z u dx dy dz) by (auto; congruence).
    rewrite !(at_id G x y z u dx dy dz) by auto. do 7 eexists. do 7 (split; [reflexivity|]).
    change (@nmul R Num_R) with Rmult. repeat split; ring.
  - assert (Pc : forall n, count n true = pad n) by (intros; unfold count; rewrite <- pad_padded; lia).
    intros b. destruct b.
    + cbn [get_Vt]. unfold Vt. rewrite (cV_canon G x y z u dx dy dz) by auto. f_equal.
      unfold per_cell. rewrite tab3_flat. cbn [nth]. rewrite !Pc, (b_gr _ _ _ _ _ _ _ _ E). cbn [nx ny nz first_cell].
      change (@nmul R Num_R) with Rmult.
      rewrite (sum_product (sp dx) (sp dy) (sp dz)). reflexivity.
    + cbn [get_Vt]. rewrite (remove_both_nth _ _ 0%R) by auto. cbn [rmap]. f_equal.
      rewrite (cV_canon G x y z u dx dy dz) by auto. unfold interior_ids.
      destruct W as (Hx & Hy & Hz).
      rewrite per_cell_box by (apply keepsel_lt; auto).
      rewrite !midsel_seq by auto. rewrite (b_gr _ _ _ _ _ _ _ _ E). cbn [nx ny nz first_cell count].
      change (@nmul R Num_R) with Rmult.
      rewrite (sum_product (sp dx) (sp dy) (sp dz)). reflexivity.
  - intros b. destruct b; cbn [get_Vt get_cells_V].
    + eexists. split; reflexivity.
    + rewrite (remove_both_nth _ _ 0%R), (at_cells_id_nth _ _ 0%R) by auto. eexists. split; reflexivity.
Qed.
Example ex_C14_case :
  exists G, geo_new 2 1 1 true (Vec [1; 2; 3; 4]%R) (Vec [5]%R) (Scalar 7%R) = Ok G /\
    get_Vt G false = Ok 175%R.
Proof.
  destruct (geo_new_ok 2 1 1 true (Vec [1; 2; 3; 4]%R) (Vec [5]%R) (Scalar 7%R)) as (G & E); try (simpl; auto; lia).
  exists G. split; auto. destruct (L_C14_areas_volumes _ _ _ _ _ _ _ _ E) as (_ & H & _).
  rewrite H. f_equal. simpl. lra.
Qed.

(** C15: centres. *)
Lemma L_C15_centers :
  forall x y z u (dx dy dz : dinput R) G,
  geo_new x y z u dx dy dz = Ok G ->
  (forall c, in_grid (gr G) c ->
   exists p, get_cell_center G (ById (natural_id (gr G) c)) = Ok p /\
   forall a, a <> ADash ->
     let d := arg dx dy dz a in
     coord_of a p = ((left_face d (pos a c) + left_face d (S (pos a c))) / 2)%R /\
     coord_of a p = (left_face d (pos a c) + rspacing d (pos a c) / 2)%R) /\
  (forall c c' a p p', in_grid (gr G) c -> in_grid (gr G) c' -> step a c c' ->
   get_cell_center G (ById (natural_id (gr G) c)) = Ok p ->
   get_cell_center G (ById (natural_id (gr G) c')) = Ok p' ->
   let d := arg dx dy dz a in
   (coord_of a p' - coord_of a p = (rspacing d (pos a c) + rspacing d (pos a c')) / 2)%R /\
   forall b, b <> a -> b <> ADash -> coord_of b p' = coord_of b p).
Proof.
  intros x y z u dx dy dz G E. apply geo_new_built in E. pose proof (b_wf _ _ _ _ _ _ _ _ E) as W.
  assert (A : forall c, in_grid (gr G) c ->
   exists p, get_cell_center G (ById (natural_id (gr G) c)) = Ok p /\
   forall a, a <> ADash ->
     coord_of a p = (left_face (arg dx dy dz a) (pos a c) + rspacing (arg dx dy dz a) (pos a c) / 2)%R).
  { intros c I. unfold get_cell_center. rewrite (centers_canon G x y z u dx dy dz) by auto. cbn [rbind].
    rewrite (at_id G x y z u dx dy dz) by auto. eexists. split; [reflexivity|].
    intros a Ha. destruct a; try congruence; reflexivity. }
  assert (LS : forall d i, left_face d (S i) = (left_face d i + rspacing d i)%R).
  { intros. unfold left_face. rewrite rsum_last. reflexivity. }
  split.
  - intros c I. destruct (A c I) as (p & Ep & H). exists p. split; auto. intros a Ha d.
    rewrite (H a Ha). split; auto. rewrite LS. fold d. lra.
  - intros c c' a p p' I I' (Ha & S1 & S2) Ep Ep' d.
    destruct (A c I) as (q & Eq & H). destruct (A c' I') as (q' & Eq' & H').
    assert (q = p) by congruence. assert (q' = p') by congruence. subst.
    assert (P : pos a c' = S (pos a c)).
    { unfold pos. rewrite S1. pose proof (I a Ha). lia. }
    split.
    + rewrite (H a Ha), (H' a Ha), P. rewrite LS. fold d. lra.
    + intros b Hb Hd. rewrite (H b Hd), (H' b Hd). unfold pos. now rewrite (S2 b Hb).
Qed.
Example ex_C15_case :
  exists G, geo_new 2 2 1 false (Vec [1; 2; 3; 4]%R) (Scalar 5%R) (Scalar 7%R) = Ok G /\
    in_grid (gr G) (1, 2, 0)%Z /\ in_grid (gr G) (2, 2, 0)%Z /\ step AX (1, 2, 0)%Z (2, 2, 0)%Z.
Proof.
  destruct (geo_new_ok 2 2 1 false (Vec [1; 2; 3; 4]%R) (Scalar 5%R) (Scalar 7%R)) as (G & E); try (simpl; auto; lia).
  exists G. split; auto. apply geo_new_built in E. rewrite (b_gr _ _ _ _ _ _ _ _ E). split; [|split].
  - intros a Ha. destruct a; try congruence; unfold padded; simpl; lia.
  - intros a Ha. destruct a; try congruence; unfold padded; simpl; lia.
  - split; [congruence|]. split; [reflexivity|]. intros b Hb. destruct b; auto. congruence.
Qed.

(** C16: corner points.  The points form a (2 Nx) x (2 Ny) x (2 Nz) array, x
    fastest; the corners of cell (i,j,k) are at (2i+p, 2j+q, 2k+r), p,q,r in {0,1},
    and lie on the faces of that cell. *)
Lemma L_C16_corners :
  forall x y z u (dx dy dz : dinput R) G b,
  geo_new x y z u dx dy dz = Ok G ->
  length (get_corners G b) = 8 * (count x b * count y b * count z b) /\
  forall i j k p q r, i < count x b -> j < count y b -> k < count z b ->
  p <= 1 -> q <= 1 -> r <= 1 ->
  let at_ i j k := i + 2 * count x b * (j + 2 * count y b * k) in
  nth_error (get_corners G b) (at_ (2 * i + p) (2 * j + q) (2 * k + r)) =
  Some (left_face dx (first_cell x b + i + p), left_face dy (first_cell y b + j + q),
        left_face dz (first_cell z b + k + r)).
Proof.
  intros x y z u dx dy dz G b E. apply geo_new_built in E.
  rewrite (corners_canon G x y z u dx dy dz) by auto. split.
  - rewrite tab_length. cbn [prodn fold_right]. lia.
  - intros i j k p q r Hi Hj Hk Hp Hq Hr at_.
    replace (at_ (2 * i + p) (2 * j + q) (2 * k + r))
      with (ravel [2 * count z b; 2 * count y b; 2 * count x b] [2 * k + r; 2 * j + q; 2 * i + p])
      by (unfold at_; cbn [ravel prodn fold_right]; ring).
    rewrite nth_error_tab by (apply mk_inb3; lia). cbn [nth].
    assert (D : forall i p, p <= 1 -> S (2 * i + p) / 2 = i + p).
    { intros i0 p0 H0. replace (S (2 * i0 + p0)) with (S p0 + i0 * 2) by lia. rewrite Nat.div_add by lia.
      destruct p0 as [|[|]]; simpl; lia. }
    rewrite !D by auto. now rewrite !Nat.add_assoc.
Qed.
Example ex_C16_case :
  exists G, geo_new 2 1 1 false (Vec [1; 2; 3; 4]%R) (Scalar 5%R) (Scalar 7%R) = Ok G /\
    nth_error (get_corners G false) 1 = Some (3, 0, 0)%R.
Proof.
  destruct (geo_new_ok 2 1 1 false (Vec [1; 2; 3; 4]%R) (Scalar 5%R) (Scalar 7%R)) as (G & E); try (simpl; auto; lia).
  exists G. split; auto.
  destruct (L_C16_corners _ _ _ _ _ _ _ _ false E) as (_ & H).
  specialize (H 0 0 0 1 0 0). cbn [count] in H. cbn [Nat.mul Nat.add] in H. rewrite H; auto; try lia.
  unfold left_face, first_cell, first_inner. simpl. repeat f_equal; lra.
Qed.
