(** Property lemmas about output formats and layouts (C119, C120). *)
From Coq Require Import String ZArith QArith Bool Arith List Lia Reals.
From Verif Require Import Prelude PreludeFacts Num GridModel GridSpec GridProofs GridNeighbors GeoModel
  PropModel PropProofs SampleFacts  FormatModel FormatSpec FormatFacts.
Import ListNotations.
Local Open Scope nat_scope.

(** ** Helpers *)
Lemma rmapM_len {A B} (f : A -> res B) l m : rmapM f l = Ok m -> length m = length l.
Proof.
  revert m. induction l; simpl; intros m E; [injection E as <-; auto|].
  destruct (f a); [|discriminate]. simpl in E. destruct (rmapM f l); [|discriminate].
  injection E as <-. simpl. auto.
Qed.
Lemma order_flat g b l : wf g -> get_cells_id g b = Ok l ->
  get_order_f g b false = Ok ([length l], l) /\ length l = get_n g b.
Proof.
  intros H E. destruct b.
  - rewrite cells_id_true in E. injection E as <-. unfold get_order_f. cbn [rbind].
    rewrite arange_length. auto.
  - unfold get_cells_id, get_order in E. set (d := arange (get_n g true)) in *.
    assert (Ld : length d = get_n g true) by apply arange_length.
    destruct (fshape_cases g true H) as (s & F & Pn & _).
    destruct (remove_scalars g d l "both" (Some false) ([length d], d) H E (or_intror eq_refl)
      (or_introl eq_refl)) as (a' & R & Sa & _ & Fa & _).
    destruct (remove_scalars g d l "both" None (s, d) H E (or_introl eq_refl)
      (or_intror (ex_intro _ s (conj F eq_refl)))) as (a2 & _ & S2 & So2 & _ & F2).
    specialize (Fa eq_refl). destruct (F2 F) as [_ F3]. specialize (F3 eq_refl).
    split.
    + unfold get_order_f. cbv zeta. fold d. rewrite R. cbn [rbind]. destruct a' as [x y].
      cbn [fst snd] in *. congruence.
    + destruct (fshape_cases g false H) as (s' & F' & P' & _). rewrite F3 in F'.
      injection F' as <-. rewrite <- P', <- S2. exact So2.
Qed.
Lemma order_shaped g b l s : wf g -> get_cells_id g b = Ok l -> get_fshape g b = Ok s ->
  get_order_f g b true = Ok (s, l).
Proof.
  intros H E F. destruct (order_flat g b l H E) as [O L]. unfold get_order_f in *. cbv zeta in *.
  destruct (if b then _ else _) as [a|]; [|discriminate]. cbn [rbind] in *. injection O as ->.
  unfold get_fshape_p. rewrite F. cbn [rmap rbind]. apply np_reshape_ok.
  destruct (fshape_cases g b H) as (s' & F' & P' & _). rewrite F in F'. injection F' as <-.
  congruence.
Qed.
Lemma ids_exist g b : wf g -> exists l, get_cells_id g b = Ok l.
Proof.
  intros H. destruct b; [rewrite cells_id_true|rewrite cells_id_false by auto]; eauto.
Qed.
Lemma coords_inv g b cs : get_cells_coords g b = Ok cs ->
  exists l, get_cells_id g b = Ok l /\ rmapM (fun id => get_cell_coords g id true) l = Ok cs.
Proof.
  unfold get_cells_coords. destruct (get_cells_id g b); [|discriminate]. cbn [rbind]. eauto.
Qed.
Lemma coords_flat g b cs fmt : wf g -> get_cells_coords g b = Ok cs ->
  get_cells_coords_f g b false fmt = reformat Z.eqb (VArr ([length cs; 3], flat3 cs)) fmt /\
  length cs = get_n g b.
Proof.
  intros H E. destruct (coords_inv _ _ _ E) as (l & El & Ec).
  destruct (order_flat g b l H El) as [O L]. unfold get_cells_coords_f. rewrite O. cbn [rbind snd].
  rewrite Ec. cbn [rbind]. rewrite (rmapM_len _ _ _ Ec), L. auto.
Qed.
Lemma coords_shaped g b cs fmt s : wf g -> get_cells_coords g b = Ok cs -> get_fshape g b = Ok s ->
  get_cells_coords_f g b true fmt = Ok (VArr (s ++ [3], flat3 cs)).
Proof.
  intros H E F. destruct (coords_inv _ _ _ E) as (l & El & Ec).
  destruct (order_flat g b l H El) as [O L]. unfold get_cells_coords_f. rewrite O. cbn [rbind snd].
  rewrite Ec. cbn [rbind]. unfold get_fshape_p. rewrite F. cbn [rmap rbind].
  rewrite np_reshape_ok; [reflexivity|]. rewrite flat3_length, prodn_snoc.
  pose proof (rmapM_len _ _ _ Ec) as Lc. unfold coord in *. rewrite Lc, L.
  destruct (fshape_cases g b H) as (s' & F' & P' & _). rewrite F in F'. injection F' as <-. lia.
Qed.
Lemma reqb_ok x y : Reqb x y = true <-> x = y.
Proof. apply PropProofs.Reqb_true. Qed.

(** C119: ids, running numbers and coordinates of the cells: the same elements
    in every format. *)
Lemma L_C119_cells :
  forall g b fmt, wf g ->
  shows fmt (map scal (get_cells_i g b)) (get_cells_i_f g b false fmt) /\
  (exists l, get_cells_id g b = Ok l /\ shows fmt (map scal l) (get_cells_id_f g b false fmt)) /\
  (exists cs, get_cells_coords g b = Ok cs /\
     shows fmt (map tri cs) (get_cells_coords_f g b false fmt)).
Proof.
  intros g b fmt H. split; [|split].
  - apply reformat_flat, zeqb_ok.
  - destruct (ids_exist g b H) as [l E]. exists l. split; auto.
    unfold get_cells_id_f. rewrite (proj1 (order_flat g b l H E)). apply reformat_flat, zeqb_ok.
  - destruct (cells_coords_mem g b H) as (cs & E & _). exists cs. split; auto.
    rewrite (proj1 (coords_flat g b cs fmt H E)). apply reformat_points, zeqb_ok.
Qed.

(** C119: the boundary cells by id and by coordinates; any other 'by' is
    refused. *)
Lemma L_C119_boundaries :
  forall g fmt, wf g ->
  (exists l, get_boundaries_id g = Ok l /\ shows fmt (map scal l) (get_boundaries_f g "id" fmt)) /\
  (exists cs, get_boundaries_coords g = Ok cs /\
     shows fmt (map tri cs) (get_boundaries_f g "coords" fmt)) /\
  (forall by_, by_ <> "id"%string -> by_ <> "coords"%string ->
     get_boundaries_f g by_ fmt = Err ValueError).
Proof.
  intros g fmt H. destruct (fshape_cases g true H) as (s & F & Pn & _). split; [|split].
  - destruct (ids_exist g true H) as [d E]. destruct (order_flat g true d H E) as [_ L].
    assert (X : get_boundaries_id g = Ok (zsort (layers g d))).
    { unfold get_boundaries_id. rewrite E. cbn [rbind]. unfold extract_boundaries_z.
      now rewrite extract_canon by auto. }
    eexists. split; [exact X|]. unfold get_boundaries_f. cbn -[get_cells_id_f extract_boundaries_f].
    unfold get_cells_id_f. rewrite (order_shaped g true d s H E F). cbn [rbind].
    eapply extract_scalars; eauto.
    + unfold get_boundaries_id in X. rewrite E in X. exact X.
    + now right.
    + right. eauto.
  - destruct (cells_coords_mem g true H) as (d & E & _). destruct (coords_flat g true d fmt H E) as [_ L].
    assert (X : get_boundaries_coords g = Ok (layers g d)).
    { unfold get_boundaries_coords. rewrite E. cbn [rbind]. unfold extract_boundaries_pts.
      now rewrite extract_canon by auto. }
    eexists. split; [exact X|]. unfold get_boundaries_f. cbn -[get_cells_coords_f extract_boundaries_f].
    rewrite (coords_shaped g true d _ s H E F). cbn [rbind].
    eapply extract_points; eauto.
    + unfold get_boundaries_coords in X. rewrite E in X. exact X.
    + now right.
    + right. eauto.
  - intros by_ N1 N2. unfold get_boundaries_f.
    apply String.eqb_neq in N1, N2. now rewrite N1, N2.
Qed.

(** C119: neighbours and boundaries of a cell, by direction or in any of the
    other formats; a refused cell is refused in every format. *)
Lemma L_C119_neighbors :
  forall g b fmt,
  (forall id co d, get_cell_neighbors g id b = Ok d ->
     shows_dirs fmt (dirs_map scal d) (get_cell_neighbors_f g (Some id) co b fmt)) /\
  (forall id co e, get_cell_neighbors g id b = Err e ->
     get_cell_neighbors_f g (Some id) co b fmt = Err e) /\
  (forall c d, get_cell_neighbors_c g c b = Ok d ->
     shows_dirs fmt (dirs_map tri d) (get_cell_neighbors_f g None (Some c) b fmt)) /\
  (forall c e, get_cell_neighbors_c g c b = Err e ->
     get_cell_neighbors_f g None (Some c) b fmt = Err e) /\
  get_cell_neighbors_f g None None b fmt = Err ValueError.
Proof.
  intros g b fmt. repeat match goal with |- _ /\ _ => split end; intros;
    unfold get_cell_neighbors_f; try (rewrite H; cbn [rmap rbind]); try reflexivity;
    apply reformat_dirs; intros _; rewrite dirs_map_list.
  - exact (reformat_scals Z.eqb zeqb_ok false (dirs_list d) fmt).
  - exact (reformat_tris Z.eqb zeqb_ok false (dirs_list d) fmt).
Qed.
Lemma L_C119_cell_boundaries :
  forall g fmt,
  (forall id co d, get_cell_boundaries g id = Ok d ->
     shows_dirs fmt (dirs_map scal d) (get_cell_boundaries_f g (Some id) co fmt)) /\
  (forall id co e, get_cell_boundaries g id = Err e ->
     get_cell_boundaries_f g (Some id) co fmt = Err e) /\
  (forall c d, get_cell_boundaries_c g c = Ok d ->
     shows_dirs fmt (dirs_map tri d) (get_cell_boundaries_f g None (Some c) fmt)) /\
  (forall c e, get_cell_boundaries_c g c = Err e ->
     get_cell_boundaries_f g None (Some c) fmt = Err e) /\
  get_cell_boundaries_f g None None fmt = Err ValueError.
Proof.
  intros g fmt. repeat match goal with |- _ /\ _ => split end; intros;
    unfold get_cell_boundaries_f; try (rewrite H; cbn [rmap rbind]); try reflexivity;
    apply reformat_dirs; intros _; rewrite dirs_map_list.
  - exact (reformat_scals Z.eqb zeqb_ok false (dirs_list d) fmt).
  - exact (reformat_tris Z.eqb zeqb_ok false (dirs_list d) fmt).
Qed.

(** C119: with fshape=True the three methods give an array of the shape of the
    grid with the same values, whatever the format argument is. *)
Lemma L_C119_shaped :
  forall g b, wf g ->
  exists s ids cs, get_fshape g b = Ok s /\ prodn s = get_n g b /\
    get_cells_id g b = Ok ids /\ get_cells_coords g b = Ok cs /\
    forall fmt,
      get_cells_i_f g b true fmt = Ok (VArr (s, get_cells_i g b)) /\
      get_cells_id_f g b true fmt = Ok (VArr (s, ids)) /\
      get_cells_coords_f g b true fmt = Ok (VArr (s ++ [3], flat3 cs)).
Proof.
  intros g b H. destruct (fshape_cases g b H) as (s & F & Pn & _).
  destruct (ids_exist g b H) as [l E]. destruct (cells_coords_mem g b H) as (cs & Ec & _).
  exists s, l, cs. repeat (split; [assumption|]). intros fmt. split; [|split].
  - unfold get_cells_i_f, get_fshape_p. rewrite F. cbn [rmap rbind].
    rewrite np_reshape_ok; [reflexivity|]. now rewrite arange_length.
  - unfold get_cells_id_f. now rewrite (order_shaped g b l s H E F).
  - exact (coords_shaped g b cs fmt s H Ec F).
Qed.

(** C119: properties of the cells, flat in every format, and as an array of the
    shape of the grid. *)
Lemma L_C119_prop :
  forall (o : gobj R) n b l, get_prop o n b = Ok l ->
  (forall fmt, shows fmt (map scal l) (get_prop_f o n b false fmt)) /\
  (wf (ggrid o) -> length l = get_n (ggrid o) b ->
     exists s, get_fshape (ggrid o) b = Ok s /\
       get_prop_f o n b true (Some "array"%string) = Ok (VArr (s, l))).
Proof.
  intros o n b l E. split.
  - intros fmt. unfold get_prop_f. rewrite E. cbn [rbind]. apply reformat_flat, reqb_ok.
  - intros H L. destruct (fshape_cases (ggrid o) b H) as (s & F & Pn & _). exists s. split; auto.
    unfold get_prop_f. rewrite E. cbn [rbind]. unfold get_fshape_p. rewrite F. cbn [rmap rbind].
    rewrite np_reshape_ok by congruence. reflexivity.
Qed.

(** C119: get_prop does not ignore the format with fshape=True, though it is
    documented to: a set of rows cannot be made, an unknown format is refused,
    and a list of three-column rows has tuples where the list of other rows
    has arrays. *)
Lemma L_C119_prop_shaped_refuted :
  exists (o : gobj Q) l,
  get_prop o PHI false = Ok l /\
  (exists s, get_prop_f o PHI false true (Some "array"%string) = Ok (VArr (s, l))) /\
  (exists rows, get_prop_f o PHI false true (Some "tuple"%string) = Ok (VTup rows)) /\
  get_prop_f o PHI true true (Some "set"%string) = Err TypeError /\
  get_prop_f o PHI true true (Some "flat"%string) = Err ValueError.
Proof.
  destruct (gobj_new 3 2 1 false (Scalar 1%Q) (Scalar 1%Q) (Scalar 1%Q) None None None
    (Some (Scalar (1#5)%Q)) None None 1%Q) as [o|] eqn:E; [|vm_compute in E; discriminate].
  exists o. vm_compute in E. injection E as <-.
  eexists. split; [vm_compute; reflexivity|]. split; [eexists; vm_compute; reflexivity|].
  split; [eexists; vm_compute; reflexivity|]. split; vm_compute; reflexivity.
Qed.

(** C119: get_cells_icoords without a format fails on every grid. *)
Lemma L_C119_icoords_default_refuted :
  forall g b, exists e, get_cells_icoords_f g b false None = Err e.
Proof.
  intros g b. unfold get_cells_icoords_f.
  destruct (get_cells_coords g b) as [cs|e]; [|eexists; reflexivity]. cbn [rbind].
  destruct (rmapM (get_cell_icoords g) cs) as [ics|e]; [|eexists; reflexivity]. cbn [rbind].
  unfold reformat. destruct (np_array (VTup (map (fun l : list Z => Tp (map Sc l)) ics))) as [a|e];
    eexists; reflexivity.
Qed.

(** C119: with a format, get_cells_icoords gives the coordinates in the order
    (k, j, i) if the grid is unified or three-dimensional; in the other grids
    with flow it fails for every format as soon as boundary cells are asked
    for. *)
Lemma L_C119_icoords_partial :
  forall g b, wf g -> unify g = true \/ get_D g = 3 ->
  exists cs s, get_cells_coords g b = Ok cs /\ get_fshape g b = Ok s /\
    forall fmt,
      shows fmt (map tri (map turned cs)) (get_cells_icoords_f g b false fmt) /\
      get_cells_icoords_f g b true fmt = Ok (VArr (s ++ [3], flat3 (map turned cs))).
Proof.
  intros g b H U. destruct (cells_coords_mem g b H) as (cs & E & Mc).
  destruct (cells_coords_mem g true H) as (ct & Et & Mt).
  destruct (fshape_cases g b H) as (s & F & Pn & _).
  exists cs, s. split; auto. split; auto. intros fmt.
  assert (In_t : forall c, In c cs -> In c ct).
  { intros c Hc. apply cmem_In in Hc. rewrite Mc in Hc. apply cmem_In. rewrite Mt.
    destruct b; auto. now apply gridb_of_interior. }
  assert (I : forall c, In c cs -> get_cell_icoords g c =
                Ok (match turned c with (k, j, i) => [k; j; i] end)).
  { intros [[i j] k] Hc. unfold get_cell_icoords. rewrite Et. cbn [rbind].
    replace (cmem (i, j, k) ct) with true by (symmetry; apply cmem_In; auto). cbn [passert rbind].
    replace (negb (unify g) && (get_D g <=? 2)) with false; [reflexivity|].
    destruct U as [->| ->]; [reflexivity|]. cbn. now rewrite andb_false_r. }
  assert (M : rmapM (get_cell_icoords g) cs =
              Ok (map (fun c => match turned c with (k, j, i) => [k; j; i] end) cs)).
  { clear -I. induction cs; auto. cbn [rmapM map]. rewrite I by (simpl; auto).
    cbn [rbind]. rewrite IHcs by (intros; apply I; simpl; auto). reflexivity. }
  unfold get_cells_icoords_f. rewrite E. cbn [rbind]. rewrite M. cbn [rbind]. cbv zeta.
  replace (map (fun l : list Z => Tp (map Sc l)) (map (fun c => match turned c with (k, j, i) => [k; j; i] end) cs))
    with (map (@tri Z) (map turned cs)).
  2:{ rewrite !map_map. apply map_ext. intros [[i j] k]. reflexivity. }
  split.
  - exact (reformat_tris Z.eqb zeqb_ok true (map turned cs) fmt).
  - unfold get_fshape_p. rewrite F. cbn [rmap rbind].
    assert (Lc : length cs = get_n g b) by exact (proj2 (coords_flat g b cs None H E)).
    assert (N : map turned cs <> []).
    { intros X. apply (f_equal (@length _)) in X. rewrite map_length in X. cbn in X.
      assert (P0 : 0 < get_n g b).
      { destruct H as (Hx & Hy & Hz). destruct b.
        - rewrite get_n_true by (repeat split; auto). apply pad_pos in Hx, Hy, Hz. nia.
        - unfold get_n. cbn. nia. }
      lia. }
    change (np_array (VTup (map tri (map turned cs)))) with
      (let* rows := rmapM item_arr (map tri (map turned cs)) in stack rows).
    pose proof (list_tri_arr (map turned cs) N) as X. unfold coord in *. rewrite X. cbn [rbind].
    rewrite np_reshape_ok; [reflexivity|].
    rewrite flat3_length, map_length, prodn_snoc, Pn. lia.
Qed.
Lemma L_C119_icoords_raises_refuted :
  forall g fshape fmt, wf g -> unify g = false -> 1 <= get_D g <= 2 ->
  get_cells_icoords_f g true fshape fmt = Err AssertionError.
Proof.
  intros g fs fmt H U D. unfold get_cells_icoords_f.
  destruct (cells_coords_mem g true H) as (cs & E & M). rewrite E. cbn [rbind].
  assert (X : exists cs', cs = (0, 0, 0)%Z :: cs').
  { destruct (coords_inv _ _ _ E) as (l & El & Ec). rewrite cells_id_true in El. injection El as <-.
    assert (P0 : 0 < get_n g true).
    { rewrite get_n_true by auto. destruct H as (Hx & Hy & Hz). apply pad_pos in Hx, Hy, Hz. nia. }
    destruct (get_n g true) as [|n] eqn:En; [lia|]. cbn [arange seq map rmapM Z.of_nat] in Ec.
    replace (get_cell_coords g 0 true) with (Ok (0, 0, 0)%Z) in Ec.
    - cbn [rbind] in Ec. destruct (rmapM _ (map Z.of_nat (seq 1 n))); [|discriminate].
      injection Ec as <-. eauto.
    - symmetry. unfold get_cell_coords. unfold get_n in En. rewrite get_shape_true in * by auto.
      cbn [prodn fold_right] in En. unfold pv_cell_coords.
      destruct H as (Hx & Hy & Hz). apply pad_pos in Hx, Hy, Hz.
      destruct (Z.ltb_spec 0 (Z.of_nat (pad (nx g)) * Z.of_nat (pad (ny g)) * Z.of_nat (pad (nz g)))%Z) as [|X];
        [|exfalso; nia].
      reflexivity. }
  destruct X as [cs' ->]. cbn [rmapM].
  replace (get_cell_icoords g (0, 0, 0)%Z) with (@Err (list Z) AssertionError); [reflexivity|].
  unfold get_cell_icoords. rewrite E. cbn [rbind].
  replace (cmem (0, 0, 0)%Z ((0, 0, 0)%Z :: cs')) with true by (symmetry; apply cmem_In; simpl; auto).
  cbn [passert rbind]. rewrite U. cbn [negb andb].
  destruct (Nat.leb_spec (get_D g) 2); [|lia]. cbn [filter Z.ltb Z.compare length].
  destruct (get_D g); [lia|]. reflexivity.
Qed.

Example ex_C119_case :
  let g := mkGrid 3 2 1 false in
  wf g /\
  get_cells_id_f g false false (Some "tuple"%string) = Ok (VTup (map scal [6; 7; 8; 11; 12; 13]%Z)) /\
  get_cell_neighbors_f g None (Some (1, 1, 0)%Z) false (Some "array"%string)
    = Ok (VArr ([2; 3], [2; 1; 0; 1; 2; 0]%Z)) /\
  get_cells_icoords_f (mkGrid 2 1 1 true) false true None
    = Ok (VArr ([1; 1; 2; 3], [0; 0; 1; 0; 0; 2]%Z)).
Proof.
  split; [repeat split; simpl; lia|]. split; [vm_compute; reflexivity|].
  split; vm_compute; reflexivity.
Qed.
Example ex_C119_icoords_fail :
  wf (mkGrid 3 2 1 false) /\ get_D (mkGrid 3 2 1 false) = 2 /\
  get_cells_icoords_f (mkGrid 3 2 1 false) true false (Some "list"%string) = Err AssertionError.
Proof. split; [repeat split; simpl; lia|]. split; vm_compute; reflexivity. Qed.

(** C120: remove_boundaries of an array of numbers, flat or in the shape of the
    grid, whether or not the caller says that they are no points: the values
    of the flat removal, in the layout of the argument. *)
Lemma L_C120_remove_scalars :
  forall A g (d d' : list A) remove points (a : arr A),
  wf g -> remove_boundaries g d remove = Ok d' -> says false points -> laid_out g d a ->
  exists a', remove_boundaries_arr g a points remove = Ok a' /\ snd a' = d' /\ sound a' /\
    (fst a = [length d] -> fst a' = [length d']) /\
    (get_fshape g true = Ok (fst a) -> length (fst a') = length (fst a) /\
       (remove = "both"%string -> get_fshape g false = Ok (fst a'))).
Proof. intros A. exact (@remove_scalars A). Qed.
(** C120: the same for points. *)
Lemma L_C120_remove_points :
  forall A g (d d' : list (A * A * A)) remove points (a : arr A),
  wf g -> remove_boundaries g d remove = Ok d' -> says true points -> laid_out3 g d a ->
  exists a', remove_boundaries_arr g a points remove = Ok a' /\ snd a' = flat3 d' /\ sound a' /\
    (fst a = [length d; 3] -> fst a' = [length d'; 3]) /\
    (get_fshape_p g true true = Ok (fst a) -> length (fst a') = length (fst a) /\
       (remove = "both"%string -> get_fshape_p g false true = Ok (fst a'))).
Proof. intros A. exact (@remove_points A). Qed.
(** C120: extract_boundaries in either layout. *)
Lemma L_C120_extract_scalars :
  forall g d d' points a fmt, wf g -> extract_boundaries_z g d = Ok d' ->
  says false points -> laid_out g d a ->
  shows fmt (map scal d') (extract_boundaries_f g a points fmt).
Proof. exact extract_scalars. Qed.
Lemma L_C120_extract_points :
  forall g (d d' : list coord) points a fmt, wf g -> extract_boundaries_pts g d = Ok d' ->
  says true points -> laid_out3 g d a ->
  shows fmt (map tri d') (extract_boundaries_f g a points fmt).
Proof. exact extract_points. Qed.
(** C120: an array with any other number of entries is refused. *)
Lemma L_C120_wrong_size :
  forall A g (a : arr A) (p : bool) remove, wf g ->
  length (snd a) <> get_n g true * (if p then 3 else 1) ->
  remove_boundaries_arr g a (Some p) remove = Err ValueError.
Proof. intros A g a p m H N. apply remove_bad; auto. Qed.
(** C120: a dictionary of arrays: every array is replaced, in the caller's own
    dictionary, by what the method gives for it with both sides removed. *)
Lemma L_C120_dict_partial :
  forall A g (d : list (string * arr A)) points remove,
  (forall k v, In (k, v) d -> exists v', remove_boundaries_arr g v None "both" = Ok v') ->
  exists d', remove_boundaries_dict g d points remove = (d', Ok tt) /\
    Forall2 (fun kv kv' => fst kv = fst kv' /\
               remove_boundaries_arr g (snd kv) None "both" = Ok (snd kv')) d d'.
Proof.
  intros A g d points m. induction d as [|[k v] d IH]; intros H.
  - exists (@nil (string * arr A)). split; [reflexivity|constructor].
  - destruct (H k v) as [v' E]; [simpl; auto|].
    destruct IH as (d' & Ed & Fd); [intros; eapply H; simpl; eauto|].
    exists ((k, v') :: d'). cbn [remove_boundaries_dict]. rewrite E, Ed. split; [reflexivity|].
    constructor; auto.
Qed.
(** C120: so the remove argument is lost for a dictionary. *)
Lemma L_C120_dict_refuted :
  exists g (v w : arr Z) d', wf g /\
  remove_boundaries_arr g v None "left" = Ok w /\
  remove_boundaries_dict g [("a"%string, v)] None "left" = (d', Ok tt) /\
  d' <> [("a"%string, w)] /\ d' <> [("a"%string, v)].
Proof.
  exists (mkGrid 2 1 1 false), ([4], [0; 1; 2; 3]%Z). eexists _, _.
  split; [repeat split; simpl; lia|]. split; [vm_compute; reflexivity|].
  split; [vm_compute; reflexivity|]. split; discriminate.
Qed.

Example ex_C120_case :
  let g := mkGrid 1 2 1 true in
  wf g /\ laid_out g [0; 1; 2; 3]%Z ([1; 4; 1], [0; 1; 2; 3]%Z) /\
  remove_boundaries_arr g ([1; 4; 1], [0; 1; 2; 3]%Z) None "both" = Ok ([1; 2; 1], [1; 2]%Z) /\
  remove_boundaries_arr g ([4], [0; 1; 2; 3]%Z) None "left" = Ok ([3], [1; 2; 3]%Z).
Proof.
  split; [repeat split; simpl; lia|]. split; [right; eexists; split; vm_compute; reflexivity|].
  split; vm_compute; reflexivity.
Qed.
Example ex_C120_points :
  let g := mkGrid 2 1 1 false in
  let d := [(0, 0, 0); (1, 0, 0); (2, 0, 0); (3, 0, 0)]%Z in
  laid_out3 g d ([4; 3], flat3 d) /\
  remove_boundaries_arr g ([4; 3], flat3 d) None "both" = Ok ([2; 3], [1; 0; 0; 2; 0; 0]%Z) /\
  extract_boundaries_f g ([4; 3], flat3 d) None (Some "list"%string)
    = Ok (VList (map tri [(0, 0, 0); (3, 0, 0)]%Z)).
Proof. split; [now left|]. split; vm_compute; reflexivity. Qed.
Example ex_C120_dict :
  exists v', remove_boundaries_arr (mkGrid 2 1 1 false) ([4], [0; 1; 2; 3]%Z) None "both" = Ok v'.
Proof. eexists; vm_compute; reflexivity. Qed.
