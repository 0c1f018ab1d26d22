(** Property theorems (each one a lemma proved in [FormatThm.v]), the assumptions they
    rest on, and for each a concrete case meeting its hypotheses. *)
From Coq Require Import String ZArith QArith Bool Arith List Lia Reals.
From Verif Require Import Prelude PreludeFacts Num GridModel GridSpec GridProofs GridNeighbors GeoModel
  PropModel PropProofs SampleFacts  FormatModel FormatSpec FormatFacts.
Import ListNotations.
Local Open Scope nat_scope.
From Verif Require Import FormatThm.
Local Open Scope nat_scope.

(** C119: ids, running numbers and coordinates of the cells: the same elements
    in every format. *)
Theorem C119_cells :
  forall g b fmt, wf g ->
  shows fmt (map scal (get_cells_i g b)) (get_cells_i_f g b false fmt) /\
  (exists l, get_cells_id g b = Ok l /\ shows fmt (map scal l) (get_cells_id_f g b false fmt)) /\
  (exists cs, get_cells_coords g b = Ok cs /\
     shows fmt (map tri cs) (get_cells_coords_f g b false fmt)).
Proof. exact L_C119_cells. Qed.
Print Assumptions C119_cells.

(** C119: the boundary cells by id and by coordinates; any other 'by' is
    refused. *)
Theorem C119_boundaries :
  forall g fmt, wf g ->
  (exists l, get_boundaries_id g = Ok l /\ shows fmt (map scal l) (get_boundaries_f g "id" fmt)) /\
  (exists cs, get_boundaries_coords g = Ok cs /\
     shows fmt (map tri cs) (get_boundaries_f g "coords" fmt)) /\
  (forall by_, by_ <> "id"%string -> by_ <> "coords"%string ->
     get_boundaries_f g by_ fmt = Err ValueError).
Proof. exact L_C119_boundaries. Qed.
Print Assumptions C119_boundaries.

(** C119: neighbours and boundaries of a cell, by direction or in any of the
    other formats; a refused cell is refused in every format. *)
Theorem C119_neighbors :
  forall g b fmt,
  (forall id co d, get_cell_neighbors g id b = Ok d ->
     shows_dirs fmt (dirs_map scal d) (get_cell_neighbors_f g (Some id) co b fmt)) /\
  (forall id co e, get_cell_neighbors g id b = Err e ->
     get_cell_neighbors_f g (Some id) co b fmt = Err e) /\
  (forall c d, get_cell_neighbors_c g c b = Ok d ->
     shows_dirs fmt (dirs_map tri d) (get_cell_neighbors_f g None (Some c) b fmt)) /\
  (forall c e, get_cell_neighbors_c g c b = Err e ->
     get_cell_neighbors_f g None (Some c) b fmt = Err e) /\
  get_cell_neighbors_f g None None b fmt = Err ValueError.
Proof. exact L_C119_neighbors. Qed.
Print Assumptions C119_neighbors.

Theorem C119_cell_boundaries :
  forall g fmt,
  (forall id co d, get_cell_boundaries g id = Ok d ->
     shows_dirs fmt (dirs_map scal d) (get_cell_boundaries_f g (Some id) co fmt)) /\
  (forall id co e, get_cell_boundaries g id = Err e ->
     get_cell_boundaries_f g (Some id) co fmt = Err e) /\
  (forall c d, get_cell_boundaries_c g c = Ok d ->
     shows_dirs fmt (dirs_map tri d) (get_cell_boundaries_f g None (Some c) fmt)) /\
  (forall c e, get_cell_boundaries_c g c = Err e ->
     get_cell_boundaries_f g None (Some c) fmt = Err e) /\
  get_cell_boundaries_f g None None fmt = Err ValueError.
Proof. exact L_C119_cell_boundaries. Qed.
Print Assumptions C119_cell_boundaries.

(** C119: with fshape=True the three methods give an array of the shape of the
    grid with the same values, whatever the format argument is. *)
Theorem C119_shaped :
  forall g b, wf g ->
  exists s ids cs, get_fshape g b = Ok s /\ prodn s = get_n g b /\
    get_cells_id g b = Ok ids /\ get_cells_coords g b = Ok cs /\
    forall fmt,
      get_cells_i_f g b true fmt = Ok (VArr (s, get_cells_i g b)) /\
      get_cells_id_f g b true fmt = Ok (VArr (s, ids)) /\
      get_cells_coords_f g b true fmt = Ok (VArr (s ++ [3], flat3 cs)).
Proof. exact L_C119_shaped. Qed.
Print Assumptions C119_shaped.

(** C119: properties of the cells, flat in every format, and as an array of the
    shape of the grid. *)
Theorem C119_prop :
  forall (o : gobj R) n b l, get_prop o n b = Ok l ->
  (forall fmt, shows fmt (map scal l) (get_prop_f o n b false fmt)) /\
  (wf (ggrid o) -> length l = get_n (ggrid o) b ->
     exists s, get_fshape (ggrid o) b = Ok s /\
       get_prop_f o n b true (Some "array"%string) = Ok (VArr (s, l))).
Proof. exact L_C119_prop. Qed.
Print Assumptions C119_prop.

(** C119: get_prop does not ignore the format with fshape=True, though it is
    documented to: a set of rows cannot be made, an unknown format is refused,
    and a list of three-column rows has tuples where the list of other rows
    has arrays. *)
Theorem C119_prop_shaped_refuted :
  exists (o : gobj Q) l,
  get_prop o PHI false = Ok l /\
  (exists s, get_prop_f o PHI false true (Some "array"%string) = Ok (VArr (s, l))) /\
  (exists rows, get_prop_f o PHI false true (Some "tuple"%string) = Ok (VTup rows)) /\
  get_prop_f o PHI true true (Some "set"%string) = Err TypeError /\
  get_prop_f o PHI true true (Some "flat"%string) = Err ValueError.
Proof. exact L_C119_prop_shaped_refuted. Qed.
Print Assumptions C119_prop_shaped_refuted.

(** C119: get_cells_icoords without a format fails on every grid. *)
Theorem C119_icoords_default_refuted :
  forall g b, exists e, get_cells_icoords_f g b false None = Err e.
Proof. exact L_C119_icoords_default_refuted. Qed.
Print Assumptions C119_icoords_default_refuted.

(** C119: with a format, get_cells_icoords gives the coordinates in the order
    (k, j, i) if the grid is unified or three-dimensional; in the other grids
    with flow it fails for every format as soon as boundary cells are asked
    for. *)
Theorem C119_icoords_partial :
  forall g b, wf g -> unify g = true \/ get_D g = 3 ->
  exists cs s, get_cells_coords g b = Ok cs /\ get_fshape g b = Ok s /\
    forall fmt,
      shows fmt (map tri (map turned cs)) (get_cells_icoords_f g b false fmt) /\
      get_cells_icoords_f g b true fmt = Ok (VArr (s ++ [3], flat3 (map turned cs))).
Proof. exact L_C119_icoords_partial. Qed.
Print Assumptions C119_icoords_partial.

Theorem C119_icoords_raises_refuted :
  forall g fshape fmt, wf g -> unify g = false -> 1 <= get_D g <= 2 ->
  get_cells_icoords_f g true fshape fmt = Err AssertionError.
Proof. exact L_C119_icoords_raises_refuted. Qed.
Print Assumptions C119_icoords_raises_refuted.

Example C119_case :
  let g := mkGrid 3 2 1 false in
  wf g /\
  get_cells_id_f g false false (Some "tuple"%string) = Ok (VTup (map scal [6; 7; 8; 11; 12; 13]%Z)) /\
  get_cell_neighbors_f g None (Some (1, 1, 0)%Z) false (Some "array"%string)
    = Ok (VArr ([2; 3], [2; 1; 0; 1; 2; 0]%Z)) /\
  get_cells_icoords_f (mkGrid 2 1 1 true) false true None
    = Ok (VArr ([1; 1; 2; 3], [0; 0; 1; 0; 0; 2]%Z)).
Proof. exact ex_C119_case. Qed.

Example C119_icoords_fail :
  wf (mkGrid 3 2 1 false) /\ get_D (mkGrid 3 2 1 false) = 2 /\
  get_cells_icoords_f (mkGrid 3 2 1 false) true false (Some "list"%string) = Err AssertionError.
Proof. exact ex_C119_icoords_fail. Qed.

(** C120: remove_boundaries of an array of numbers, flat or in the shape of the
    grid, whether or not the caller says that they are no points: the values
    of the flat removal, in the layout of the argument. *)
Theorem C120_remove_scalars :
  forall A g (d d' : list A) remove points (a : arr A),
  wf g -> remove_boundaries g d remove = Ok d' -> says false points -> laid_out g d a ->
  exists a', remove_boundaries_arr g a points remove = Ok a' /\ snd a' = d' /\ sound a' /\
    (fst a = [length d] -> fst a' = [length d']) /\
    (get_fshape g true = Ok (fst a) -> length (fst a') = length (fst a) /\
       (remove = "both"%string -> get_fshape g false = Ok (fst a'))).
Proof. exact L_C120_remove_scalars. Qed.
Print Assumptions C120_remove_scalars.

(** C120: the same for points. *)
Theorem C120_remove_points :
  forall A g (d d' : list (A * A * A)) remove points (a : arr A),
  wf g -> remove_boundaries g d remove = Ok d' -> says true points -> laid_out3 g d a ->
  exists a', remove_boundaries_arr g a points remove = Ok a' /\ snd a' = flat3 d' /\ sound a' /\
    (fst a = [length d; 3] -> fst a' = [length d'; 3]) /\
    (get_fshape_p g true true = Ok (fst a) -> length (fst a') = length (fst a) /\
       (remove = "both"%string -> get_fshape_p g false true = Ok (fst a'))).
Proof. exact L_C120_remove_points. Qed.
Print Assumptions C120_remove_points.

(** C120: extract_boundaries in either layout. *)
Theorem C120_extract_scalars :
  forall g d d' points a fmt, wf g -> extract_boundaries_z g d = Ok d' ->
  says false points -> laid_out g d a ->
  shows fmt (map scal d') (extract_boundaries_f g a points fmt).
Proof. exact L_C120_extract_scalars. Qed.
Print Assumptions C120_extract_scalars.

Theorem C120_extract_points :
  forall g (d d' : list coord) points a fmt, wf g -> extract_boundaries_pts g d = Ok d' ->
  says true points -> laid_out3 g d a ->
  shows fmt (map tri d') (extract_boundaries_f g a points fmt).
Proof. exact L_C120_extract_points. Qed.
Print Assumptions C120_extract_points.

(** C120: an array with any other number of entries is refused. *)
Theorem C120_wrong_size :
  forall A g (a : arr A) (p : bool) remove, wf g ->
  length (snd a) <> get_n g true * (if p then 3 else 1) ->
  remove_boundaries_arr g a (Some p) remove = Err ValueError.
Proof. exact L_C120_wrong_size. Qed.
Print Assumptions C120_wrong_size.

(** C120: a dictionary of arrays: every array is replaced, in the caller's own
    dictionary, by what the method gives for it with both sides removed. *)
Theorem C120_dict_partial :
  forall A g (d : list (string * arr A)) points remove,
  (forall k v, In (k, v) d -> exists v', remove_boundaries_arr g v None "both" = Ok v') ->
  exists d', remove_boundaries_dict g d points remove = (d', Ok tt) /\
    Forall2 (fun kv kv' => fst kv = fst kv' /\
               remove_boundaries_arr g (snd kv) None "both" = Ok (snd kv')) d d'.
Proof. exact L_C120_dict_partial. Qed.
Print Assumptions C120_dict_partial.

(** C120: so the remove argument is lost for a dictionary. *)
Theorem C120_dict_refuted :
  exists g (v w : arr Z) d', wf g /\
  remove_boundaries_arr g v None "left" = Ok w /\
  remove_boundaries_dict g [("a"%string, v)] None "left" = (d', Ok tt) /\
  d' <> [("a"%string, w)] /\ d' <> [("a"%string, v)].
Proof. exact L_C120_dict_refuted. Qed.
Print Assumptions C120_dict_refuted.

Example C120_case :
  let g := mkGrid 1 2 1 true in
  wf g /\ laid_out g [0; 1; 2; 3]%Z ([1; 4; 1], [0; 1; 2; 3]%Z) /\
  remove_boundaries_arr g ([1; 4; 1], [0; 1; 2; 3]%Z) None "both" = Ok ([1; 2; 1], [1; 2]%Z) /\
  remove_boundaries_arr g ([4], [0; 1; 2; 3]%Z) None "left" = Ok ([3], [1; 2; 3]%Z).
Proof. exact ex_C120_case. Qed.

Example C120_points :
  let g := mkGrid 2 1 1 false in
  let d := [(0, 0, 0); (1, 0, 0); (2, 0, 0); (3, 0, 0)]%Z in
  laid_out3 g d ([4; 3], flat3 d) /\
  remove_boundaries_arr g ([4; 3], flat3 d) None "both" = Ok ([2; 3], [1; 0; 0; 2; 0; 0]%Z) /\
  extract_boundaries_f g ([4; 3], flat3 d) None (Some "list"%string)
    = Ok (VList (map tri [(0, 0, 0); (3, 0, 0)]%Z)).
Proof. exact ex_C120_points. Qed.

Example C120_dict :
  exists v', remove_boundaries_arr (mkGrid 2 1 1 false) ([4], [0; 1; 2; 3]%Z) None "both" = Ok v'.
Proof. exact ex_C120_dict. Qed.
