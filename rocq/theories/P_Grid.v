(** Property theorems (each one a lemma proved in [GridThm.v]), the assumptions they
    rest on, and for each a concrete case meeting its hypotheses. *)
From Coq Require Import String ZArith Bool Arith List Lia Permutation Sorted.
From Verif Require Import Prelude PreludeFacts GridModel GridSpec GridProofs GridNeighbors.
Import ListNotations.
Local Open Scope Z_scope.
From Verif Require Import GridThm.
Local Open Scope Z_scope.

(** C01: the constructor accepts exactly positive sizes; direction, dimension, shapes. *)
Theorem C01_direction_and_shape :
  forall x y z u,
  (forall g, grid_new x y z u = Ok g <->
     (1 <= x)%nat /\ (1 <= y)%nat /\ (1 <= z)%nat /\ g = mkGrid x y z u) /\
  forall g, grid_new x y z u = Ok g ->
  let flow := filter (fun a => Nat.ltb 1 (size g a)) [AX; AY; AZ] in
  get_fdir g = (match flow with [] => [ADash] | _ => flow end) /\
  get_D g = length flow /\
  get_shape g false = [x; y; z] /\
  map Z.of_nat (get_shape g true) = [padded x; padded y; padded z] /\
  get_n g false = (x * y * z)%nat /\
  Z.of_nat (get_n g true) = padded x * padded y * padded z.
Proof. exact L_C01_direction_and_shape. Qed.
Print Assumptions C01_direction_and_shape.

Example C01_case :
  exists g, grid_new 3 1 2 false = Ok g /\ get_fdir g = [AX; AZ] /\ get_n g true = 20%nat.
Proof. exact ex_C01_case. Qed.

(** C01: get_fdir gives the same answer when the attribute self.shape has been
    left as the shape with boundary by an earlier call. *)
Theorem C01_direction_from_boundary_shape :
  forall g, wf g -> fdir_of_shape (get_D g) (get_shape g true) = get_fdir g.
Proof. exact L_C01_direction_from_boundary_shape. Qed.
Print Assumptions C01_direction_from_boundary_shape.

Example C01_stale : wf (mkGrid 4 1 1 true) /\ get_shape (mkGrid 4 1 1 true) true = [6; 1; 1]%nat.
Proof. exact ex_C01_stale. Qed.

(** C02: ids and coordinates (grid with boundary). *)
Theorem C02_id_coords_bijection :
  forall g, wf g ->
  (forall c, in_grid g c ->
     get_cell_id g c true = Some (natural_id g c) /\
     0 <= natural_id g c < Z.of_nat (get_n g true) /\
     get_cell_coords g (natural_id g c) true = Ok c) /\
  (forall c, ~ in_grid g c -> get_cell_id g c true = None) /\
  (forall id, 0 <= id < Z.of_nat (get_n g true) ->
     exists c, in_grid g c /\ get_cell_coords g id true = Ok c /\
               get_cell_id g c true = Some id) /\
  (forall id, ~ 0 <= id < Z.of_nat (get_n g true) -> get_cell_coords g id true = Err TypeError).
Proof. exact L_C02_id_coords_bijection. Qed.
Print Assumptions C02_id_coords_bijection.

(** C02: ids and coordinates without boundary cells. *)
Theorem C02_id_coords_bijection_inner :
  forall g, wf g ->
  let inside c := match c with (i, j, k) =>
    0 <= i < Z.of_nat (nx g) /\ 0 <= j < Z.of_nat (ny g) /\ 0 <= k < Z.of_nat (nz g) end in
  (forall i j k, inside (i, j, k) ->
     let id := i + Z.of_nat (nx g) * (j + Z.of_nat (ny g) * k) in
     get_cell_id g (i, j, k) false = Some id /\ 0 <= id < Z.of_nat (get_n g false) /\
     get_cell_coords g id false = Ok (i, j, k)) /\
  (forall c, ~ inside c -> get_cell_id g c false = None) /\
  (forall id, 0 <= id < Z.of_nat (get_n g false) ->
     exists c, inside c /\ get_cell_coords g id false = Ok c /\ get_cell_id g c false = Some id).
Proof. exact L_C02_id_coords_bijection_inner. Qed.
Print Assumptions C02_id_coords_bijection_inner.

Example C02_case :
  let g := mkGrid 4 3 2 true in
  wf g /\ in_grid g (5, 2, 3) /\ get_cell_id g (5, 2, 3) true = Some 107 /\
  get_cell_coords g 107 true = Ok (5, 2, 3).
Proof. exact ex_C02_case. Qed.

(** C03: interior and boundary ids partition the ids of the grid. *)
Theorem C03_interior_boundary_partition :
  forall g, wf g -> has_flow g ->
  exists inner bound,
    get_cells_id g false = Ok inner /\ get_boundaries_id g = Ok bound /\
    StronglySorted Z.lt inner /\ StronglySorted Z.lt bound /\
    (forall id, In id inner <-> exists c, interior g c /\ id = natural_id g c) /\
    (forall id, In id bound <-> exists c, boundary_cell g c /\ id = natural_id g c) /\
    (forall id, In id inner \/ In id bound <-> 0 <= id < Z.of_nat (get_n g true)) /\
    (forall id, ~ (In id inner /\ In id bound)) /\
    length inner = (nx g * ny g * nz g)%nat.
Proof. exact L_C03_interior_boundary_partition. Qed.
Print Assumptions C03_interior_boundary_partition.

Example C03_case :
  let g := mkGrid 3 2 1 false in
  wf g /\ has_flow g /\ get_cells_id g false = Ok [6; 7; 8; 11; 12; 13] /\
  get_boundaries_id g = Ok [0; 1; 2; 3; 4; 5; 9; 10; 14; 15; 16; 17; 18; 19].
Proof. exact ex_C03_case. Qed.

(** C04 is false: on the 1x1x1 grid cell 0 is both interior and boundary. *)
Theorem C04_single_cell_refuted :
  forall u, exists inner bound id,
    grid_new 1 1 1 u = Ok (mkGrid 1 1 1 u) /\
    get_cells_id (mkGrid 1 1 1 u) false = Ok inner /\
    get_boundaries_id (mkGrid 1 1 1 u) = Ok bound /\ In id inner /\ In id bound.
Proof. exact L_C04_single_cell_refuted. Qed.
Print Assumptions C04_single_cell_refuted.

(** C05: remove_boundaries keeps exactly the wanted cells, in increasing id order. *)
Theorem C05_remove_boundaries :
  forall (A : Type) g (data : list A) (d : A) (left right : bool), wf g ->
  length data = get_n g true ->
  (left || right = true)%bool ->
  let mode := if left then (if right then "both" else "left")%string else "right"%string in
  exists ids,
    StronglySorted Z.lt ids /\
    (forall id, In id ids <-> exists c, kept left right g c /\ id = natural_id g c) /\
    remove_boundaries g data mode = Ok (map (fun id => nth (Z.to_nat id) data d) ids).
Proof. exact L_C05_remove_boundaries. Qed.
Print Assumptions C05_remove_boundaries.

(** C05: with remove='both' the kept cells are the interior ones; other mode
    strings and arrays of another length are rejected. *)
Theorem C05_both_is_interior :
  forall g, wf g ->
  (forall c, kept true true g c <-> interior g c) /\
  (forall (A : Type) (data : list A) m, length data = get_n g true ->
     m <> "both"%string -> m <> "left"%string -> m <> "right"%string ->
     remove_boundaries g data m = Err ValueError) /\
  (forall (A : Type) (data : list A) m, length data <> get_n g true ->
     remove_boundaries g data m = Err ValueError).
Proof. exact L_C05_both_is_interior. Qed.
Print Assumptions C05_both_is_interior.

Example C05_case :
  let g := mkGrid 2 2 1 true in wf g /\ length (arange 16) = get_n g true /\
  remove_boundaries g (arange 16) "both" = Ok [5; 6; 9; 10] /\
  remove_boundaries g (arange 16) "left" = Ok [5; 6; 7; 9; 10; 11; 13; 14; 15].
Proof. exact ex_C05_case. Qed.

(** C06: extract_boundaries lists every boundary cell's value once; the numeric
    version is the sorted list of the same values. *)
Theorem C06_extract_boundaries :
  forall (A : Type) g (data : list A) (d : A), wf g -> has_flow g ->
  length data = get_n g true ->
  exists ids, NoDup ids /\
    (forall id, In id ids <-> exists c, boundary_cell g c /\ id = natural_id g c) /\
    extract_boundaries_pts g data = Ok (map (fun id => nth (Z.to_nat id) data d) ids).
Proof. exact L_C06_extract_boundaries. Qed.
Print Assumptions C06_extract_boundaries.

Theorem C06_extract_boundaries_sorted :
  forall g (data : list Z), wf g -> has_flow g -> length data = get_n g true ->
  exists vals out, extract_boundaries_pts g data = Ok vals /\
    extract_boundaries_z g data = Ok out /\ Permutation out vals /\ StronglySorted Z.le out.
Proof. exact L_C06_extract_boundaries_sorted. Qed.
Print Assumptions C06_extract_boundaries_sorted.

Example C06_case :
  let g := mkGrid 2 2 1 true in wf g /\ has_flow g /\ length (arange 16) = get_n g true /\
  extract_boundaries_pts g (arange 16) = Ok [0;1;2;3;12;13;14;15;4;7;8;11].
Proof. exact ex_C06_case. Qed.

(** C07: neighbours by id. *)
Theorem C07_neighbors_interior :
  forall g c, wf g -> has_flow g -> in_grid g c ->
  exists d, get_cell_neighbors g (natural_id g c) false = Ok d /\
  forall a, StronglySorted Z.lt (dirs_get a d) /\
    forall id, In id (dirs_get a d) <->
      exists c', interior g c' /\ face_adjacent a c c' /\ id = natural_id g c'.
Proof. exact L_C07_neighbors_interior. Qed.
Print Assumptions C07_neighbors_interior.

Theorem C07_neighbors_with_boundary :
  forall g c, wf g -> has_flow g -> interior g c ->
  exists d, get_cell_neighbors g (natural_id g c) true = Ok d /\
  forall a, (flows g a -> exists p n, step a p c /\ step a c n /\ in_grid g p /\ in_grid g n /\
                dirs_get a d = [natural_id g p; natural_id g n]) /\
            (~ flows g a -> dirs_get a d = []).
Proof. exact L_C07_neighbors_with_boundary. Qed.
Print Assumptions C07_neighbors_with_boundary.

Theorem C07_boundary_cell_rejected :
  forall g c, wf g -> has_flow g -> boundary_cell g c ->
  get_cell_neighbors g (natural_id g c) true = Err AssertionError.
Proof. exact L_C07_boundary_cell_rejected. Qed.
Print Assumptions C07_boundary_cell_rejected.

Example C07_case :
  let g := mkGrid 3 3 1 true in
  wf g /\ has_flow g /\ interior g (1, 3, 0) /\ natural_id g (1, 3, 0) = 16 /\
  get_cell_neighbors g 16 false = Ok (mkDirs [17] [11] []) /\
  get_cell_neighbors g 16 true = Ok (mkDirs [15; 17] [11; 21] []).
Proof. exact ex_C07_case. Qed.

Example C07_boundary_case :
  let g := mkGrid 3 3 1 true in
  boundary_cell g (0, 2, 0) /\ natural_id g (0, 2, 0) = 10 /\
  get_cell_neighbors g 10 false = Ok (mkDirs [11] [] []).
Proof. exact ex_C07_boundary_case. Qed.

(** C08: neighbours by coordinates, converted to ids, are the neighbours by id. *)
Theorem C08_neighbors_coords_agree :
  forall g c b, wf g -> has_flow g -> in_grid g c ->
  get_cell_neighbors g (natural_id g c) b =
  rmap (fun d => mkDirs (map (natural_id g) (d_x d)) (map (natural_id g) (d_y d))
                        (map (natural_id g) (d_z d)))
       (get_cell_neighbors_c g c b).
Proof. exact L_C08_neighbors_coords_agree. Qed.
Print Assumptions C08_neighbors_coords_agree.

Example C08_case :
  let g := mkGrid 2 2 2 true in wf g /\ has_flow g /\ in_grid g (1, 1, 1) /\
  get_cell_neighbors_c g (1, 1, 1) false = Ok (mkDirs [(2,1,1)] [(1,2,1)] [(1,1,2)]).
Proof. exact ex_C08_case. Qed.

(** C09: symmetry. *)
Theorem C09_neighbors_symmetric :
  forall g c c' d d' a, wf g -> has_flow g -> interior g c -> interior g c' ->
  get_cell_neighbors g (natural_id g c) false = Ok d ->
  get_cell_neighbors g (natural_id g c') false = Ok d' ->
  In (natural_id g c') (dirs_get a d) -> In (natural_id g c) (dirs_get a d').
Proof. exact L_C09_neighbors_symmetric. Qed.
Print Assumptions C09_neighbors_symmetric.

Example C09_case :
  let g := mkGrid 3 1 1 false in wf g /\ has_flow g /\ interior g (1,0,0) /\ interior g (2,0,0) /\
  get_cell_neighbors g 1 false = Ok (mkDirs [2] [] []) /\
  get_cell_neighbors g 2 false = Ok (mkDirs [1; 3] [] []).
Proof. exact ex_C09_case. Qed.

(** C10: boundaries of an interior cell complete its interior neighbours. *)
Theorem C10_boundaries_complete_neighbors :
  forall g c, wf g -> has_flow g -> interior g c ->
  exists bnd inn all,
    get_cell_boundaries g (natural_id g c) = Ok bnd /\
    get_cell_neighbors g (natural_id g c) false = Ok inn /\
    get_cell_neighbors g (natural_id g c) true = Ok all /\
    (forall a id, In id (dirs_get a all) <-> In id (dirs_get a bnd) \/ In id (dirs_get a inn)) /\
    (forall a a' id, ~ (In id (dirs_get a bnd) /\ In id (dirs_get a' inn))) /\
    total all = (2 * get_D g)%nat /\ (total bnd + total inn)%nat = total all.
Proof. exact L_C10_boundaries_complete_neighbors. Qed.
Print Assumptions C10_boundaries_complete_neighbors.

Theorem C10_boundary_cell_rejected :
  forall g c, wf g -> has_flow g -> boundary_cell g c ->
  get_cell_boundaries g (natural_id g c) = Err AssertionError.
Proof. exact L_C10_boundary_cell_rejected. Qed.
Print Assumptions C10_boundary_cell_rejected.

(** C10: the same by coordinates. *)
Theorem C10_boundaries_coords_agree :
  forall g c, wf g -> has_flow g -> in_grid g c ->
  get_cell_boundaries g (natural_id g c) =
  rmap (fun d => mkDirs (map (natural_id g) (d_x d)) (map (natural_id g) (d_y d))
                        (map (natural_id g) (d_z d)))
       (get_cell_boundaries_c g c).
Proof. exact L_C10_boundaries_coords_agree. Qed.
Print Assumptions C10_boundaries_coords_agree.

Example C10_case :
  let g := mkGrid 3 3 1 true in
  interior g (1, 3, 0) /\ get_cell_boundaries g 16 = Ok (mkDirs [15] [21] []).
Proof. exact ex_C10_case. Qed.

(** C11: interior neighbours of a boundary cell. *)
Theorem C11_boundary_cell_one_neighbor :
  forall g c, wf g -> has_flow g -> boundary_cell g c ->
  exists d, get_cell_neighbors g (natural_id g c) false = Ok d /\
    (total d <= 1)%nat /\ (total d = 1%nat <-> on_one_face g c).
Proof. exact L_C11_boundary_cell_one_neighbor. Qed.
Print Assumptions C11_boundary_cell_one_neighbor.

Example C11_case :
  let g := mkGrid 3 3 1 true in
  wf g /\ has_flow g /\ boundary_cell g (0, 2, 0) /\ boundary_cell g (0, 0, 0) /\
  get_cell_neighbors g (natural_id g (0, 2, 0)) false = Ok (mkDirs [11] [] []) /\
  get_cell_neighbors g (natural_id g (0, 0, 0)) false = Ok (mkDirs [] [] []).
Proof. exact ex_C11_case. Qed.
