(** Property theorems (each one a lemma proved in [GeoThm.v]), the assumptions they
    rest on, and for each a concrete case meeting its hypotheses. *)
From Coq Require Import String ZArith Bool Arith List Lia Reals Lra.
From Verif Require Import Prelude PreludeFacts Num GridModel GridSpec GridProofs GridNeighbors
  GeoModel GeoSpec TabFacts GeoProofs.
Import ListNotations.
Close Scope R_scope.
Open Scope nat_scope.
From Verif Require Import GeoThm.
Close Scope R_scope.
Open Scope nat_scope.

(** C12: naming a cell by coordinates or by id gives the same values, with
    unify=True, in three dimensions, or when no flow coordinate is zero. *)
Theorem C12_lookup_by_coords :
  forall x y z u (dx dy dz : dinput R) G c,
  geo_new x y z u dx dy dz = Ok G -> in_grid (gr G) c ->
  unify (gr G) = true \/ three_d (gr G) \/ (has_flow (gr G) /\ positive_coords (gr G) c) ->
  let id := ById (natural_id (gr G) c) in
  (forall a, a <> ADash -> get_cell_d G a (ByCoords c) = get_cell_d G a id /\
                           get_cell_A G a (ByCoords c) = get_cell_A G a id) /\
  get_cell_V G (ByCoords c) = get_cell_V G id /\
  get_cell_center G (ByCoords c) = get_cell_center G id.
Proof. exact L_C12_lookup_by_coords. Qed.
Print Assumptions C12_lookup_by_coords.

Example C12_case :
  exists G, geo_new 3 2 1 false (Scalar 1%R) (Scalar 2%R) (Scalar 3%R) = Ok G /\
    in_grid (gr G) (1, 2, 0)%Z /\ has_flow (gr G) /\ positive_coords (gr G) (1, 2, 0)%Z.
Proof. exact ex_C12_case. Qed.

(** C12 is false without unify on 1D and 2D grids: a cell with a zero flow
    coordinate cannot be named by coordinates although it can by id. *)
Theorem C12_zero_coordinate_rejected :
  forall x y z (dx dy dz : dinput R) G c,
  geo_new x y z false dx dy dz = Ok G -> in_grid (gr G) c ->
  has_flow (gr G) -> ~ three_d (gr G) -> (exists a, flows (gr G) a /\ at_axis a c = 0%Z) ->
  (forall a, a <> ADash -> get_cell_d G a (ByCoords c) = Err AssertionError /\
                           get_cell_A G a (ByCoords c) = Err AssertionError) /\
  get_cell_V G (ByCoords c) = Err AssertionError /\
  get_cell_center G (ByCoords c) = Err AssertionError.
Proof. exact L_C12_zero_coordinate_rejected. Qed.
Print Assumptions C12_zero_coordinate_rejected.

Theorem C12_lookup_by_coords_refuted :
  exists x y z u (dx dy dz : dinput R) G c v,
  geo_new x y z u dx dy dz = Ok G /\ in_grid (gr G) c /\
  get_cell_d G AX (ById (natural_id (gr G) c)) = Ok v /\
  get_cell_d G AX (ByCoords c) = Err AssertionError.
Proof. exact L_C12_lookup_by_coords_refuted. Qed.
Print Assumptions C12_lookup_by_coords_refuted.

Example C12_zero_case :
  exists G, geo_new 2 1 1 false (Scalar 1%R) (Scalar 2%R) (Scalar 3%R) = Ok G /\
    in_grid (gr G) (0, 0, 0)%Z /\ has_flow (gr G) /\ ~ three_d (gr G) /\ flows (gr G) AX.
Proof. exact ex_C12_zero_case. Qed.

(** C12: the whole-grid arrays list the per-cell values in the order of
    get_cells_id, with and without boundary. *)
Theorem C12_arrays_follow_ids :
  forall x y z u (dx dy dz : dinput R) G b,
  geo_new x y z u dx dy dz = Ok G ->
  exists ids, get_cells_id (gr G) b = Ok ids /\
  (forall a, a <> ADash ->
     (exists vs, get_cells_d G a b = Ok vs /\ Forall2 (fun id v => get_cell_d G a (ById id) = Ok v) ids vs) /\
     (exists vs, get_cells_A G a b = Ok vs /\ Forall2 (fun id v => get_cell_A G a (ById id) = Ok v) ids vs)) /\
  (exists vs, get_cells_V G b = Ok vs /\ Forall2 (fun id v => get_cell_V G (ById id) = Ok v) ids vs) /\
  (exists vs, get_cells_center G b = Ok vs /\ Forall2 (fun id v => get_cell_center G (ById id) = Ok v) ids vs).
Proof. exact L_C12_arrays_follow_ids. Qed.
Print Assumptions C12_arrays_follow_ids.

(** C13: which spacing arguments are accepted, and the spacing of every cell. *)
Theorem C13_spacing :
  forall x y z u (dx dy dz : dinput R),
  let ok := (1 <= x /\ 1 <= y /\ 1 <= z) /\
            spacing_ok x dx /\ spacing_ok y dy /\ spacing_ok z dz in
  (ok -> exists G, geo_new x y z u dx dy dz = Ok G) /\
  (~ ok -> geo_new x y z u dx dy dz = Err AssertionError \/ geo_new x y z u dx dy dz = Err ValueError) /\
  forall G, geo_new x y z u dx dy dz = Ok G -> gr G = mkGrid x y z u /\
  forall a c, a <> ADash -> in_grid (gr G) c ->
  exists v, spacing (arg dx dy dz a) (at_axis a c) = Some v /\
    get_cell_d G a (ById (natural_id (gr G) c)) = Ok v.
Proof. exact L_C13_spacing. Qed.
Print Assumptions C13_spacing.

Example C13_case :
  (exists G, geo_new 2 1 1 true (Vec [1; 2; 3; 4]%R) (Vec [5]%R) (Scalar 7%R) = Ok G) /\
  ~ spacing_ok 2 (Vec [1; 2; 3]%R) /\ ~ spacing_ok 1 (Vec [1; 2]%R).
Proof. exact ex_C13_case. Qed.

(** C14: areas, volumes and total volumes. *)
Theorem C14_areas_volumes :
  forall x y z u (dx dy dz : dinput R) G,
  geo_new x y z u dx dy dz = Ok G ->
  (forall c, in_grid (gr G) c ->
     let id := ById (natural_id (gr G) c) in
     exists a b d Ax Ay Az V,
     get_cell_d G AX id = Ok a /\ get_cell_d G AY id = Ok b /\ get_cell_d G AZ id = Ok d /\
     get_cell_A G AX id = Ok Ax /\ get_cell_A G AY id = Ok Ay /\ get_cell_A G AZ id = Ok Az /\
     get_cell_V G id = Ok V /\
     (Ax = b * d /\ Ay = a * d /\ Az = a * b /\ V = Ax * a /\ V = Ay * b /\ V = Az * d)%R) /\
  (forall b, get_Vt G b = Ok
     (rsum (rspacing dx) (first_cell x b) (count x b) * rsum (rspacing dy) (first_cell y b) (count y b)
      * rsum (rspacing dz) (first_cell z b) (count z b))%R) /\
  (forall b, exists vs, get_cells_V G b = Ok vs /\ get_Vt G b = Ok (nsum vs)).
Proof. exact L_C14_areas_volumes. Qed.
Print Assumptions C14_areas_volumes.

Example C14_case :
  exists G, geo_new 2 1 1 true (Vec [1; 2; 3; 4]%R) (Vec [5]%R) (Scalar 7%R) = Ok G /\
    get_Vt G false = Ok 175%R.
Proof. exact ex_C14_case. Qed.

(** C15: centres. *)
Theorem C15_centers :
  forall x y z u (dx dy dz : dinput R) G,
  geo_new x y z u dx dy dz = Ok G ->
  (forall c, in_grid (gr G) c ->
   exists p, get_cell_center G (ById (natural_id (gr G) c)) = Ok p /\
   forall a, a <> ADash ->
     let d := arg dx dy dz a in
     coord_of a p = ((left_face d (pos a c) + left_face d (S (pos a c))) / 2)%R /\
     coord_of a p = (left_face d (pos a c) + rspacing d (pos a c) / 2)%R) /\
  (forall c c' a p p', in_grid (gr G) c -> in_grid (gr G) c' -> step a c c' ->
   get_cell_center G (ById (natural_id (gr G) c)) = Ok p ->
   get_cell_center G (ById (natural_id (gr G) c')) = Ok p' ->
   let d := arg dx dy dz a in
   (coord_of a p' - coord_of a p = (rspacing d (pos a c) + rspacing d (pos a c')) / 2)%R /\
   forall b, b <> a -> b <> ADash -> coord_of b p' = coord_of b p).
Proof. exact L_C15_centers. Qed.
Print Assumptions C15_centers.

Example C15_case :
  exists G, geo_new 2 2 1 false (Vec [1; 2; 3; 4]%R) (Scalar 5%R) (Scalar 7%R) = Ok G /\
    in_grid (gr G) (1, 2, 0)%Z /\ in_grid (gr G) (2, 2, 0)%Z /\ step AX (1, 2, 0)%Z (2, 2, 0)%Z.
Proof. exact ex_C15_case. Qed.

(** C16: corner points.  The points form a (2 Nx) x (2 Ny) x (2 Nz) array, x
    fastest; the corners of cell (i,j,k) are at (2i+p, 2j+q, 2k+r), p,q,r in {0,1},
    and lie on the faces of that cell. *)
Theorem C16_corners :
  forall x y z u (dx dy dz : dinput R) G b,
  geo_new x y z u dx dy dz = Ok G ->
  length (get_corners G b) = 8 * (count x b * count y b * count z b) /\
  forall i j k p q r, i < count x b -> j < count y b -> k < count z b ->
  p <= 1 -> q <= 1 -> r <= 1 ->
  let at_ i j k := i + 2 * count x b * (j + 2 * count y b * k) in
  nth_error (get_corners G b) (at_ (2 * i + p) (2 * j + q) (2 * k + r)) =
  Some (left_face dx (first_cell x b + i + p), left_face dy (first_cell y b + j + q),
        left_face dz (first_cell z b + k + r)).
Proof. exact L_C16_corners. Qed.
Print Assumptions C16_corners.

Example C16_case :
  exists G, geo_new 2 1 1 false (Vec [1; 2; 3; 4]%R) (Scalar 5%R) (Scalar 7%R) = Ok G /\
    nth_error (get_corners G false) 1 = Some (3, 0, 0)%R.
Proof. exact ex_C16_case. Qed.
