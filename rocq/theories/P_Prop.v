(** Property theorems (each one a lemma proved in [PropThm.v]), the assumptions they
    rest on, and for each a concrete case meeting its hypotheses. *)
From Coq Require Import String ZArith Bool Arith List Lia Reals Lra QArith.
From Verif Require Import Prelude PreludeFacts Num GridModel GridSpec GridProofs GridNeighbors
  GeoModel GeoSpec TabFacts GeoProofs PropModel PropSpec PropProofs TransProofs MatrixProofs AgreeProofs.
Import ListNotations.
Close Scope R_scope.
Close Scope Q_scope.
Open Scope nat_scope.
From Verif Require Import PropThm.
Close Scope R_scope.
Close Scope Q_scope.
Open Scope nat_scope.

(** C04: on a grid without flow direction get_cells_G raises UnboundLocalError. *)
Theorem C04_factor_matrix_refuted :
  (forall (o : gobj R) b, ~ has_flow (gr (geom o)) -> get_cells_G o b = Err UnboundLocalError) /\
  exists o : gobj R, exists x y z u dx dy dz, rock o x y z u dx dy dz /\ ~ has_flow (gr (geom o)) /\
    get_cells_G o false = Err UnboundLocalError.
Proof. exact L_C04_factor_matrix_refuted. Qed.
Print Assumptions C04_factor_matrix_refuted.

(** C17: with unify=False and at most one flow direction, setting a property of
    a cell whose flow coordinate is not zero changes that cell only, and the
    attributes show it. *)
Theorem C17_set_one_cell_partial :
  forall (g : grid) (p : props R) n v c r l,
  wf g -> unify g = false -> at_most_1d g -> in_grid g c -> positive_coords g c ->
  cur (pget n p) = Some l -> length l = get_n g true ->
  r = ById (natural_id g c) \/ r = ByCoords c ->
  exists p' l', set_one g p n (Scalar v) (Some r) = (p', Ok tt) /\
    cur (pget n p') = Some l' /\ att (pget n p') = Some l' /\ length l' = length l /\
    nth_error l' (Z.to_nat (natural_id g c)) = Some v /\
    (forall i, i <> Z.to_nat (natural_id g c) -> nth_error l' i = nth_error l i) /\
    forall n', n' <> n -> cur (pget n' p) <> None -> pget n' p' = pget n' p.
Proof. exact L_C17_set_one_cell_partial. Qed.
Print Assumptions C17_set_one_cell_partial.

Example C17_case :
  let g := mkGrid 4 1 1 false in let l := [1;2;3;4;5;6]%R in
  let p := pput KX (mkProp (Some l) (Some l) true) props0 in
  wf g /\ unify g = false /\ at_most_1d g /\ in_grid g (2, 0, 0)%Z /\ positive_coords g (2, 0, 0)%Z /\
  cur (pget KX p) = Some l /\ length l = get_n g true.
Proof. exact ex_C17_case. Qed.

(** C17 is false with unify=True and in 2D and 3D: setting a property of one
    cell always raises, and changes nothing. *)
Theorem C17_rejected :
  forall (g : grid) (p : props R) n v r,
  wf g -> unify g = true \/ at_least_2d g ->
  exists e, set_one g p n v (Some r) = (p, Err e).
Proof. exact L_C17_rejected. Qed.
Print Assumptions C17_rejected.

Theorem C17_set_one_cell_refuted :
  exists (g : grid) (p : props R) l c,
  wf g /\ cur (pget KX p) = Some l /\ length l = get_n g true /\ interior g c /\
  forall v r, r = ById (natural_id g c) \/ r = ByCoords c ->
    exists e, set_one g p KX (Scalar v) (Some r) = (p, Err e).
Proof. exact L_C17_set_one_cell_refuted. Qed.
Print Assumptions C17_set_one_cell_refuted.

Example C17_rejected_case : wf (mkGrid 2 2 1 false) /\ at_least_2d (mkGrid 2 2 1 false).
Proof. exact ex_C17_rejected_case. Qed.

(** C80: after any sequence of set_props calls, successful or raising, on a new
    grid, every attribute (kx, ky, kz, phi, z) shows the current property. *)
Theorem C80_attributes_current :
  forall F (NF : Num F) (g : grid) (calls : list (pcall F)) n,
  att (pget n (run_sets g props0 calls)) = cur (pget n (run_sets g props0 calls)).
Proof. exact L_C80_attributes_current. Qed.
Print Assumptions C80_attributes_current.

Example C80_case :
  let calls := [mkPcall (Some (Scalar (2#1)%Q)) None None None None None None;
                mkPcall (Some (Scalar (3#1)%Q)) None None (Some (Vec [1%Q; 1%Q])) None (Some 1%Q) None] in
  att (pget KX (run_sets (mkGrid 2 1 1 true) props0 calls)) = Some [3#1; 3#1; 3#1; 3#1]%Q /\
  att (pget PHI (run_sets (mkGrid 2 1 1 true) props0 calls)) = None.
Proof. exact ex_C80_case. Qed.

(** C80: set_prop called directly leaves the attributes stale. *)
Theorem C80_set_prop_refuted :
  exists (g : grid) (p p' : props R) l l',
  p = run_sets g props0 [mkPcall (Some (Scalar 2%R)) None None None None None None] /\
  set_prop g p KX (Scalar 3%R) None = (p', Ok tt) /\
  cur (pget KX p') = Some l' /\ att (pget KX p') = Some l /\ l <> l'.
Proof. exact L_C80_set_prop_refuted. Qed.
Print Assumptions C80_set_prop_refuted.

(** C20: a reported factor is positive; the factors reported by two cells for
    each other are equal; between interior cells both or none report one. *)
Theorem C20_symmetric_positive :
  forall o x y z u dx dy dz, rock o x y z u dx dy dz -> has_flow (gr (geom o)) ->
  forall c c' b b' L L', in_grid (gr (geom o)) c -> in_grid (gr (geom o)) c' ->
  let id := natural_id (gr (geom o)) c in let id' := natural_id (gr (geom o)) c' in
  get_cell_G o id b = Ok L -> get_cell_G o id' b' = Ok L' ->
  (forall v, dget id' L = Some v -> 0 < v)%R /\
  (forall v v', dget id' L = Some v -> dget id L' = Some v' -> v = v') /\
  (interior (gr (geom o)) c -> interior (gr (geom o)) c' ->
   (dget id' L <> None <-> dget id L' <> None) /\
   (dget id' L <> None <-> exists a, flows (gr (geom o)) a /\ face_adjacent a c c')).
Proof. exact L_C20_symmetric_positive. Qed.
Print Assumptions C20_symmetric_positive.

Example C20_case :
  exists o, rock o 3 2 1 true (Scalar 1%R) (Scalar 1%R) (Scalar 1%R) /\ has_flow (gr (geom o)) /\
  in_grid (gr (geom o)) (1, 1, 0)%Z /\ in_grid (gr (geom o)) (2, 1, 0)%Z /\
  exists L L' v, get_cell_G o (natural_id (gr (geom o)) (1, 1, 0)%Z) false = Ok L /\
     get_cell_G o (natural_id (gr (geom o)) (2, 1, 0)%Z) false = Ok L' /\
     dget (natural_id (gr (geom o)) (2, 1, 0)%Z) L = Some v.
Proof. exact ex_C20_case. Qed.

(** C21: between neighbouring cells of equal permeability, and between any two
    neighbouring cells of a grid not found isotropic, the reported factor is the
    series coupling of the two cells, whatever the spacings; in particular
    between any two neighbouring interior cells. *)
Theorem C21_series_coupling :
  forall o x y z u dx dy dz, rock o x y z u dx dy dz -> has_flow (gr (geom o)) ->
  forall a c c' b, flows (gr (geom o)) a -> in_grid (gr (geom o)) c -> in_grid (gr (geom o)) c' ->
  (b = true -> interior (gr (geom o)) c) -> (b = false -> interior (gr (geom o)) c') ->
  face_adjacent a c c' ->
  let r := ById (natural_id (gr (geom o)) c) in let r' := ById (natural_id (gr (geom o)) c') in
  exists L v k A d k' A' d',
  get_cell_G o (natural_id (gr (geom o)) c) b = Ok L /\ dget (natural_id (gr (geom o)) c') L = Some v /\
  get_cell_k o a r = Ok k /\ get_cell_A (geom o) a r = Ok A /\ get_cell_d (geom o) a r = Ok d /\
  get_cell_k o a r' = Ok k' /\ get_cell_A (geom o) a r' = Ok A' /\ get_cell_d (geom o) a r' = Ok d' /\
  A = A' /\
  (k = k' \/ is_isotropic o = Ok false \/ (interior (gr (geom o)) c /\ interior (gr (geom o)) c') ->
   v = series (tfac o) k A d k' A' d').
Proof. exact L_C21_series_coupling. Qed.
Print Assumptions C21_series_coupling.

Example C21_case :
  exists G, geo_new 2 1 1 true (Vec [1;2;3;4]%R) (Scalar 1%R) (Scalar 1%R) = Ok G /\
  rock (mk_obj G (konst 4) (konst 4) (konst 4) 1%R) 2 1 1 true (Vec [1;2;3;4]%R) (Scalar 1%R) (Scalar 1%R) /\
  interior (gr G) (1,0,0)%Z /\ interior (gr G) (2,0,0)%Z /\ face_adjacent AX (1,0,0)%Z (2,0,0)%Z.
Proof. exact ex_C21_case. Qed.

(** C21 fails for boundary cells: a grid is found isotropic by its interior
    alone, and then the factor towards a boundary cell of another permeability is
    an arithmetic mean (here 2), not the series coupling (here 3/2). *)
Theorem C21_boundary_mean_refuted :
  exists o x y z u dx dy dz c c' L v k A d k' A' d', rock o x y z u dx dy dz /\
  interior (gr (geom o)) c /\ boundary_cell (gr (geom o)) c' /\ face_adjacent AX c c' /\
  let r := ById (natural_id (gr (geom o)) c) in let r' := ById (natural_id (gr (geom o)) c') in
  get_cell_G o (natural_id (gr (geom o)) c) true = Ok L /\ dget (natural_id (gr (geom o)) c') L = Some v /\
  get_cell_k o AX r = Ok k /\ get_cell_A (geom o) AX r = Ok A /\ get_cell_d (geom o) AX r = Ok d /\
  get_cell_k o AX r' = Ok k' /\ get_cell_A (geom o) AX r' = Ok A' /\ get_cell_d (geom o) AX r' = Ok d' /\
  v <> series (tfac o) k A d k' A' d'.
Proof. exact L_C21_boundary_mean_refuted. Qed.
Print Assumptions C21_boundary_mean_refuted.

(** C22: in one and two dimensions the matrix entry of the p-th and q-th
    interior cells is the factor reported by get_cell_G, and 0 if none is. *)
Theorem C22_matrix_agrees :
  forall o x y z u dx dy dz, rock o x y z u dx dy dz ->
  has_flow (gr (geom o)) -> ~ three_d (gr (geom o)) ->
  exists M ids, get_cells_G o false = Ok M /\ get_cells_id (gr (geom o)) false = Ok ids /\
  msize M = length ids /\
  forall p q id id', nth_error ids p = Some id -> nth_error ids q = Some id' ->
  exists L, get_cell_G o id false = Ok L /\
    ment M p q = match dget id' L with Some v => v | None => 0%R end.
Proof. exact L_C22_matrix_agrees. Qed.
Print Assumptions C22_matrix_agrees.

Example C22_case :
  exists o, rock o 3 2 1 true (Scalar 1%R) (Scalar 1%R) (Scalar 1%R) /\ has_flow (gr (geom o)) /\ ~ three_d (gr (geom o)).
Proof. exact ex_C22_case. Qed.

(** C23 restricted: in three dimensions the entries agree for all pairs of
    interior cells except those wrapping around the end of a layer; missing are
    exactly the wrapping pairs, for which see the next theorem. *)
Theorem C23_matrix_agrees_partial :
  forall o x y z u dx dy dz, rock o x y z u dx dy dz -> three_d (gr (geom o)) ->
  exists M ids, get_cells_G o false = Ok M /\ get_cells_id (gr (geom o)) false = Ok ids /\
  msize M = length ids /\
  forall p q c c', interior (gr (geom o)) c -> interior (gr (geom o)) c' ->
  nth_error ids p = Some (natural_id (gr (geom o)) c) -> nth_error ids q = Some (natural_id (gr (geom o)) c') ->
  ~ wraps (gr (geom o)) c c' -> ~ wraps (gr (geom o)) c' c ->
  exists L, get_cell_G o (natural_id (gr (geom o)) c) false = Ok L /\
    ment M p q = match dget (natural_id (gr (geom o)) c') L with Some v => v | None => 0%R end.
Proof. exact L_C23_matrix_agrees_partial. Qed.
Print Assumptions C23_matrix_agrees_partial.

Example C23_case :
  exists o, rock o 2 3 2 true (Scalar 1%R) (Scalar 1%R) (Scalar 1%R) /\ three_d (gr (geom o)) /\
  interior (gr (geom o)) (1,1,1)%Z /\ interior (gr (geom o)) (1,2,1)%Z /\
  ~ wraps (gr (geom o)) (1,1,1)%Z (1,2,1)%Z /\ ~ wraps (gr (geom o)) (1,2,1)%Z (1,1,1)%Z.
Proof. exact ex_C23_case. Qed.

(** C23 is false: in every three-dimensional grid each pair of cells wrapping
    around the end of a layer is coupled by a positive entry in both directions,
    except the pair in the first column of the first layer, although get_cell_G
    reports nothing between them. *)
Theorem C23_spurious_couplings :
  forall o x y z u dx dy dz, rock o x y z u dx dy dz -> three_d (gr (geom o)) ->
  exists M ids, get_cells_G o false = Ok M /\ get_cells_id (gr (geom o)) false = Ok ids /\
  forall p q c c', interior (gr (geom o)) c -> interior (gr (geom o)) c' ->
  nth_error ids p = Some (natural_id (gr (geom o)) c) -> nth_error ids q = Some (natural_id (gr (geom o)) c') ->
  wraps (gr (geom o)) c c' ->
  exists L L', get_cell_G o (natural_id (gr (geom o)) c) false = Ok L /\
    dget (natural_id (gr (geom o)) c') L = None /\
    get_cell_G o (natural_id (gr (geom o)) c') false = Ok L' /\
    dget (natural_id (gr (geom o)) c) L' = None /\
    (if (at_axis AX c =? 1)%Z && (at_axis AZ c =? 1)%Z then ment M p q = 0%R /\ ment M q p = 0%R
     else (0 < ment M p q)%R /\ (0 < ment M q p)%R).
Proof. exact L_C23_spurious_couplings. Qed.
Print Assumptions C23_spurious_couplings.

(** C23: a witness, the 2x2x2 grid with unit spacing and permeability. *)
Theorem C23_matrix_refuted :
  exists o x y z u dx dy dz M ids p q id id' L, rock o x y z u dx dy dz /\
  get_cells_G o false = Ok M /\ get_cells_id (gr (geom o)) false = Ok ids /\
  nth_error ids p = Some id /\ nth_error ids q = Some id' /\
  get_cell_G o id false = Ok L /\ dget id' L = None /\ (0 < ment M p q)%R.
Proof. exact L_C23_matrix_refuted. Qed.
Print Assumptions C23_matrix_refuted.

(** C24: the matrix, with or without boundary cells, is symmetric with empty diagonal. *)
Theorem C24_matrix_symmetric :
  forall o x y z u dx dy dz b, rock o x y z u dx dy dz -> has_flow (gr (geom o)) ->
  exists M, get_cells_G o b = Ok M /\ msize M = get_n (gr (geom o)) b /\
  forall p q, p < msize M -> q < msize M -> ment M p q = ment M q p /\ ment M p p = 0%R.
Proof. exact L_C24_matrix_symmetric. Qed.
Print Assumptions C24_matrix_symmetric.

Example C24_case :
  exists o, rock o 2 3 2 true (Scalar 1%R) (Scalar 1%R) (Scalar 1%R) /\ has_flow (gr (geom o)).
Proof. exact ex_C24_case. Qed.
