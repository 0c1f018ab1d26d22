(** Property theorems (each one a lemma proved in [WellThm.v]), the assumptions they
    rest on, and for each a concrete case meeting its hypotheses. *)
From Coq Require Import String ZArith Bool Arith List Lia QArith Reals Lra.
From Verif Require Import Prelude PreludeFacts Num GridModel GridSpec GridProofs GeoModel GeoSpec GeoProofs PropModel PropSpec PropProofs
  UnitsModel UnitsSpec UnitsThm BlackOilModel FdmModel MonadFacts Samples WellSpec.
Import ListNotations.
Close Scope Q_scope. Close Scope R_scope.
Open Scope string_scope.
Open Scope nat_scope.
From Verif Require Import WellThm.
Close Scope Q_scope. Close Scope R_scope.
Open Scope string_scope.
Open Scope nat_scope.

(** C26: comp of a model is the sum of the two; it is compressible exactly if
    that is positive, so incompressible exactly if both are; the accumulation
    coefficients. *)
Theorem C26_model_comp :
  forall (g : gobj R) (f : fobj R) unit pi dt m cg cf k,
  bo_new g f unit pi dt = Ok m ->
  p_comp (prs g) = Some cg -> comp_kind cg (p_comp_type (prs g)) ->
  f_c f = mkCobj (Some cf) (Some k) -> comp_kind cf k ->
  In unit systems /\ b_comp m = (cf + cg)%R /\
  (b_cmp m = true <-> 0 < cf + cg)%R /\ (b_cmp m = false <-> cf + cg = 0)%R /\
  (0 <= cf -> 0 <= cg -> (b_cmp m = false <-> cf = 0 /\ cg = 0))%R /\
  (b_cmp m = false -> b_RHS m = repeat 0%R (get_n (gr (geom g)) true)) /\
  (b_cmp m = true -> exists phi B, att (pget PHI (prs g)) = Some phi /\ f_B f = Some B /\
     forall i V p, nth_error (cV (geom g)) i = Some V -> nth_error phi i = Some p ->
     exists c, nth_error (b_RHS m) i = Some c /\
       c = (V * p * (cf + cg) / (volume_conv unit * B * dt))%R /\
       (0 < V -> 0 < p -> 0 < B -> 0 < dt -> 0 < c)%R).
Proof. exact L_C26_model_comp. Qed.
Print Assumptions C26_model_comp.

(** A model of a compressible fluid in an incompressible rock. *)
Example C26_case :
  exists (g : gobj R) f m, gobj_new 2 1 1 true (Scalar 1%R) (Scalar 1%R) (Scalar 1%R)
      (Some (Scalar 1%R)) None None (Some (Scalar 1%R)) None None 1%R = Ok g /\
  fluid_new (Some 1%R) (Some 1%R) None (Some 2%R) "field" = Ok f /\
  bo_new g f "metric" None 1%R = Ok m /\
  p_comp (prs g) = Some 0%R /\ comp_kind 0 (p_comp_type (prs g)) /\
  f_c f = mkCobj (Some 2%R) (Some (Some "compressible")) /\ comp_kind 2 (Some "compressible") /\ b_cmp m = true.
Proof. exact ex_C26_case. Qed.

(** C30: set_well on a cell that is not interior raises and changes nothing;
    any call leaves everything but its own well alone. *)
Theorem C30_wells_interior :
  forall (x : ws R) id q pwf r s,
  (~ In id (b_ids (fst x)) -> set_well (Some id) q pwf r s x = (x, Err AssertionError)) /\
  same_elsewhere id x (fst (set_well (Some id) q pwf r s x)) /\
  set_well None q pwf r s x = (x, Err AssertionError).
Proof. exact L_C30_wells_interior. Qed.
Print Assumptions C30_wells_interior.

(** The interior cells a model has are those of its grid. *)
Theorem C30_interior_cells :
  forall (g : gobj R) f unit pi dt m, bo_new g f unit pi dt = Ok m ->
  get_cells_id (gr (geom g)) false = Ok (b_ids m) /\ b_grid m = g /\ b_wells m = [].
Proof. exact L_C30_interior_cells. Qed.
Print Assumptions C30_interior_cells.

(** C29: from a state without a well in cell [id]: after any calls on any cells
    (those that raise are caught) and then a call on [id] that succeeds. *)
Theorem C29_control_mode :
  forall (x : ws R) id l c y, dget id (b_wells (fst x)) = None -> wc_cell c = Some id ->
  wexec (wexecs x l) c = (y, Ok tt) ->
  let lq := last_given wc_q id (l ++ [c])%list in
  let lp := last_given wc_pwf id (l ++ [c])%list in
  exists w, dget id (b_wells (fst y)) = Some w /\
    w_con w = Some (match lq, lp with Some _, _ => Some "q" | None, Some _ => Some "pwf" | None, None => None end) /\
    w_q w = option_map Some lq /\ w_qsp w = lq /\
    w_pwf w = Some (Some (match lp with Some p => p | None => 0%R end)) /\
    w_pwfsp w = Some (match lp with Some p => p | None => 0%R end).
Proof. exact L_C29_control_mode. Qed.
Print Assumptions C29_control_mode.

(** A model of three cells in a row. *)
Example C29_case :
  exists m : bo R, build 3 1 1 None 1%R (Some 7%R) None = Ok m /\
  let x := (m, None) in
  let c i q p r := mkWc (Some i) q p r None in
  exists y, dget 2%Z (b_wells (fst x)) = None /\
  wexec (wexecs x [c 2%Z None (Some 5%R) None; c 1%Z (Some 1%R) None (Some 1%R); c 2%Z (Some 3%R) None None]) (c 2%Z None (Some 4%R) (Some 1%R)) = (y, Ok tt).
Proof. exact ex_C29_case. Qed.

(** Cell 0 is no interior cell, cell 2 is one. *)
Example C30_case :
  exists m : bo R, build 3 1 1 None 1%R (Some 7%R) None = Ok m /\ ~ In 0%Z (b_ids m) /\ In 2%Z (b_ids m).
Proof. exact ex_C30_case. Qed.

(** C31, full statement: if set_well raises, wells is unchanged.  This fails
    (next lemmas).  What holds: where all a well needs is there (supported flow
    directions, permeabilities, a radius), a call that raises changes nothing,
    and it raises exactly for cells that are not interior. *)
Theorem C31_failing_set_well_partial :
  forall (x : ws R) id q pwf r s, placeable x id r ->
  (forall y e, set_well (Some id) q pwf r s x = (y, Err e) -> y = x) /\
  (In id (b_ids (fst x)) <-> exists y, set_well (Some id) q pwf r s x = (y, Ok tt)).
Proof. exact L_C31_failing_set_well_partial. Qed.
Print Assumptions C31_failing_set_well_partial.

Example C31_case :
  exists m : bo R, build 3 1 1 None 1%R (Some 7%R) None = Ok m /\ placeable (m, None) 2%Z (Some 1%R).
Proof. exact ex_C31_case. Qed.

(** In any other flow direction every call on an interior cell raises, and
    leaves a well behind. *)
Theorem C31_other_axes :
  forall (x : ws R) id q pwf r s, wf (gr (geom (b_grid (fst x)))) -> ~ well_axes (gr (geom (b_grid (fst x)))) ->
  In id (b_ids (fst x)) -> dget id (b_wells (fst x)) = None ->
  exists y e, set_well (Some id) q pwf r s x = (y, Err e) /\ dget id (b_wells (fst y)) <> None.
Proof. exact L_C31_other_axes. Qed.
Print Assumptions C31_other_axes.

Example C31_other : exists m : bo Q, build 1 3 1 None 1%Q (Some 7%Q) None = Ok m /\
  wf (gr (geom (b_grid m))) /\ ~ well_axes (gr (geom (b_grid m))) /\ In 2%Z (b_ids m).
Proof. exact ex_C31_other. Qed.

(** The refutation, with exact rationals (whatever square root and logarithm):
    a call without a radius, and a call on a grid along y. *)
Theorem C31_failing_set_well_refuted :
  exists (m m' : bo Q), build 3 1 1 None 1%Q (Some 7%Q) None = Ok m /\ build 1 3 1 None 1%Q (Some 7%Q) None = Ok m' /\
  forall NT : NumT Q,
  (exists y, set_well (Some 2%Z) (Some 1%Q) None None None (m, None) = (y, Err KeyError) /\
     b_wells m = [] /\ dkeys (b_wells (fst y)) = [2%Z]) /\
  (exists y, set_well (Some 2%Z) (Some 1%Q) None (Some 1%Q) None (m', None) = (y, Err ValueError) /\
     b_wells m' = [] /\ dkeys (b_wells (fst y)) = [2%Z]).
Proof. exact L_C31_failing_set_well_refuted. Qed.
Print Assumptions C31_failing_set_well_refuted.

(** C32: the equivalent radius of the well of cell [id]. *)
Theorem C32_r_eq :
  forall (m : bo R) id kx dx dy, wf (gr (geom (b_grid m))) -> well_axes (gr (geom (b_grid m))) ->
  perm_at m AX id kx -> spacing_at m AX id dx -> spacing_at m AY id dy -> (0 < kx)%R -> (0 < dx)%R -> (0 < dy)%R ->
  (~ flows (gr (geom (b_grid m))) AY -> calc_well_r_eq m id = Ok (r_eq kx kx dx dy)) /\
  (forall ky, flows (gr (geom (b_grid m))) AY -> perm_at m AY id ky -> (0 < ky)%R ->
     calc_well_r_eq m id = Ok (r_eq kx ky dx dy) /\ (0 < r_eq kx ky dx dy)%R /\
     r_eq kx ky dx dy = r_eq ky kx dy dx) /\
  r_eq kx kx dx dy = (14 / 100 * sqrt (dx² + dy²))%R /\ (0 < r_eq kx kx dx dy)%R.
Proof. exact L_C32_r_eq. Qed.
Print Assumptions C32_r_eq.

Example C32_case :
  exists m : bo R, build 3 1 1 None 1%R (Some 7%R) None = Ok m /\ wf (gr (geom (b_grid m))) /\ well_axes (gr (geom (b_grid m))) /\
  perm_at m AX 2%Z 1%R /\ spacing_at m AX 2%Z 1%R /\ spacing_at m AY 2%Z 1%R.
Proof. exact ex_C32_case. Qed.

(** The well geometry factor: the productivity with the horizontal
    permeability kx (flow along x only) or the geometric mean of kx and ky. *)
Theorem C32_productivity :
  forall (m : bo R) id w kx h re r, wf (gr (geom (b_grid m))) -> well_axes (gr (geom (b_grid m))) ->
  perm_at m AX id kx -> spacing_at m AZ id h -> dget id (b_wells m) = Some w -> w_req w = Some re -> w_r w = Some r ->
  let s := match w_s w with Some s => s | None => 0%R end in
  (~ flows (gr (geom (b_grid m))) AY -> calc_well_G m id = Ok (productivity (b_tconv m) kx h re r s)) /\
  (forall ky, flows (gr (geom (b_grid m))) AY -> perm_at m AY id ky ->
     calc_well_G m id = Ok (productivity (b_tconv m) (sqrt (kx * ky)) h re r s)) /\
  (forall kH, 0 < b_tconv m -> 0 < kH -> 0 < h ->
     (0 < ln (12 * re / r) + s -> 0 < productivity (b_tconv m) kH h re r s) /\
     (forall s', 0 < ln (12 * re / r) + s -> s < s' ->
        productivity (b_tconv m) kH h re r s' < productivity (b_tconv m) kH h re r s))%R.
Proof. exact L_C32_productivity. Qed.
Print Assumptions C32_productivity.

(** A well of radius 1 with skin 1 in the middle cell. *)
Example C32_productivity_case :
  exists (m : bo R) y w re, build 3 1 1 None 1%R (Some 7%R) None = Ok m /\
  set_well (Some 2%Z) (Some 1%R) None (Some 1%R) (Some 1%R) (m, None) = (y, Ok tt) /\
  dget 2%Z (b_wells (fst y)) = Some w /\ w_req w = Some re /\ w_r w = Some 1%R /\ w_s w = Some 1%R /\
  perm_at (fst y) AX 2%Z 1%R /\ spacing_at (fst y) AZ 2%Z 1%R.
Proof. exact ex_C32_productivity_case. Qed.

(** C33, full statement: set_well(well=SingleCell(cell_id=c, q=q, r=r, s=s)) has
    the effect of set_well(cell_id=c, q=q, r=r, s=s).  It fails (below).  What
    holds for q, r, s other than 0 in a cell without a well: the two wells have
    the same rate, radius, skin, equivalent radius, geometry factor and pressure;
    missing: the control mode and the set point of the rate. *)
Theorem C33_well_object_partial :
  forall (x : ws R) id q r s y1 y2, q <> 0%R -> r <> 0%R -> s <> 0%R -> dget id (b_wells (fst x)) = None ->
  set_well_obj (single_cell_new (Some id) (Some q) (Some s) (Some r) None) None x = (y1, Ok tt) ->
  set_well (Some id) (Some q) None (Some r) (Some s) x = (y2, Ok tt) ->
  exists w1 w2, dget id (b_wells (fst y1)) = Some w1 /\ dget id (b_wells (fst y2)) = Some w2 /\
    w_q w1 = w_q w2 /\ w_r w1 = w_r w2 /\ w_s w1 = w_s w2 /\ w_req w1 = w_req w2 /\ w_G w1 = w_G w2 /\
    w_pwf w1 = w_pwf w2 /\ w_pwfsp w1 = w_pwfsp w2 /\
    (w_con w1 = Some None /\ w_qsp w1 = None) /\ (w_con w2 = Some (Some "q") /\ w_qsp w2 = Some q).
Proof. exact L_C33_well_object_partial. Qed.
Print Assumptions C33_well_object_partial.

(** In a row of three cells both calls succeed. *)
Example C33_case :
  exists (m : bo R) y1 y2, build 3 1 1 None 1%R (Some 7%R) None = Ok m /\ dget 2%Z (b_wells m) = None /\
  set_well_obj (mkSC (Some 2%Z) (Some 1%R) (Some 1%R) (Some 1%R) None) None (m, None) = (y1, Ok tt) /\
  single_cell_new (Some 2%Z) (Some 1%R) (Some 1%R) (Some 1%R) None = mkSC (Some 2%Z) (Some 1%R) (Some 1%R) (Some 1%R) None /\
  set_well (Some 2%Z) (Some 1%R) None (Some 1%R) (Some 1%R) (m, None) = (y2, Ok tt).
Proof. exact ex_C33_case. Qed.

(** The refutation: the well given as an object does not produce in the first
    step, with any square root and logarithm. *)
Theorem C33_well_object_refuted :
  exists m : bo Q, build 3 1 1 None 1%Q (Some 7%Q) None = Ok m /\
  forall NT : NumT Q, exists y1 y2,
  set_well_obj (single_cell_new (Some 2%Z) (Some 1%Q) (Some 1%Q) (Some 1%Q) None) None (m, None) = (y1, Ok tt) /\
  set_well (Some 2%Z) (Some 1%Q) None (Some 1%Q) (Some 1%Q) (m, None) = (y2, Ok tt) /\
  right_side (get_matrices_vect (fst y1, fdm_new (fst y1))) = Some [Some (-7); Some (-7); Some (-7)]%Q /\
  right_side (get_matrices_vect (fst y2, fdm_new (fst y2))) = Some [Some (-7); Some (-8); Some (-7)]%Q.
Proof. exact L_C33_well_object_refuted. Qed.
Print Assumptions C33_well_object_refuted.
