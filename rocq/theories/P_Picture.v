(** Property theorems (each one a lemma proved in [PictureThm.v]), the assumptions they
    rest on, and for each a concrete case meeting its hypotheses. *)
From Coq Require Import String ZArith QArith Reals Bool Arith Lia Lra List.
From Verif Require Import Prelude PreludeFacts Num GridModel GridSpec GridProofs GeoModel PropModel PropProofs BlackOilModel FdmModel ModelFacts ScaleRange QueryFacts GridNeighbors GeoSpec GeoProofs GeoThm FormatModel FormatThm HistSpec Samples SampleFacts SolverSpec SampleWell StepSpec StepFacts StepThm WellStepFacts RadiusFacts PictureModel PictureSpec.
Import ListNotations.
Close Scope Q_scope. Open Scope R_scope.
From Verif Require Import PictureThm.
Close Scope Q_scope. Open Scope R_scope.

(** C129: a picture of pressures or rates (any of their names, in capitals or not)
    shows in every frame the values of that step, the k-th value being that of the
    k-th cell of the drawn grid; other names are rejected. *)
Theorem C129_values :
  forall (g : grid) (s : fs R) (prop : string) (b : bool) (rows : list (list (fl R))), wf g ->
    ((In (lower prop) ["p"; "pressure"; "pressures"]%string /\ rows = s_p s) \/ (In (lower prop) ["q"; "rate"; "rates"]%string /\ rows = s_r s)) ->
    (forall row, In row rows -> length row = get_n g true) ->
    exists v ids, get_model_values g s prop b = Ok v /\ get_cells_id g b = Ok ids /\ length v = length rows /\
      forall t row, nth_error rows t = Some row ->
        exists out, nth_error v t = Some out /\ length out = length ids /\
          forall k id, nth_error ids k = Some id -> nth_error out k = nth_error row (Z.to_nat id) /\ (Z.to_nat id < length row)%nat.
Proof. exact L_C129_values. Qed.
Print Assumptions C129_values.

Example C129_values_case :
  let g := mkGrid 2 1 1 false in
  let s := mkFs [[Some 1; Some 2; Some 3; Some 4]] [[Some 5; Some 6; Some 7; Some 8]] 1 0 [] [] None [] [] None None None in
  wf g /\ In (lower "Pressure") ["p"; "pressure"; "pressures"]%string /\ get_model_values g s "Pressure" false = Ok [[Some 2; Some 3]].
Proof. exact ex_C129_values_case. Qed.

Theorem C129_names :
  forall F (NF : Num F) (g : grid) (s : fs F) (prop : string) (b : bool),
    ~ In (lower prop) ["p"; "pressure"; "pressures"; "q"; "rate"; "rates"]%string -> get_model_values g s prop b = Err ValueError.
Proof. exact L_C129_names. Qed.
Print Assumptions C129_names.

Example C129_names_case :
  ~ In (lower "Saturation") ["p"; "pressure"; "pressures"; "q"; "rate"; "rates"]%string.
Proof. exact ex_C129_names_case. Qed.

(** C129: the colours range from the least to the greatest number shown in any step;
    two decimals are written exactly if one of the numbers is below 1. *)
Theorem C129_limits :
  forall values : list (fl R), (exists x, In (Some x) values) ->
    exists lo hi fmt, get_limits_fmt values = Ok (Some lo, Some hi, fmt) /\ In (Some lo) values /\ In (Some hi) values /\
      (forall x, In (Some x) values -> lo <= x <= hi) /\ (fmt = "%.2f"%string <-> exists x, In (Some x) values /\ x < 1).
Proof. exact L_C129_limits. Qed.
Print Assumptions C129_limits.

Example C129_limits_case :
  exists x, In (Some x) [None; Some 2; Some 3].
Proof. exact ex_C129_limits_case. Qed.

(** C129: the colour bar marks the least, the mean and the greatest number, if there
    are two different numbers. *)
Theorem C129_marks_partial :
  forall values : list (fl R), (exists x y, In (Some x) values /\ In (Some y) values /\ x <> y) ->
    exists lo hi av, get_annotations values = Ok [(Some lo, "min"); (Some hi, "max"); (Some av, "avg")]%string /\
      In (Some lo) values /\ In (Some hi) values /\ (forall x, In (Some x) values -> lo <= x <= hi) /\
      lo < av < hi /\ is_mean av (numbers values).
Proof. exact L_C129_marks_partial. Qed.
Print Assumptions C129_marks_partial.

Example C129_marks_case :
  exists x y, In (Some x) [None; Some 2; Some 3] /\ In (Some y) [None; Some 2; Some 3] /\ x <> y.
Proof. exact ex_C129_marks_case. Qed.

(** C129: in a picture of one number only, least and greatest are not marked. *)
Theorem C129_marks_refuted :
  forall c : R, exists values : list (fl R), In (Some c) values /\ get_annotations values = Ok [(Some c, "avg"%string)].
Proof. exact L_C129_marks_refuted. Qed.
Print Assumptions C129_marks_refuted.

(** C129: the camera looks at a plane of two axes; with at most two flow directions
    the flow is in that plane. *)
Theorem C129_camera :
  forall g : grid, wf g ->
    (exists a b, get_cdir g = [a; b] /\ a <> b /\ a <> ADash /\ b <> ADash) /\
    ((get_D g <= 2)%nat -> forall a, flows g a -> In a (get_cdir g)).
Proof. exact L_C129_camera. Qed.
Print Assumptions C129_camera.

Example C129_camera_case :
  wf (mkGrid 1 1 3 true) /\ get_fdir (mkGrid 1 1 3 true) = [AZ] /\ get_cdir (mkGrid 1 1 3 true) = [AX; AZ].
Proof. exact ex_C129_camera_case. Qed.

(** C129: the window's size depends on the name of the resolution up to capitals. *)
Theorem C129_window :
  forall r r' : string, lower r = lower r' -> get_window_size r = get_window_size r'.
Proof. exact L_C129_window. Qed.
Print Assumptions C129_window.

Example C129_window_case :
  lower "FHD" = lower "fhd" /\ get_window_size "FHD" = Ok (1920, 1080)%Z.
Proof. exact ex_C129_window_case. Qed.

(** C129: "8k" has twice the width of "4k", as "4k" has that of "fhd", but not twice the height. *)
Theorem C129_window_refuted :
  exists w h w' h' w'' h'' : Z, (get_window_size "fhd" = Ok (w, h)) /\ (get_window_size "4k" = Ok (w', h')) /\ (get_window_size "8k" = Ok (w'', h'')) /\
    w' = (2 * w)%Z /\ h' = (2 * h)%Z /\ w'' = (2 * w')%Z /\ h'' <> (2 * h')%Z.
Proof. exact L_C129_window_refuted. Qed.
Print Assumptions C129_window_refuted.

(** C129: the labels of a grid stand at the centres of the cells they belong to. *)
Theorem C129_labels_partial :
  forall x y z u (dx dy dz : dinput R) (G : geo R) (b : bool) (opacity : R), geo_new x y z u dx dy dz = Ok G -> opacity < 1 ->
    exists ids points, get_cells_id (gr G) b = Ok ids /\ Forall2 (fun id p => get_cell_center G (ById id) = Ok p) ids points /\
      (add_grid_labels G (Some "id"%string) opacity b = Ok (Some (points, Some (LbIds ids)))) /\
      (exists cs, add_grid_labels G (Some "coords"%string) opacity b = Ok (Some (points, Some (LbCoords cs))) /\
         Forall2 (fun id c => get_cell_coords (gr G) id true = Ok c) ids cs) /\
      (forall a name, In (a, name) [(AX, "dx"); (AY, "dy"); (AZ, "dz")]%string ->
         exists vs, add_grid_labels G (Some name) opacity b = Ok (Some (points, Some (LbNumbers vs))) /\
           Forall2 (fun id v => get_cell_d G a (ById id) = Ok v) ids vs) /\
      (forall a name, In (a, name) [(AX, "Ax"); (AX, "area_x"); (AY, "Ay"); (AY, "area_y"); (AZ, "Az"); (AZ, "area_z")]%string ->
         exists vs, add_grid_labels G (Some name) opacity b = Ok (Some (points, Some (LbNumbers vs))) /\
           Forall2 (fun id v => get_cell_A G a (ById id) = Ok v) ids vs) /\
      (forall name, In name ["V"; "volume"]%string ->
         exists vs, add_grid_labels G (Some name) opacity b = Ok (Some (points, Some (LbNumbers vs))) /\
           Forall2 (fun id v => get_cell_V G (ById id) = Ok v) ids vs) /\
      (forall name, In name ["center"; "centers"]%string -> add_grid_labels G (Some name) opacity b = Ok (Some (points, Some (LbPoints points)))) /\
      add_grid_labels G (Some "sphere"%string) opacity b = Ok (Some (points, None)) /\
      add_grid_labels G None opacity b = Ok None.
Proof. exact L_C129_labels_partial. Qed.
Print Assumptions C129_labels_partial.

Example C129_labels_case :
  exists G : geo R, geo_new 2 1 1 true (Scalar 1) (Scalar 2) (Scalar 3) = Ok G /\ 1/2 < 1.
Proof. exact ex_C129_labels_case. Qed.

(** C129: label "icoords" shows every cell's coordinates for numpy, for all cells if
    the grid has three flow directions or keeps three coordinates (unify), else for the
    interior cells. *)
Theorem C129_icoords_partial :
  forall x y z u (dx dy dz : dinput R) (G : geo R) (b : bool) (opacity : R), geo_new x y z u dx dy dz = Ok G -> opacity < 1 ->
    u = true \/ three_d (gr G) \/ b = false ->
    exists ids points ls, get_cells_id (gr G) b = Ok ids /\ Forall2 (fun id p => get_cell_center G (ById id) = Ok p) ids points /\
      (add_grid_labels G (Some "icoords"%string) opacity b = Ok (Some (points, Some (LbICoords ls)))) /\
      Forall2 (fun id l => exists c, get_cell_coords (gr G) id true = Ok c /\ l = shown_coords (gr G) c) ids ls.
Proof. exact L_C129_icoords_partial. Qed.
Print Assumptions C129_icoords_partial.

Example C129_icoords_case :
  exists G : geo R, geo_new 2 1 1 false (Scalar 1) (Scalar 2) (Scalar 3) = Ok G /\ 1/2 < 1 /\ shown_coords (gr G) (2, 0, 0)%Z = [2%Z].
Proof. exact ex_C129_icoords_case. Qed.

(** C129: label "icoords", which the documentation offers, cannot be shown for the
    boundary cells of a grid with one or two flow directions without unify. *)
Theorem C129_labels_refuted :
  forall x y z (dx dy dz : dinput R) (G : geo R) (opacity : R), geo_new x y z false dx dy dz = Ok G -> opacity < 1 ->
    has_flow (gr G) -> ~ three_d (gr G) -> add_grid_labels G (Some "icoords"%string) opacity true = Err AssertionError.
Proof. exact L_C129_labels_refuted. Qed.
Print Assumptions C129_labels_refuted.

Example C129_labels_fail :
  exists G : geo R, geo_new 2 1 1 false (Scalar 1) (Scalar 2) (Scalar 3) = Ok G /\ 1/2 < 1 /\ has_flow (gr G) /\ ~ three_d (gr G).
Proof. exact ex_C129_labels_fail. Qed.

(** C129: every well is drawn as an upright cylinder with the well's radius, ten times
    as high as its cell, through the centre of its cell. *)
Theorem C129_wells :
  forall x y z u (dx dy dz : dinput R) (G : geo R) (half : R -> R) (wells : list (Z * well R)), geo_new x y z u dx dy dz = Ok G ->
    (forall id w, In (id, w) wells -> (0 <= id < Z.of_nat (get_n (gr G) true))%Z /\ w_r w <> None) ->
    exists cylinders, add_wells half G wells = Ok cylinders /\
      Forall2 (fun iw cyl => exists cx cy cz d r, get_cell_center G (ById (fst iw)) = Ok (cx, cy, cz) /\ get_cell_d G AZ (ById (fst iw)) = Ok d /\
        w_r (snd iw) = Some r /\ cyl = ((cx, cy, cz + half (d * 10)), r, d * 10)) wells cylinders.
Proof. exact L_C129_wells. Qed.
Print Assumptions C129_wells.

Example C129_wells_case :
  exists G : geo R, geo_new 2 1 1 true (Scalar 1) (Scalar 2) (Scalar 3) = Ok G /\
  forall id w, In (id, w) [(1%Z, mkWell None None None None None (Some 3) None None None)] -> (0 <= id < Z.of_nat (get_n (gr G) true))%Z /\ w_r w <> None.
Proof. exact ex_C129_wells_case. Qed.

(** C129: all wells placed in any sequence of successful calls are drawn so. *)
Theorem C129_wells_drawn :
  forall x y z u (dx dy dz : dinput R) (half : R -> R) (m0 m : bo R) so l, geo_new x y z u dx dy dz = Ok (geom (b_grid m0)) ->
    get_cells_id (bgrid m0) false = Ok (b_ids m0) -> b_wells m0 = [] -> all_ok (m0, None) l -> after (m0, None) l = (m, so) ->
    let G := geom (b_grid m0) in
    exists cylinders, add_wells half G (b_wells m) = Ok cylinders /\
      Forall2 (fun iw cyl => exists cx cy cz d r, get_cell_center G (ById (fst iw)) = Ok (cx, cy, cz) /\ get_cell_d G AZ (ById (fst iw)) = Ok d /\
        w_r (snd iw) = Some r /\ cyl = ((cx, cy, cz + half (d * 10)), r, d * 10)) (b_wells m) cylinders.
Proof. exact L_C129_wells_drawn. Qed.
Print Assumptions C129_wells_drawn.

Example C129_wells_drawn_case :
  exists (m0 m : bo R) s, geo_new 3 1 1 true (Scalar 1) (Scalar 1) (Scalar 1) = Ok (geom (b_grid m0)) /\ get_cells_id (bgrid m0) false = Ok (b_ids m0) /\ b_wells m0 = [] /\
    all_ok (m0, None) [set_q; Compile] /\ after (m0, None) [set_q; Compile] = (m, Some s) /\ b_wells m <> [].
Proof. exact ex_C129_wells_drawn_case. Qed.

(** C129: the frames of an animation are all the steps of the simulation in their
    order, after calls without errors and without direct calls of solve. *)
Theorem C129_frames_partial :
  forall F (NF : Num F) (NT : NumT F) (m0 : bo F) l m s g prop b v, all_ok (m0, None) l -> after (m0, None) l = (m, Some s) -> Forall no_solve l ->
    get_model_values g s prop b = Ok v -> gif_frames g s prop b = Ok v /\ length v = length (s_p s).
Proof. exact L_C129_frames_partial. Qed.
Print Assumptions C129_frames_partial.

Example C129_frames_case :
  exists (m0 : bo R) m s, build 3 1 1 None 1%R (Some 10%R) None = Ok m0 /\
  let l := [Compile; Run (fun _ _ _ => Ok [Some 10%R; Some 10%R; Some 10%R]) one 3 9 true false true false false None] in
  all_ok (m0, None) l /\ Forall no_solve l /\ after (m0, None) l = (m, Some s) /\ s_tstep s = 3%nat.
Proof. exact ex_C129_frames_case. Qed.

(** C129: after a direct call of solve the animation lacks the last step. *)
Theorem C129_frames_refuted :
  exists (m0 : bo R) slv sc m s (v w : list (list (fl R))), build 3 1 1 None 1%R (Some 10%R) None = Ok m0 /\
  let l := [Compile; Solve slv sc 9 true (mkOpts false true false true false None)] in
  all_ok (m0, None) l /\ after (m0, None) l = (m, Some s) /\
  get_model_values (mkGrid 3 1 1 true) s "p" true = Ok v /\ gif_frames (mkGrid 3 1 1 true) s "p" true = Ok w /\ length v = 2%nat /\ length w = 1%nat.
Proof. exact L_C129_frames_refuted. Qed.
Print Assumptions C129_frames_refuted.
