(** Property theorems (each one a lemma proved in [ScaleThm.v]), the assumptions they
    rest on, and for each a concrete case meeting its hypotheses. *)
From Coq Require Import String Ascii ZArith Bool Arith List Lia Reals Lra QArith.
From Verif Require Import Prelude PreludeFacts TabFacts Num GridModel GridSpec GridProofs GeoModel GeoSpec GeoProofs PropModel UnitsModel BlackOilModel FdmModel
  HistSpec InvFacts MonadFacts Samples SampleFacts SampleWell SampleLimit QSamples FrameModel FrameSpec FrameFacts FrameThm ScalerModel ScalerSpec ScalerThm ScaleModel ScaleSpec ScaleFacts ScaleState ScaleFull ScaleRange.
Import ListNotations.
Close Scope Q_scope. Close Scope R_scope.
Open Scope nat_scope.
From Verif Require Import ScaleThm.
Close Scope Q_scope. Close Scope R_scope.
Open Scope nat_scope.

(** C98: names with units.  get_df(units=True) gives the same rows, columns and values
    as get_df(units=False), or the same exception, for every model, selection and
    options and after any calls reading or setting the scalers; only each name has its
    unit added, or [scaled] exactly if the values are scaled.  The units must have
    entries for time, rate and pressure (as all tables of the package have). *)
Theorem C98_units :
  forall (F : Type) (NF : Num F) (NC : NumC F) (m : bo F) so un calls cols b melt scale dn dz,
  Forall (fun k => sget k un <> None) ["time"; "rate"; "pressure"]%string ->
  let S := dafter scalers_new calls in
  match snd (get_df_s m so un cols b false melt scale dn dz S) with
  | Ok df => snd (get_df_s m so un cols b true melt scale dn dz S) = Ok (renamed (labelled un (fun q => scale && has_scaler S q)) df)
  | Err e => snd (get_df_s m so un cols b true melt scale dn dz S) = Err e
  end.
Proof. exact L_C98_units. Qed.
Print Assumptions C98_units.

(** ... and with neither units nor scaling the frame is the plain one of C71, C84 and
    C85. *)
Theorem C98_plain :
  forall (F : Type) (NF : Num F) (NC : NumC F) (m : bo F) so un cols b melt dn dz (S : scalers (fl F)),
  get_df_s m so un cols b false melt false dn dz S = (S, FrameModel.get_df m so cols b melt dn dz).
Proof. exact L_C98_plain. Qed.
Print Assumptions C98_plain.

(** The metric units name all three quantities; the labels of a new model. *)
Example C98_case : Forall (fun k => sget k (sfind "metric" UNITS) <> None) ["time"; "rate"; "pressure"]%string /\
  map (labelled (sfind "metric" UNITS) (fun _ => false)) ["Time"; "Q1"; "Pwf2"; "Step"]%string = ["Time [days]"; "Q1 [m^3/day]"; "Pwf2 [kpa]"; "Step"]%string /\
  map (labelled (sfind "metric" UNITS) (fun q => true && has_scaler (@scalers_new R Num_R) q)) ["Time"; "Q1"; "Pwf2"; "Step"]%string = ["Time [scaled]"; "Q1 [m^3/day]"; "Pwf2 [scaled]"; "Step"]%string.
Proof. exact ex_C98_case. Qed.

(** C101: what is read does not depend on what was read before.  With the same model,
    solution and settings of the scalers, the scaled times, centres, domains and frames
    are the same, whatever scaled or plain data was read (of this or of earlier states
    of the model) or fitted in between. *)
Theorem C101_repeatable :
  forall (F : Type) (NF : Num F) (NC : NumC F) (S : scalers (fl F)) calls, Forall reads calls ->
  (forall m so scale, snd (get_time_s m so scale (dafter S calls)) = snd (get_time_s m so scale S)) /\
  (forall m scale b, snd (get_centers_s m scale b (dafter S calls)) = snd (get_centers_s m scale b S)) /\
  (forall m so scale b, snd (get_domain_s m so scale b (dafter S calls)) = snd (get_domain_s m so scale b S)) /\
  (forall m so un cols b units melt scale dn dz, snd (get_df_s m so un cols b units melt scale dn dz (dafter S calls)) = snd (get_df_s m so un cols b units melt scale dn dz S)).
Proof. exact L_C101_repeatable. Qed.
Print Assumptions C101_repeatable.

(** Reading a frame before the first step, then times: these calls only read. *)
Example C101_case : forall (m : bo R) s, Forall reads [DFrame m (Some (of_fdm s)) [] ["cells_pressure"%string] true false false true false false; DUpdate m None true; DTime m (Some (of_fdm s)) true].
Proof. exact ex_C101_case. Qed.

(** C100: scaled times.  With a scaler to [a, b], the scaled times of a solution with
    at least one step run evenly from a to b; before the first step the only one is
    missing (0/0). *)
Theorem C100_time :
  forall (m : bo R) (s : fs R) S a b, (0 < b_dt m)%R -> scales_to S QTime a b ->
  exists l, snd (get_time_s m (Some (of_fdm s)) true S) = Ok l /\ length l = s_tstep s + 1 /\
  (0 < s_tstep s -> forall t, t <= s_tstep s -> nth_error l t = Some (Some (a + (b - a) * (INR t / INR (s_tstep s)))%R)) /\
  (s_tstep s = 0 -> l = [None]).
Proof. exact L_C100_time. Qed.
Print Assumptions C100_time.

(** ... scaled centres: every coordinate is mapped from the range of all cell centres,
    with the boundary cells even if only the others are asked for ... *)
Theorem C100_centers :
  forall x y z u (dx dy dz : dinput R) kx ky kz phi zz comp T g (m : bo R) b pts all S fx,
  gobj_new x y z u dx dy dz kx ky kz phi zz comp T = Ok g -> b_grid m = g -> has_flow (ggrid g) ->
  get_cells_center (geom g) b = Ok pts -> get_cells_center (geom g) true = Ok all ->
  (forall d, In d (get_fdir (ggrid g)) -> maps S QSpace (coords all d) (fx (axis_name d))) ->
  snd (get_centers_s m true b S) =
    Ok (map (fun p => map (fun d => Some (fx (axis_name d) (coord_of d p))) (get_fdir (ggrid g))) pts, get_fdir (ggrid g)).
Proof. exact L_C100_centers. Qed.
Print Assumptions C100_centers.

(** ... and get_domain gives the two, whatever is asked for. *)
Theorem C100_domain :
  forall (F : Type) (NF : Num F) (NC : NumC F) (m : bo F) so scale b (S : scalers (fl F)),
  match snd (get_time_s m so scale S), snd (get_centers_s m scale b S) with
  | Ok t, Ok c => snd (get_domain_s m so scale b S) = Ok (t, fst c)
  | Err e, _ => snd (get_domain_s m so scale b S) = Err e
  | Ok _, Err e => snd (get_domain_s m so scale b S) = Err e
  end.
Proof. exact L_C100_domain. Qed.
Print Assumptions C100_domain.

(** A new model scales times to [0, 1] and centres to [-1, 1] (for the centres of a grid
    and their range see the case of C99). *)
Example C100_case : scales_to (@scalers_new R Num_R) QTime 0 1 /\ scales_to (@scalers_new R Num_R) QSpace (-1) 1.
Proof. exact ex_C100_case. Qed.

(** C99: scaled values.  After a history of accepted calls, get_df(scale=True) gives the
    rows and columns of the plain frame (C71, C84) with every number mapped by its kind:
    times from the range of the recorded times, coordinates from the range of all cell
    centres, pressures and rates from the least to the greatest recorded value of the
    cells where it is not constantly zero, each to the range set for it; kinds without
    scaler, dates, ids and steps are unchanged.  Each range must have two values, and no
    cell may have its value at some steps only. *)
Theorem C99_scaled_partial :
  forall x y z u (dx dy dz : dinput R) kx ky kz phi zz comp T g f unit pi dt (m0 : bo R) l m s ids pts S ft fp fr fx un cols b melt df,
  gobj_new x y z u dx dy dz kx ky kz phi zz comp T = Ok g -> bo_new g f unit pi dt = Ok m0 -> has_flow (ggrid g) -> (0 < dt)%R ->
  all_ok (m0, None) l -> after (m0, None) l = (m, Some s) ->
  get_cells_id (ggrid g) true = Ok ids -> get_cells_center (geom g) true = Ok pts ->
  maps S QTime (times_of dt s) ft ->
  maps S QPressure (counts (s_p s) s ids) fp -> (has_scaler S QPressure = true -> complete (s_p s) s ids) ->
  maps S QRate (counts (s_r s) s (ids ++ dkeys (b_wells m))) fr -> (has_scaler S QRate = true -> complete (s_r s) s (ids ++ dkeys (b_wells m))) ->
  (forall d, In d (get_fdir (ggrid g)) -> maps S QSpace (coords pts d) (fx (axis_name d))) ->
  (forall n, ~ In n (map axis_name (get_fdir (ggrid g))) -> forall v, fx n v = v) ->
  frame_of (m, Some s) cols b melt = Ok df ->
  snd (get_df_s m (Some (of_fdm s)) un cols b false melt true false false S) = Ok (changed (rescaled ft fp fr fx) df).
Proof. exact L_C99_scaled_partial. Qed.
Print Assumptions C99_scaled_partial.

(** A run of one step with new scalers meets the hypotheses of C99. *)
Example C99_case : exists g f (m0 : bo R) m s ids pts,
  gobj_new 3 1 1 true (Scalar 1%R) (Scalar 1%R) (Scalar 1%R) (Some (Scalar 1%R)) (Some (Scalar 1%R)) (Some (Scalar 1%R)) (Some (Scalar 1%R)) None None 1%R = Ok g /\
  bo_new g f "metric" (Some 10%R) 1%R = Ok m0 /\ has_flow (ggrid g) /\
  (let l := [Compile; Run (fun _ _ _ => Ok [Some 10%R; Some 11%R; Some 12%R]) one 1 9 true false true false false None] in
   all_ok (m0, None) l /\ after (m0, None) l = (m, Some s)) /\
  get_cells_id (ggrid g) true = Ok ids /\ get_cells_center (geom g) true = Ok pts /\
  let S := @scalers_new R Num_R in
  maps S QTime (times_of 1 s) (affine 0 1 0 1) /\
  maps S QPressure (counts (s_p s) s ids) (affine (-1) 1 10 12) /\ complete (s_p s) s ids /\
  maps S QRate (counts (s_r s) s (ids ++ dkeys (b_wells m))) (fun v => v) /\ has_scaler S QRate = false /\
  (forall d, In d (get_fdir (ggrid g)) -> maps S QSpace (coords pts d) (affine (-1) 1 (1 / 2) (9 / 2))) /\
  exists df, frame_of (m, Some s) ["Time"; "cells_pressure"]%string true false = Ok df.
Proof. exact ex_C99_case. Qed.

(** C99 fails where a range has one value: directly after compile, all scaled times and
    pressures are missing, though the plain frame has them all ... *)
Theorem C99_start_refuted :
  exists m0 : bo Q, build 3 1 1 None 1%Q (Some 10%Q) None = Ok m0 /\ forall NT : NumT Q,
  let x := after (m0, None) [Compile] in let so := option_map (@of_fdm Q) (snd x) in
  all_ok (m0, None) [Compile] /\ exists plain scaled,
  get_df_s (fst x) so [] ["Time"; "cells_pressure"]%string false false false false false false scalers_new = (scalers_new, Ok plain) /\
  f_cols plain = [("Time", [VNum 0%Q]); ("P1", [VNum 10%Q]); ("P2", [VNum 10%Q]); ("P3", [VNum 10%Q])]%string /\
  snd (get_df_s (fst x) so [] ["Time"; "cells_pressure"]%string false false false true false false scalers_new) = Ok scaled /\
  f_cols scaled = [("Time", [VNan]); ("P1", [VNan]); ("P2", [VNan]); ("P3", [VNan])]%string.
Proof. exact L_C99_start_refuted. Qed.
Print Assumptions C99_start_refuted.

(** ... and where a cell has its value at some steps only: a pressure set at a boundary
    after a step makes every scaled pressure missing. *)
Theorem C99_boundary_refuted :
  exists m0 : bo Q, build 3 1 1 None 1%Q (Some 10%Q) None = Ok m0 /\ forall NT : NumT Q,
  let step := Solve (fun _ _ _ => Ok [Some 10%Q; Some 11%Q; Some 12%Q]) oneQ 9 true (mkOpts false true false true false None) in
  let pressures l := match snd (get_df_s (fst (after (m0, None) l)) (option_map (@of_fdm Q) (snd (after (m0, None) l))) [] ["cells_pressure"%string] false false false true false false scalers_new)
    with Ok df => f_cols df | Err _ => [] end in
  all_ok (m0, None) [Compile; step; Set_boundary 0%Z "pressure" 20%Q] /\
  pressures [Compile; step] = [("P1", [VNum (-1 # 1)%Q; VNum (-1 # 1)%Q]); ("P2", [VNum (-1 # 1)%Q; VNum (0 # 1)%Q]); ("P3", [VNum (-1 # 1)%Q; VNum (1 # 1)%Q])]%string /\
  pressures [Compile; step; Set_boundary 0%Z "pressure" 20%Q] = [("P1", [VNan; VNan]); ("P2", [VNan; VNan]); ("P3", [VNan; VNan])]%string.
Proof. exact L_C99_boundary_refuted. Qed.
Print Assumptions C99_boundary_refuted.

(** It raises where a kind to scale has no value at all (no initial pressure) and for a
    grid of one cell, also if only the times are asked for. *)
Theorem C99_raises_refuted :
  exists m1 m2 : bo Q, build 3 1 1 None 1%Q None None = Ok m1 /\ build 1 1 1 None 1%Q (Some 10%Q) None = Ok m2 /\ forall NT : NumT Q,
  let frame m scale := let x := after (m, None) [Compile] in snd (get_df_s (fst x) (option_map (@of_fdm Q) (snd x)) [] ["Time"%string] true false false scale false false scalers_new) in
  all_ok (m1, None) [Compile] /\ (exists df, frame m1 false = Ok df) /\ frame m1 true = Err ValueError /\
  all_ok (m2, None) [Compile] /\ (exists df, frame m2 false = Ok df) /\ frame m2 true = Err IndexError.
Proof. exact L_C99_raises_refuted. Qed.
Print Assumptions C99_raises_refuted.

(** C102: the configured range.  Under the conditions of C99, if no cell has the
    constant pressure zero, the scaled cell pressures lie between the ends of the range
    set for pressures, and both ends occur. *)
Theorem C102_range_partial :
  forall x y z u (dx dy dz : dinput R) kx ky kz phi zz comp T g f unit pi dt (m0 : bo R) l m s ids idb pts S ft fr fx a b lo hi un bd,
  gobj_new x y z u dx dy dz kx ky kz phi zz comp T = Ok g -> bo_new g f unit pi dt = Ok m0 -> has_flow (ggrid g) -> (0 < dt)%R ->
  all_ok (m0, None) l -> after (m0, None) l = (m, Some s) ->
  get_cells_id (ggrid g) true = Ok ids -> get_cells_id (ggrid g) bd = Ok idb -> get_cells_center (geom g) true = Ok pts ->
  maps S QTime (times_of dt s) ft ->
  scales_to S QPressure a b -> (a <= b)%R -> range_is (counts (s_p s) s ids) lo hi -> (lo < hi)%R -> complete (s_p s) s ids ->
  (forall id t v, In id idb -> In t (steps_of s) -> value_at (s_p s) t id = VNum v -> counts (s_p s) s ids v) ->
  maps S QRate (counts (s_r s) s (ids ++ dkeys (b_wells m))) fr -> (has_scaler S QRate = true -> complete (s_r s) s (ids ++ dkeys (b_wells m))) ->
  (forall d, In d (get_fdir (ggrid g)) -> maps S QSpace (coords pts d) (fx (axis_name d))) ->
  (forall n, ~ In n (map axis_name (get_fdir (ggrid g))) -> forall v, fx n v = v) ->
  exists df, snd (get_df_s m (Some (of_fdm s)) un ["cells_pressure"%string] bd false false true false false S) = Ok df /\
  map fst (f_cols df) = map (fun id => ("P" ++ str_of id)%string) idb /\
  (forall c v, In c (f_cols df) -> In v (snd c) -> v = VNan \/ exists r, v = VNum r /\ (a <= r <= b)%R) /\
  (bd = true -> (exists c, In c (f_cols df) /\ In (VNum a) (snd c)) /\ (exists c, In c (f_cols df) /\ In (VNum b) (snd c))).
Proof. exact L_C102_range_partial. Qed.
Print Assumptions C102_range_partial.

(** The case above also has all pressures counted. *)
Example C102_case : exists (m : bo R) s, let l := [Compile; Run (fun _ _ _ => Ok [Some 10%R; Some 11%R; Some 12%R]) one 1 9 true false true false false None] in
  (all_ok (line3 (1 + 0) true (Some 10%R), None) l /\ after (line3 (1 + 0) true (Some 10%R), None) l = (m, Some s)) /\
  forall id t v, In id [0; 1; 2; 3; 4]%Z -> In t (steps_of s) -> value_at (s_p s) t id = VNum v -> counts (s_p s) s [0; 1; 2; 3; 4]%Z v.
Proof. exact ex_C102_case. Qed.

(** C102 fails for bottom-hole pressures, which are scaled by the range of the cell
    pressures: a well with the pressure 12 and cells from 10 to 11 give the scaled
    pressure 3 for the range [-1, 1] ... *)
Theorem C102_wells_refuted :
  exists (m0 : bo R) m s df c, build 3 1 1 None 1%R (Some 10%R) None = Ok m0 /\
  (let l := [feeder; Compile; Solve (fun _ _ _ => Ok [Some 10%R; Some 10%R; Some 11%R]) one 9 true (mkOpts false true false true false None)] in
   all_ok (m0, None) l /\ after (m0, None) l = (m, Some s)) /\
  scales_to scalers_new QPressure (-1) 1 /\
  snd (get_df_s m (Some (of_fdm s)) [] ["wells_pressure"%string] true false false true false false scalers_new) = Ok df /\
  In ("Pwf2"%string, c) (f_cols df) /\ In (VNum 3%R) c.
Proof. exact L_C102_wells_refuted. Qed.
Print Assumptions C102_wells_refuted.

(** ... and for rates: cells without flow are left out of the range, and their rate zero
    is outside it.  Here -1 for the range [0, 1]. *)
Theorem C102_rates_refuted :
  exists m0 : bo Q, build 3 1 1 None 1%Q (Some 10%Q) None = Ok m0 /\ forall NT : NumT Q,
  let l := [Set_boundary 0%Z "rate" 10%Q; Set_boundary 4%Z "rate" 20%Q; Compile] in
  let x := after (m0, None) l in
  let S := dafter scalers_new [DSet [("rate"%string, (Some "MinMax"%string, Some (Some 0%Q, Some 1%Q)))]] in
  all_ok (m0, None) l /\
  match snd (get_df_s (fst x) (option_map (@of_fdm Q) (snd x)) [] ["cells_rate"%string] true false false true false false S) with
  | Ok df => f_cols df = [("Q0", [VNum 0%Q]); ("Q1", [VNum (-1 # 1)%Q]); ("Q2", [VNum (-1 # 1)%Q]); ("Q3", [VNum (-1 # 1)%Q]); ("Q4", [VNum 1%Q])]%string
  | Err _ => False
  end.
Proof. exact L_C102_rates_refuted. Qed.
Print Assumptions C102_rates_refuted.

(** C103 (refuted): drop_zero leaves out only columns that are zero at all steps.  With
    scaling it also leaves out columns whose scaled value is zero: here a cell with the
    pressure 11, in the middle between 10 and 12. *)
Theorem C103_drop_zero_refuted :
  exists m0 : bo Q, build 3 1 1 None 1%Q (Some 11%Q) None = Ok m0 /\ forall NT : NumT Q,
  let l := [Compile; Solve (fun _ _ _ => Ok [Some 10%Q; Some 11%Q; Some 12%Q]) oneQ 9 true (mkOpts false true false true false None)] in
  let x := after (m0, None) l in
  let columns scale := match snd (get_df_s (fst x) (option_map (@of_fdm Q) (snd x)) [] ["cells_pressure"%string] false false false scale false true scalers_new) with Ok df => map fst (f_cols df) | Err _ => [] end in
  all_ok (m0, None) l /\ columns false = ["P1"; "P2"; "P3"]%string /\ columns true = ["P1"; "P3"]%string.
Proof. exact L_C103_drop_zero_refuted. Qed.
Print Assumptions C103_drop_zero_refuted.

(** Missing: frames with scaled values.  Without scaling exactly the columns with an
    entry other than zero are kept. *)
Theorem C103_drop_zero_partial :
  forall (m : bo R) so un cols b S df, snd (get_df_s m so un cols b false false false false false S) = Ok df ->
  exists df', snd (get_df_s m so un cols b false false false false true S) = Ok df' /\ f_rows df' = f_rows df /\
  forall c, In c (f_cols df') <-> In c (f_cols df) /\ exists v, In v (snd c) /\ ~ zero v.
Proof. exact L_C103_drop_zero_partial. Qed.
Print Assumptions C103_drop_zero_partial.
