(** Property theorems (each one a lemma proved in [FrameThm.v]), the assumptions they
    rest on, and for each a concrete case meeting its hypotheses. *)
From Coq Require Import String ZArith Bool Arith List Lia Reals Lra SpecFloat QArith Sorted.
From Verif Require Import Prelude PreludeFacts TabFacts Num GridModel GridSpec GridProofs GeoModel GeoSpec GeoProofs PropModel PropSpec PropProofs AgreeProofs UnitsModel BlackOilModel FdmModel
  WellThm WellStepFacts MonadFacts HistSpec InvFacts StepSpec StepFacts StepThm Samples SampleFacts SampleWell QSamples FrameModel FrameSpec FrameFacts.
Import ListNotations.
Close Scope Q_scope. Close Scope R_scope.
Open Scope nat_scope.
Open Scope list_scope.
From Verif Require Import FrameThm.
Close Scope Q_scope. Close Scope R_scope.
Open Scope nat_scope.
Open Scope list_scope.

(** C70, with exact arithmetic: the time vector has tstep+1 entries t*dt. *)
Theorem C70_exact_partial :
  forall (tstep : nat) (dt : R), (0 < dt)%R ->
  exists l, time_vector tstep dt = Ok l /\ length l = tstep + 1 /\
  forall t, t <= tstep -> nth_error l t = Some (INR t * dt)%R.
Proof. exact L_C70_exact_partial. Qed.
Print Assumptions C70_exact_partial.

Example C70_case : (0 < 1 / 10)%R.
Proof. exact ex_C70_case. Qed.

(** C70 is false in double precision: at step 2 with dt = 0.1 (the double nearest
    to it) there are four entries, because 3 * 0.1 / 0.1 rounds to a number greater
    than 3. *)
Theorem C70_double_refuted :
  exists dt : spec_float, dt = ndiv n1 (nofZ 10) /\ nltb n0 dt = true /\
  exists l, time_vector 2 dt = Ok l /\ length l = 4.
Proof. exact L_C70_double_refuted. Qed.
Print Assumptions C70_double_refuted.

(** C83: whatever is called, and whether it succeeds or not, every row of pressures
    and rates has one entry per cell. *)
Theorem C83_row_length :
  forall (F : Type) (NF : Num F) (NT : NumT F) g f unit pi dt (m0 : bo F) l,
  bo_new g f unit pi dt = Ok m0 -> rows_of (get_n (ggrid g) true) (after (m0, None) l).
Proof. exact L_C83_row_length. Qed.
Print Assumptions C83_row_length.

Example C83_case : exists g f (m0 : bo R) s, bo_new g f "metric" (Some 10%R) 1%R = Ok m0 /\
  snd (after (m0, None) [Compile; Run (fun _ _ _ => Ok [Some 10%R; Some 10%R; Some 10%R]) one 3 9 true false true false false None]) = Some s /\ length (s_p s) = 4.
Proof. exact ex_C83_case. Qed.

(** C71, without direct calls of solve: after a successful history on a grid with
    flow, get_df(melt=True) has one row per step and cell before dropping, the
    columns id, Step, the flow directions and those selected, and row r carries
    the values of cell r mod n and step r div n. *)
Theorem C71_rows_partial :
  forall x y z u (dx dy dz : dinput R) kx ky kz phi zz comp T g f unit pi dt (m0 : bo R) l m s b cols,
  gobj_new x y z u dx dy dz kx ky kz phi zz comp T = Ok g -> bo_new g f unit pi dt = Ok m0 -> has_flow (ggrid g) -> (0 < dt)%R ->
  all_ok (m0, None) l -> Forall no_solve l -> after (m0, None) l = (m, Some s) ->
  Forall (fun c => documented c = true) cols ->
  exists df ids pts, full_df m (Some (of_fdm s)) cols b true = Ok df /\
  get_cells_id (ggrid g) b = Ok ids /\ get_cells_center (geom g) b = Ok pts /\
  f_rows df = (s_tstep s + 1) * length ids /\
  map fst (f_cols df) = ("id" :: "Step" :: map axis_name (get_fdir (ggrid g)) ++ flat_map melted_names cols)%string%list /\
  forall name col r, In (name, col) (f_cols df) -> r < f_rows df ->
  nth_error col r = Some (melted_value dt s name (r / length ids) (nth (r mod length ids) ids 0%Z) (nth (r mod length ids) pts (0, 0, 0)%R)).
Proof. exact L_C71_rows_partial. Qed.
Print Assumptions C71_rows_partial.

Example C71_case : exists g f (m0 : bo R) m s, gobj_new 3 1 1 true (Scalar 1%R) (Scalar 1%R) (Scalar 1%R) (Some (Scalar 1%R)) (Some (Scalar 1%R)) (Some (Scalar 1%R)) (Some (Scalar 1%R)) None None 1%R = Ok g /\
  bo_new g f "metric" (Some 10%R) 1%R = Ok m0 /\ has_flow (ggrid g) /\ (0 < 1)%R /\
  let l := [Compile; Run (fun _ _ _ => Ok [Some 10%R; Some 10%R; Some 10%R]) one 3 9 true false true false false None] in
  all_ok (m0, None) l /\ Forall no_solve l /\ after (m0, None) l = (m, Some s) /\ s_tstep s = 3 /\
  Forall (fun c => documented c = true) ["Time"; "cells"]%string.
Proof. exact ex_C71_case. Qed.

(** C71 fails after a direct call of solve, which does not count the step in nsteps:
    the rows of the new step have a pressure, but no id. *)
Theorem C71_rows_refuted :
  exists m0 : bo Q, build 3 1 1 None 1%Q (Some 10%Q) None = Ok m0 /\ forall NT : NumT Q, exists df ids ps,
  let l := [Compile; Solve (fun _ _ _ => Ok [Some 10%Q; Some 11%Q; Some 12%Q]) oneQ 9 true (mkOpts false true false true false None)] in
  all_ok (m0, None) l /\ frame_of (after (m0, None) l) ["cells_pressure"%string] true true = Ok df /\ f_rows df = 10 /\
  In ("id"%string, ids) (f_cols df) /\ In ("P"%string, ps) (f_cols df) /\
  nth_error ps 7 = Some (VNum 11%Q) /\ nth_error ids 7 = Some VNan.
Proof. exact L_C71_rows_refuted. Qed.
Print Assumptions C71_rows_refuted.

(** C84: after a successful history, get_df(melt=False) has before dropping exactly
    the selected columns, with one row for each of the tstep+1 steps, provided one
    bottom-hole pressure per step was recorded (C72) if these are selected. *)
Theorem C84_columns_partial :
  forall x y z u (dx dy dz : dinput R) kx ky kz phi zz comp T g f unit pi dt (m0 : bo R) l m s b cols,
  gobj_new x y z u dx dy dz kx ky kz phi zz comp T = Ok g -> bo_new g f unit pi dt = Ok m0 -> (0 < dt)%R ->
  all_ok (m0, None) l -> after (m0, None) l = (m, Some s) ->
  Forall (fun c => documented c = true) cols ->
  (asks_pwf cols -> Forall (fun e => length (snd e) = s_tstep s + 1) (b_wp m)) ->
  exists df ids, frame_of (m, Some s) cols b false = Ok df /\ get_cells_id (ggrid g) b = Ok ids /\
  f_cols df = flat_map (plain_columns dt m s ids) cols /\ (f_cols df <> [] -> f_rows df = s_tstep s + 1).
Proof. exact L_C84_columns_partial. Qed.
Print Assumptions C84_columns_partial.

Example C84_case : exists g f (m0 : bo R) m s, gobj_new 3 1 1 true (Scalar 1%R) (Scalar 1%R) (Scalar 1%R) (Some (Scalar 1%R)) (Some (Scalar 1%R)) (Some (Scalar 1%R)) (Some (Scalar 1%R)) None None 1%R = Ok g /\
  bo_new g f "metric" (Some 10%R) 1%R = Ok m0 /\ (0 < 1)%R /\
  let l := [Compile; Run (fun _ _ _ => Ok [Some 10%R; Some 10%R; Some 10%R]) one 3 9 true false true false false None] in
  all_ok (m0, None) l /\ after (m0, None) l = (m, Some s) /\ s_tstep s = 3 /\
  Forall (fun c => documented c = true) ["Time"; "cells"; "wells_rate"]%string /\ ~ asks_pwf ["Time"; "cells"; "wells_rate"]%string.
Proof. exact ex_C84_case. Qed.

Example C84_well : exists (m0 : bo R) m s, build 3 1 1 None 1%R (Some 10%R) None = Ok m0 /\
  let l := [set_q; Compile] in all_ok (m0, None) l /\ after (m0, None) l = (m, Some s) /\
  documented "P" = true /\ asks_pwf ["P"%string] /\ b_wp m <> [] /\ Forall (fun e => length (snd e) = s_tstep s + 1) (b_wp m).
Proof. exact ex_C84_well. Qed.

(** C84 fails when the recorded pressure lists have different lengths: get_df raises
    ValueError.  Here the pressure of one of two wells was set again. *)
Theorem C84_columns_refuted :
  exists m0 : bo Q, build 3 1 1 None 1%Q (Some 10%Q) None = Ok m0 /\ forall NT : NumT Q,
  let l := [Set_well (Some 1%Z) None (Some 5%Q) (Some 1%Q) None; Set_well (Some 2%Z) None (Some 5%Q) (Some 1%Q) None;
            Set_well (Some 2%Z) None (Some 6%Q) (Some 1%Q) None; Compile] in
  all_ok (m0, None) l /\ documented "wells_pressure" = true /\
  frame_of (after (m0, None) l) ["wells_pressure"%string] true false = Err ValueError.
Proof. exact L_C84_columns_refuted. Qed.
Print Assumptions C84_columns_refuted.

(** C85: dropping from a frame that is not melted keeps exactly the columns that have
    a value (drop_nan) and a non-zero entry (drop_zero), unchanged and in order ... *)
Theorem C85_columns_kept :
  forall (m : bo R) so cols b dn dz df, full_df m so cols b false = Ok df ->
  exists df', get_df m so cols b false dn dz = Ok df' /\ f_rows df' = f_rows df /\ sublist (f_cols df') (f_cols df) /\
  forall c, In c (f_cols df') <->
    In c (f_cols df) /\ (dn = true -> exists v, In v (snd c) /\ present v) /\ (dz = true -> exists v, In v (snd c) /\ ~ zero v).
Proof. exact L_C85_columns_kept. Qed.
Print Assumptions C85_columns_kept.

(** ... and from a melted frame exactly the rows without a missing entry. *)
Theorem C85_rows_kept :
  forall (m : bo R) so cols b dz df, full_df m so cols b true = Ok df ->
  exists df' keep, get_df m so cols b true true dz = Ok df' /\ f_rows df' = length keep /\ StronglySorted lt keep /\
  (forall r, In r keep <-> r < f_rows df /\ forall c v, In c (f_cols df) -> nth_error (snd c) r = Some v -> present v) /\
  map fst (f_cols df') = map fst (f_cols df) /\
  forall k r j c c', nth_error keep k = Some r -> nth_error (f_cols df) j = Some c -> nth_error (f_cols df') j = Some c' ->
    nth_error (snd c') k = nth_error (snd c) r.
Proof. exact L_C85_rows_kept. Qed.
Print Assumptions C85_rows_kept.

Example C85_case : exists (m : bo R) s df, full_df m (Some (of_fdm s)) ["Time"; "cells"; "wells_rate"]%string true false = Ok df /\ f_rows df = 4.
Proof. exact ex_C85_case. Qed.

Example C85_melted : exists (m : bo R) s df, full_df m (Some (of_fdm s)) ["Time"; "cells"]%string true true = Ok df.
Proof. exact ex_C85_melted. Qed.
