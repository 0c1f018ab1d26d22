(** Model of the scaled and labelled data of BlackOil (/repo/reservoirflow/models/
    black_oil.py:658-863 and get_df, 936-1070) with any units and scale; save=False.
    Definitions only. *)
From Coq Require Import String ZArith Bool Arith List.
From Verif Require Import Prelude Num GridModel GeoModel PropModel UnitsModel BlackOilModel FdmModel FrameModel ScalerModel.
Import ListNotations.
Set Implicit Arguments.
Local Open Scope string_scope.
Local Open Scope nat_scope.

Section scaled.
Context {F : Type} {NF : Num F} {NC : NumC F}.
Notation fl := (fl F).

(** Numbers that may be NaN, as the entries of numpy arrays.  (As everywhere,
    infinities are shown as NaN.) *)
#[export] Instance Num_fl : Num fl := {|
  n0 := Some n0; n1 := Some n1; nadd := @fadd F NF; nsub := @fsub F NF; nmul := @fmul F NF; ndiv := @fdiv F NF;
  nopp := option_map nopp; nltb := @fltb F NF; neqb := @feqb F NF; nofZ z := Some (nofZ z) |}.

Notation scs := (scalers fl).
(** black_oil.py:165-171: the scalers of a new model; set_scalers replaces the names *)
Definition first_dict : list (string * conf fl) :=
  [("time", (Some "MinMaxScaler", Some (Some n0, Some n1)));
   ("space", (Some "MinMaxScaler", Some (Some (nofZ (-1)), Some n1)));
   ("pressure", (Some "MinMaxScaler", Some (Some (nofZ (-1)), Some n1)));
   ("rate", (None, None))].
Definition scalers_new : scs := fst (set_scalers (mkScalers Dummy Dummy Dummy Dummy first_dict) first_dict).
Definition put_time (s : scs) (x : scaler fl) : scs := mkScalers x (space_scaler s) (pressures_scaler s) (rates_scaler s) (scalers_dict s).
Definition put_space (s : scs) (x : scaler fl) : scs := mkScalers (time_scaler s) x (pressures_scaler s) (rates_scaler s) (scalers_dict s).
Definition put_press (s : scs) (x : scaler fl) : scs := mkScalers (time_scaler s) (space_scaler s) x (rates_scaler s) (scalers_dict s).
Definition put_rates (s : scs) (x : scaler fl) : scs := mkScalers (time_scaler s) (space_scaler s) (pressures_scaler s) x (scalers_dict s).

(** Arrays: a vector, a matrix with [w] columns given by its rows, and back. *)
Definition nda1 (v : list fl) : nda fl := mkNda [length v] v.
Definition nda2 (w : nat) (rows : list (list fl)) : nda fl := mkNda [length rows; w] (concat rows).
Definition nda_rows (a : nda fl) : list (list fl) :=
  match nd_shape a with [r; w] => map (fun i => chunk w i (nd_data a)) (seq 0 r) | _ => [] end.
(** df.values, for a frame of numbers *)
Definition to_fl (v : val F) : fl := match v with VInt k => Some (nofZ k) | VNum x => Some x | _ => None end.
Definition values (df : frame F) : nda fl :=
  nda2 (length (f_cols df)) (map (fun r => map (fun c => to_fl (nth r (snd c) VNan)) (f_cols df)) (seq 0 (f_rows df))).

(** The model, its solution and its units, as read here. *)
Variables (m : bo F) (so : option (soln F)) (un : list (string * string)).

(** x.fit(v, axis) on one of the scalers *)
Definition fit_into (get : scs -> scaler fl) (put : scs -> scaler fl -> scs) (v : nda fl) (axis0 : bool) : M scs unit :=
  fun s => let (x, r) := sc_fit (get s) v axis0 in (put s x, r).
(** 781-783 __update_time_scaler *)
Definition update_time_scaler : M scs unit :=
  do t <- mread (fun _ => time_vector (frame_tstep so) (b_dt m)) ;;
  fit_into (@time_scaler fl) put_time (nda1 (map Some t)) true.
(** 785-787 __update_space_scaler *)
Definition update_space_scaler (boundary : bool) : M scs unit :=
  do c <- mread (fun _ => FrameModel.get_centers m boundary) ;;
  fit_into (@space_scaler fl) put_space (nda2 (length (snd c)) (map (map Some) (fst c))) true.
(** 816-825 __get_scalers_config; 789-792 __update_pressures_scaler *)
Definition update_pressures_scaler (boundary : bool) : M scs unit :=
  do df <- mread (fun _ => FrameModel.get_df m so ["cells_pressure"] boundary false true true) ;;
  fit_into (@pressures_scaler fl) put_press (values df) false.
(** 794-814 __update_rates_scaler *)
Definition update_rates_scaler (boundary : bool) : M scs unit :=
  do df <- mread (fun _ => FrameModel.get_df m so ["rates"] boundary false true true) ;;
  fit_into (@rates_scaler fl) put_rates (values df) false.
(** 827-831 update_scalers *)
Definition update_scalers (boundary : bool) : M scs unit :=
  do _ <- update_time_scaler ;;
  do _ <- update_space_scaler boundary ;;
  do _ <- update_pressures_scaler boundary ;;
  update_rates_scaler boundary.

(** scaler.transform of a vector and of the rows of a matrix with [w] columns *)
Definition scale_vector (x : scaler fl) (v : list fl) : res (list fl) :=
  let* a := sc_transform x (nda1 v) in Ok (nd_data a).
Definition scale_rows (x : scaler fl) (w : nat) (rows : list (list fl)) : res (list (list fl)) :=
  let* a := sc_transform x (nda2 w rows) in Ok (nda_rows a).
(** 833-838 get_time: the column as a list *)
Definition get_time_s (scale : bool) : M scs (list fl) :=
  do t <- mread (fun _ => time_vector (frame_tstep so) (b_dt m)) ;;
  let t := map Some t in
  if scale then
    do _ <- update_time_scaler ;;
    mread (fun s => let* rows := scale_rows (time_scaler s) 1 (map (fun x => [x]) t) in Ok (concat rows))
  else mret t.
(** 840-858 get_centers: the scaler is fitted to all cells, whatever is asked for *)
Definition get_centers_s (scale boundary : bool) : M scs (list (list fl) * list axis) :=
  do c <- mread (fun _ => FrameModel.get_centers m boundary) ;;
  let rows := map (map Some) (fst c) in
  if scale then
    do _ <- update_space_scaler true ;;
    do rows <- mread (fun s => scale_rows (space_scaler s) (length (snd c)) rows) ;;
    mret (rows, snd c)
  else mret (rows, snd c).
(** 860-863 get_domain *)
Definition get_domain_s (scale boundary : bool) : M scs (list fl * list (list fl)) :=
  do t <- get_time_s scale ;;
  do c <- get_centers_s scale boundary ;;
  mret (t, fst c).

(** 659-665 and the same lines of the other columns: what is added to their names *)
Definition unit_str (key : string) : res string :=
  match sget key un with Some u => Ok (" [" ++ u ++ "]") | None => Err KeyError end.
Definition name_str (units scale : bool) (s : scs) (key : string) : res string :=
  if units then
    if scale then
      match sget key (scalers_dict s) with
      | None => Err KeyError
      | Some (Some _, _) => Ok " [scaled]"
      | Some (None, _) => unit_str key
      end
    else unit_str key
  else Ok "".
(** 768-776 __add_xyz (melt) *)
Definition add_xyz_s (x : soln F) (boundary scale : bool) (df : frame F) : M scs (frame F) :=
  do c <- get_centers_s scale boundary ;;
  let rows := reshape_rows (length (snd c)) (np_tile (concat (fst c)) (so_nsteps x)) in
  mret (pd_concat df (table (map axis_name (snd c)) (map (map (@vfl F)) rows))).
(** 658-673 __add_time *)
Definition add_time_s (units melt boundary scale : bool) (df : frame F) (s : scs) : res (frame F) :=
  let* str := name_str units scale s "time" in
  let* t := time_vector (frame_tstep so) (b_dt m) in
  let* t := if scale then scale_vector (time_scaler s) (map Some t) else Ok (map Some t) in
  let t := if melt then np_repeat t (get_n (bgrid m) boundary) else t in
  Ok (pd_concat df (series ("Time" ++ str) (map (@vfl F) t))).
(** 675-689 __add_date *)
Definition add_date_s (units melt boundary : bool) (df : frame F) (s : scs) : res (frame F) :=
  let str := if units then " [d.m.y]" else "" in
  let d := map (@VDate F) (seq 0 (frame_tstep so + 1)) in
  let d := if melt then np_repeat d (get_n (bgrid m) boundary) else d in
  Ok (pd_concat df (series ("Date" ++ str) d)).
(** 691-711 __add_cells_rate and 713-733 __add_cells_pressures *)
Definition add_cells_s (name key : string) (get : list Z -> res (list (list fl))) (sc : scs -> scaler fl)
  (units melt boundary scale : bool) (df : frame F) (s : scs) : res (frame F) :=
  let* str := name_str units scale s key in
  let* ids := get_cells_id (bgrid m) boundary in
  let* a := get ids in
  let* a := if scale then scale_rows (sc s) (length ids) a else Ok a in
  let a := map (map (@vfl F)) a in
  Ok (pd_concat df (if melt then table [name ++ str] (map (fun v => [v]) (concat a))
                    else table (map (fun id => (name ++ str_of id) ++ str) ids) a)).
(** 735-750 __add_wells_rate *)
Definition add_wells_rate_s (units scale : bool) (df : frame F) (s : scs) : res (frame F) :=
  let* str := name_str units scale s "rate" in
  let ids := dkeys (b_wells m) in
  let* a := get_rate_all so ids in
  let* a := if scale then scale_rows (rates_scaler s) (length ids) a else Ok a in
  Ok (pd_concat df (table (map (fun id => ("Qw" ++ str_of id) ++ str) ids) (map (map (@vfl F)) a))).
(** 752-766 __add_wells_pressures: a table with a row per entry of the lists *)
Definition add_wells_pressures_s (units scale : bool) (df : frame F) (s : scs) : res (frame F) :=
  let* str := name_str units scale s "pressure" in
  let wp := b_wp m in
  let n := match wp with [] => 0 | (_, l) :: _ => length l end in
  if forallb (fun e => length (snd e) =? n) wp then
    let rows := map (fun r => map (fun e => nth r (snd e) None) wp) (seq 0 n) in
    let* rows := if scale then scale_rows (pressures_scaler s) (length wp) rows else Ok rows in
    Ok (pd_concat df (table (map (fun e => ("Pwf" ++ str_of (fst e)) ++ str) wp) (map (map (@vfl F)) rows)))
  else Err ValueError.

(** 1032-1046: one iteration of the loop over the columns *)
Definition add_column_s (units boundary melt scale : bool) (s : scs) (df : frame F) (c : string) : res (frame F) :=
  let c := lower c in
  if negb (smem c col_vals) then Err ValueError else
  let* df := rwhen (smem c c_time) (fun df => add_time_s units melt boundary scale df s) df in
  let* df := rwhen (smem c c_date) (fun df => add_date_s units melt boundary df s) df in
  let* df := rwhen (smem c c_cells_rate) (fun df => add_cells_s "Q" "rate" (get_rate_all so) (@rates_scaler fl) units melt boundary scale df s) df in
  let* df := rwhen (smem c c_cells_pressure) (fun df => add_cells_s "P" "pressure" (get_pressure_all so) (@pressures_scaler fl) units melt boundary scale df s) df in
  let* df := rwhen (smem c c_wells_rate && negb melt) (fun df => add_wells_rate_s units scale df s) df in
  rwhen (smem c c_wells_pressure && negb melt) (fun df => add_wells_pressures_s units scale df s) df.
(** 1025-1030: the first columns of a melted frame *)
Definition melted_start_s (boundary scale : bool) : M scs (frame F) :=
  match so with
  | None => mread (fun _ => Err AttributeError)
  | Some x =>
      do df <- mread (fun _ =>
        let n_cells := get_n (bgrid m) boundary in
        let* ids := get_cells_id (bgrid m) boundary in
        let* df := pd_assign (@frame0 F) "id" (np_tile (map (@VInt F) ids) (so_nsteps x)) in
        pd_assign df "Step" (np_repeat (map (fun k => VInt (Z.of_nat k)) (seq 0 (so_nsteps x))) n_cells)) ;;
      add_xyz_s x boundary scale df
  end.
(** 1021-1046: the frame before dropping *)
Definition full_df_s (columns : list string) (boundary units melt scale : bool) : M scs (frame F) :=
  do _ <- mwhen scale (update_scalers true) ;;
  do df <- (if melt then melted_start_s boundary scale else mret (@frame0 F)) ;;
  mread (fun s => fold_left (fun r c => let* df := r in add_column_s units boundary melt scale s df c) columns (Ok df)).
(** 936-1070 get_df (save=False) *)
Definition get_df_s (columns : list string) (boundary units melt scale drop_nan drop_zero : bool) : M scs (frame F) :=
  do df <- full_df_s columns boundary units melt scale ;;
  mret (drop melt drop_nan drop_zero df).
End scaled.
