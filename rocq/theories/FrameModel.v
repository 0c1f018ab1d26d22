(** Model of the data part of BlackOil (/repo/reservoirflow/models/black_oil.py:
    652-863 and get_df, 936-1070), with scale=False and units=False.  The scalers
    are in [ScalerModel.v].  Definitions only. *)
From Coq Require Import String ZArith Bool Arith List Reals QArith Qround SpecFloat DecimalString.
From Verif Require Import Prelude Num GridModel GeoModel PropModel BlackOilModel FdmModel.
Import ListNotations.
Set Implicit Arguments.
Local Close Scope Q_scope. Local Close Scope R_scope.
Local Open Scope string_scope.
Local Open Scope nat_scope.

(** ** Rounding up, for numpy.arange *)
(** [None]: not a finite number. *)
Class NumC (F : Type) := { nceil : F -> option Z }.
#[export] Instance NumC_R : NumC R := {| nceil x := Some (- Int_part (- x))%Z |}.
#[export] Instance NumC_Q : NumC Q := {| nceil x := Some (Qceiling x) |}.

(** IEEE 754 double precision, as Coq's standard library specifies it. *)
Definition prec64 := 53%Z.
Definition emax64 := 1024%Z.
#[export] Instance Num_F64 : Num spec_float := {|
  n0 := S754_zero false; n1 := binary_normalize prec64 emax64 1 0 false;
  nadd := SFadd prec64 emax64; nsub := SFsub prec64 emax64;
  nmul := SFmul prec64 emax64; ndiv := SFdiv prec64 emax64;
  nopp := SFopp; nltb := SFltb; neqb := SFeqb;
  nofZ z := binary_normalize prec64 emax64 z 0 false |}.
(** m * 2^e rounded up *)
Definition ceil64 (x : spec_float) : option Z :=
  match x with
  | S754_zero _ => Some 0%Z
  | S754_finite s m e =>
      let z := if s then Z.neg m else Z.pos m in
      Some (if (0 <=? e)%Z then (z * 2 ^ e)%Z else (- (- z / 2 ^ - e))%Z)
  | _ => None
  end.
#[export] Instance NumC_F64 : NumC spec_float := {| nceil := ceil64 |}.

Section frame.
Context {F : Type} {NF : Num F} {NC : NumC F}.
Notation fl := (fl F).

(** numpy.arange(0, stop, step): ceil(stop / step) entries 0 + i * step (none if
    that is not positive); ValueError if the length cannot be computed. *)
Definition np_arange (stop step : F) : res (list F) :=
  if neqb step n0 then Err ValueError
  else match nceil (ndiv (nsub stop n0) step) with
       | None => Err ValueError
       | Some k => Ok (map (fun i => nadd n0 (nmul (nofZ (Z.of_nat i)) step)) (seq 0 (Z.to_nat k)))
       end.
(** 778-779 __get_time_vector: (tstep + 1) is an int, converted by the product *)
Definition time_vector (tstep : nat) (dt : F) : res (list F) :=
  np_arange (nmul (nofZ (Z.of_nat (tstep + 1))) dt) dt.

(** ** Data frames *)
(** Entries: missing (NaN), an integer, a number, the date of step [k]
    (start_date + k * dt days, formatted). *)
Inductive val := VNan | VInt (k : Z) | VNum (x : F) | VDate (k : nat).
Definition vfl (x : fl) : val := match x with Some v => VNum v | None => VNan end.
(** Number of rows; columns by name, in order (pandas allows equal names). *)
Record frame := mkFrame { f_rows : nat; f_cols : list (string * list val) }.
Definition frame0 : frame := mkFrame 0 [].
Definition fill (n : nat) (c : string * list val) : string * list val :=
  (fst c, (snd c ++ repeat VNan (n - length (snd c)))%list).
(** 652-656 __concat: pandas.concat([df, data], axis=1) joins on the row number;
    missing rows are filled with NaN.  A df is always given. *)
Definition pd_concat (df data : frame) : frame :=
  let n := Nat.max (f_rows df) (f_rows data) in
  mkFrame n (map (fill n) (f_cols df ++ f_cols data)).
(** df[name] = array: ValueError unless the lengths agree; an empty frame takes
    the length of the array.  (name is new in all uses.) *)
Definition pd_assign (df : frame) (name : string) (v : list val) : res frame :=
  match f_cols df with
  | [] => Ok (mkFrame (length v) [(name, v)])
  | _ => if length v =? f_rows df then Ok (mkFrame (f_rows df) (f_cols df ++ [(name, v)])%list) else Err ValueError
  end.
(** pandas.Series(v, name) *)
Definition series (name : string) (v : list val) : frame := mkFrame (length v) [(name, v)].
(** pandas.DataFrame(array, columns=labels): the j-th entries of the rows *)
Definition table (labels : list string) (rows : list (list val)) : frame :=
  mkFrame (length rows)
    (map (fun jl => (snd jl, map (fun r => nth (fst jl) r VNan) rows)) (combine (seq 0 (length labels)) labels)).

(** What get_df reads of a solution object (solution.py:33-38): pressures, rates,
    nsteps, tstep. *)
Record soln := mkSoln { so_p : list (list fl); so_r : list (list fl); so_nsteps : nat; so_tstep : nat }.
Definition of_fdm (s : fs F) : soln := mkSoln (s_p s) (s_r s) (s_nsteps s) (s_tstep s).

(** str(id) *)
Definition str_of (z : Z) : string := NilZero.string_of_int (Z.to_int z).
(** 212-216 __get_tstep *)
Definition frame_tstep (so : option soln) : nat := match so with None => 0 | Some s => so_tstep s end.
(** 218-226 and 238-246, tstep=None: array[:, ids] *)
Definition all_rows (a : list (list fl)) (ids : list Z) : res (list (list fl)) :=
  rmapM (fun row => rmapM (pyget row) ids) a.
Definition get_pressure_all (so : option soln) (ids : list Z) : res (list (list fl)) :=
  match so with None => Err AssertionError | Some s => all_rows (so_p s) ids end.
Definition get_rate_all (so : option soln) (ids : list Z) : res (list (list fl)) :=
  match so with None => Err AssertionError | Some s => all_rows (so_r s) ids end.

(** 840-858 get_centers (scale=False): the columns of the flow directions; no flow
    gives the index None: IndexError *)
Definition col_of (a : axis) (p : F * F * F) : res F :=
  match p with (x, y, z) => match a with AX => Ok x | AY => Ok y | AZ => Ok z | ADash => Err IndexError end end.
Definition axis_name (a : axis) : string := match a with AX => "x" | AY => "y" | AZ => "z" | ADash => "-" end.
Definition get_centers (m : bo F) (boundary : bool) : res (list (list F) * list axis) :=
  let* centers := get_cells_center (geom (b_grid m)) boundary in
  let fdir := get_fdir (bgrid m) in
  let* c := rmapM (fun p => rmapM (fun a => col_of a p) fdir) centers in
  Ok (c, fdir).
(** 833-838 get_time (scale=False), the column as a list *)
Definition get_time (m : bo F) (so : option soln) : res (list F) := time_vector (frame_tstep so) (b_dt m).
(** 860-863 get_domain (scale=False) *)
Definition get_domain (m : bo F) (so : option soln) (boundary : bool) : res (list F * list (list F)) :=
  let* t := get_time m so in
  let* c := get_centers m boundary in
  Ok (t, fst c).

(** 768-776 __add_xyz (melt): tile the flat centres, reshape to (-1, len(fdir)) *)
Definition reshape_rows {A} (w : nat) (l : list A) : list (list A) :=
  map (fun i => chunk w i l) (seq 0 (length l / w)).
Definition add_xyz (m : bo F) (s : soln) (boundary : bool) (df : frame) : res frame :=
  let* c := get_centers m boundary in
  let rows := reshape_rows (length (snd c)) (np_tile (concat (fst c)) (so_nsteps s)) in
  Ok (pd_concat df (table (map axis_name (snd c)) (map (map VNum) rows))).
(** 658-673 __add_time *)
Definition add_time (m : bo F) (so : option soln) (melt boundary : bool) (df : frame) : res frame :=
  let* t := time_vector (frame_tstep so) (b_dt m) in
  let t := if melt then np_repeat t (get_n (bgrid m) boundary) else t in
  Ok (pd_concat df (series "Time" (map VNum t))).
(** 675-689 __add_date: pandas.date_range with tstep + 1 periods *)
Definition add_date (m : bo F) (so : option soln) (melt boundary : bool) (df : frame) : res frame :=
  let d := map VDate (seq 0 (frame_tstep so + 1)) in
  let d := if melt then np_repeat d (get_n (bgrid m) boundary) else d in
  Ok (pd_concat df (series "Date" d)).
(** 691-711 __add_cells_rate and 713-733 __add_cells_pressures *)
Definition add_cells (name : string) (get : list Z -> res (list (list fl))) (m : bo F) (melt boundary : bool)
  (df : frame) : res frame :=
  let* ids := get_cells_id (bgrid m) boundary in
  let* a := get ids in
  let a := map (map vfl) a in
  Ok (pd_concat df (if melt then table [name] (map (fun v => [v]) (concat a))
                    else table (map (fun id => name ++ str_of id) ids) a)).
(** 735-750 __add_wells_rate *)
Definition add_wells_rate (m : bo F) (so : option soln) (df : frame) : res frame :=
  let ids := dkeys (b_wells m) in
  let* a := get_rate_all so ids in
  Ok (pd_concat df (table (map (fun id => "Qw" ++ str_of id) ids) (map (map vfl) a))).
(** 752-766 __add_wells_pressures: pandas.DataFrame(dict of lists) raises
    ValueError unless all lists have the same length *)
Definition add_wells_pressures (m : bo F) (df : frame) : res frame :=
  match b_wp m with
  | [] => Ok (pd_concat df frame0)
  | ((_, l0) :: _) as wp =>
      if forallb (fun e => length (snd e) =? length l0) wp
      then Ok (pd_concat df (mkFrame (length l0) (map (fun e => ("Pwf" ++ str_of (fst e), map vfl (snd e))) wp)))
      else Err ValueError
  end.

(** 1010-1017 col_dict *)
Definition c_time := ["t"; "time"].
Definition c_date := ["d"; "date"].
Definition c_cells_rate := ["q"; "rates"; "cells"; "cells_rate"].
Definition c_cells_pressure := ["p"; "pressures"; "cells"; "cells_pressure"].
Definition c_wells_rate := ["q"; "rates"; "wells"; "wells_rate"].
Definition c_wells_pressure := ["p"; "pressures"; "wells"; "wells_pressure"].
Definition col_vals : list string :=
  (c_time ++ c_date ++ c_cells_rate ++ c_cells_pressure ++ c_wells_rate ++ c_wells_pressure)%list.
(** 1032-1046: one iteration of the loop over the columns *)
Definition rwhen (b : bool) (f : frame -> res frame) (df : frame) : res frame := if b then f df else Ok df.
Definition add_column (m : bo F) (so : option soln) (boundary melt : bool) (df : frame) (c : string) : res frame :=
  let c := lower c in
  if negb (smem c col_vals) then Err ValueError else
  let* df := rwhen (smem c c_time) (add_time m so melt boundary) df in
  let* df := rwhen (smem c c_date) (add_date m so melt boundary) df in
  let* df := rwhen (smem c c_cells_rate) (add_cells "Q" (get_rate_all so) m melt boundary) df in
  let* df := rwhen (smem c c_cells_pressure) (add_cells "P" (get_pressure_all so) m melt boundary) df in
  let* df := rwhen (smem c c_wells_rate && negb melt) (add_wells_rate m so) df in
  rwhen (smem c c_wells_pressure && negb melt) (add_wells_pressures m) df.
(** 1025-1030: the first columns of a melted frame *)
Definition melted_start (m : bo F) (so : option soln) (boundary : bool) : res frame :=
  match so with
  | None => Err AttributeError
  | Some s =>
      let n_cells := get_n (bgrid m) boundary in
      let* ids := get_cells_id (bgrid m) boundary in
      let* df := pd_assign frame0 "id" (np_tile (map VInt ids) (so_nsteps s)) in
      let* df := pd_assign df "Step" (np_repeat (map (fun k => VInt (Z.of_nat k)) (seq 0 (so_nsteps s))) n_cells) in
      add_xyz m s boundary df
  end.
(** 1019-1046: the frame before dropping *)
Definition full_df (m : bo F) (so : option soln) (columns : list string) (boundary melt : bool) : res frame :=
  let* df := if melt then melted_start m so boundary else Ok frame0 in
  fold_left (fun r c => let* df := r in add_column m so boundary melt df c) columns (Ok df).
(** 1048-1056: dropping *)
Definition is_nan (v : val) : bool := match v with VNan => true | _ => false end.
Definition is_zero (v : val) : bool := match v with VInt k => Z.eqb k 0 | VNum x => neqb x n0 | _ => false end.
Definition keep_rows (keep : list nat) (df : frame) : frame :=
  mkFrame (length keep) (map (fun c => (fst c, map (fun r => nth r (snd c) VNan) keep)) (f_cols df)).
Definition drop (melt drop_nan drop_zero : bool) (df : frame) : frame :=
  if melt then
    if drop_nan then
      keep_rows (filter (fun r => forallb (fun c => negb (is_nan (nth r (snd c) VNan))) (f_cols df)) (seq 0 (f_rows df))) df
    else df
  else
    let df := if drop_nan then mkFrame (f_rows df) (filter (fun c => negb (forallb is_nan (snd c))) (f_cols df)) else df in
    if drop_zero then mkFrame (f_rows df) (filter (fun c => existsb (fun v => negb (is_zero v)) (snd c)) (f_cols df)) else df.
(** 936-1070 get_df (units=False, scale=False, save=False) *)
Definition get_df (m : bo F) (so : option soln) (columns : list string) (boundary melt drop_nan drop_zero : bool) : res frame :=
  let* df := full_df m so columns boundary melt in Ok (drop melt drop_nan drop_zero df).
End frame.
Arguments val : clear implicits. Arguments frame : clear implicits. Arguments soln : clear implicits.
