(** What the data frames should hold: vocabulary. *)
From Coq Require Import String ZArith Bool Arith List Reals.
From Verif Require Import Prelude Num GridModel GridSpec GeoModel GeoSpec PropModel BlackOilModel FdmModel FrameModel.
Import ListNotations.
Local Close Scope R_scope.
Local Open Scope string_scope.
Local Open Scope nat_scope.

(** All rows of the model and of its solution have [n] entries. *)
Definition rows_of {F} (n : nat) (x : ws F) : Prop :=
  length (b_ip (fst x)) = n /\ length (b_ir (fst x)) = n /\
  forall s, snd x = Some s -> Forall (fun row => length row = n) (s_p s) /\ Forall (fun row => length row = n) (s_r s).

(** The selections get_df documents (black_oil.py:953-966, with the short forms
    "t", "d"), without regard to case. *)
Definition selects (c : string) (l : list string) : bool := smem (lower c) l.
Definition documented (c : string) : bool :=
  selects c ["t"; "time"; "d"; "date"; "q"; "rates"; "p"; "pressures"; "cells"; "wells";
             "cells_rate"; "cells_pressure"; "wells_rate"; "wells_pressure"].
(** Columns of a melted frame for one selection: wells are ignored. *)
Definition melted_names (c : string) : list string :=
  ((if selects c ["t"; "time"] then ["Time"] else []) ++
   (if selects c ["d"; "date"] then ["Date"] else []) ++
   (if selects c ["q"; "rates"; "cells"; "cells_rate"] then ["Q"] else []) ++
   (if selects c ["p"; "pressures"; "cells"; "cells_pressure"] then ["P"] else []))%list.

(** Entry [id] of row [t]; anything missing counts as NaN. *)
Definition value_at {F} (a : list (list (fl F))) (t : nat) (id : Z) : val F :=
  match nth_error a t with
  | Some row => match nth_error row (Z.to_nat id) with Some (Some v) => VNum v | _ => VNan end
  | None => VNan
  end.
(** The entry of the column [name] for cell [id] with centre [p] at step [t]. *)
Definition melted_value (dt : R) (s : fs R) (name : string) (t : nat) (id : Z) (p : R * R * R) : val R :=
  if String.eqb name "id" then VInt id
  else if String.eqb name "Step" then VInt (Z.of_nat t)
  else if String.eqb name "x" then VNum (coord_of AX p)
  else if String.eqb name "y" then VNum (coord_of AY p)
  else if String.eqb name "z" then VNum (coord_of AZ p)
  else if String.eqb name "Time" then VNum (INR t * dt)%R
  else if String.eqb name "Date" then VDate t
  else if String.eqb name "Q" then value_at (s_r s) t id
  else value_at (s_p s) t id.
(** Columns of a frame that is not melted, for one selection: time and date of each
    step, rates and pressures of each cell and well by step. *)
Definition steps_of (s : fs R) : list nat := seq 0 (s_tstep s + 1).
Definition by_cell (name : string) (a : list (list (fl R))) (s : fs R) (ids : list Z) : list (string * list (val R)) :=
  map (fun id => (name ++ str_of id, map (fun t => value_at a t id) (steps_of s))) ids.
Definition plain_columns (dt : R) (m : bo R) (s : fs R) (ids : list Z) (c : string) : list (string * list (val R)) :=
  ((if selects c ["t"; "time"] then [("Time", map (fun t => VNum (INR t * dt)%R) (steps_of s))] else []) ++
   (if selects c ["d"; "date"] then [("Date", map (@VDate R) (steps_of s))] else []) ++
   (if selects c ["q"; "rates"; "cells"; "cells_rate"] then by_cell "Q" (s_r s) s ids else []) ++
   (if selects c ["p"; "pressures"; "cells"; "cells_pressure"] then by_cell "P" (s_p s) s ids else []) ++
   (if selects c ["q"; "rates"; "wells"; "wells_rate"] then by_cell "Qw" (s_r s) s (dkeys (b_wells m)) else []) ++
   (if selects c ["p"; "pressures"; "wells"; "wells_pressure"]
    then map (fun e => (("Pwf" ++ str_of (fst e))%string, map (fun p => match p with Some v => VNum v | None => VNan end) (snd e))) (b_wp m)
    else []))%list.
(** The recorded bottom-hole pressures are selected. *)
Definition asks_pwf (cols : list string) : Prop :=
  exists c, In c cols /\ selects c ["p"; "pressures"; "wells"; "wells_pressure"] = true.
(** Not missing, not zero. *)
Definition present (v : val R) : Prop := v <> VNan.
Definition zero (v : val R) : Prop := v = VNum 0%R \/ v = VInt 0.

(** l' is l with some elements left out. *)
Inductive sublist {A} : list A -> list A -> Prop :=
| sub_nil : sublist [] []
| sub_skip x l' l : sublist l' l -> sublist l' (x :: l)
| sub_keep x l' l : sublist l' l -> sublist (x :: l') (x :: l).

(** The frame before dropping, of a model with or without solution. *)
Definition frame_of {F} {NF : Num F} {NC : NumC F} (x : ws F) (cols : list string) (boundary melt : bool) : res (frame F) :=
  full_df (fst x) (option_map (@of_fdm F) (snd x)) cols boundary melt.
