(** The full names that allow_synonyms gives to the methods and attributes of
    fluids, wells and models.  An object is its own attributes (the records of
    UnitsModel.v and BlackOilModel.v) together with the attributes allow_synonyms
    has set on it.  No definition here contains a proof. *)
From Coq Require Import String ZArith Bool List.
From Verif Require Import Prelude Num UnitsModel BlackOilModel.
Import ListNotations.
Local Open Scope string_scope.

(** What an attribute holds: a number, or a bound method of the object (known by
    the name it has in the class; reading "self.set_mu" binds it to self). *)
Inductive attr (F : Type) := Value (v : F) | Method (name : string).
Arguments Value {F}. Arguments Method {F}.

Section synonyms.
Context {F : Type} {NF : Num F}.

(** The attributes allow_synonyms has set. *)
Definition syns : Type := list (string * attr F).
(** getattr: the object's own attributes and the methods of its class, then what
    allow_synonyms set (the names differ, so the order is not seen). *)
Definition getattr {S} (own : S -> string -> option (attr F)) (x : S * syns) (name : string) : res (attr F) :=
  match own (fst x) name with
  | Some a => Ok a
  | None => match sget name (snd x) with Some a => Ok a | None => Err AttributeError end
  end.
(** The statements "self.n1 = self.n2 = .. = self.old", one after the other: the
    right side is read first, then the names are set from left to right. *)
Fixpoint assign_all {S} (own : S -> string -> option (attr F)) (tab : list (list string * string))
  (x : S * syns) : (S * syns) * res unit :=
  match tab with
  | [] => (x, Ok tt)
  | (names, old) :: tab' =>
      match getattr own x old with
      | Ok a => assign_all own tab' (fst x, fold_left (fun d n => sset n a d) names (snd x))
      | Err e => (x, Err e)
      end
  end.
(** What a class's attribute table says about a name. *)
Definition own_of (tab : list (string * option (attr F))) (name : string) : option (attr F) :=
  match sget name tab with Some a => a | None => None end.

(** ** Fluids *)
(** single_phase.py:92-160, fluid.py:44-64: attributes and methods of a
    SinglePhase (the text comp_type is left out, no synonym refers to it). *)
Definition fluid_own (o : fobj F) : string -> option (attr F) := own_of [
  ("mu", option_map Value (f_mu o)); ("B", option_map Value (f_B o));
  ("rho", option_map Value (f_rho o)); ("g", option_map Value (f_g o));
  ("comp", option_map Value (c_comp (f_c o)));
  ("set_mu", Some (Method "set_mu")); ("set_B", Some (Method "set_B"));
  ("set_rho", Some (Method "set_rho")); ("set_comp", Some (Method "set_comp"));
  ("set_props", Some (Method "set_props"))].
(** single_phase.py:166-189 allow_synonyms (it replaces the one of fluid.py:70-85) *)
Definition fluid_allow (x : fobj F * syns) : (fobj F * syns) * res unit :=
  assign_all fluid_own [
    (["set_viscosity"], "set_mu");
    (["viscosity"], "mu");
    (["set_density"], "set_rho");
    (["density"], "rho");
    (["gravity"], "g");
    (["set_formation_volume_factor"; "set_FVF"], "set_B");
    (["formation_volume_factor"; "FVF"], "B");
    (["set_properties"], "set_props")] x.
(** Arguments of a call: one number by position, or the four keywords mu, B, rho,
    comp (None stands for a keyword that is not given). *)
Inductive fargs := Pos (v : F) | Kw (mu B rho comp : option F).
(** A bound method of a fluid is called.  set_props(v) sets mu; the setters do not
    know the keywords of set_props. *)
Definition fluid_method (m : string) (a : fargs) (o : fobj F) : fobj F * res unit :=
  match a with
  | Pos v =>
      if String.eqb m "set_mu" then (set_mu o v, Ok tt)
      else if String.eqb m "set_B" then (set_B o v, Ok tt)
      else if String.eqb m "set_rho" then set_rho o v
      else if String.eqb m "set_comp" then fset_comp o v
      else if String.eqb m "set_props" then fset_props o (Some v) None None None
      else (o, Err AttributeError)
  | Kw mu B rho comp =>
      if String.eqb m "set_props" then fset_props o mu B rho comp else (o, Err TypeError)
  end.
(** "fluid.<name>(..)": the attribute is read, then called; a number cannot be called. *)
Definition fluid_call (x : fobj F * syns) (name : string) (a : fargs) : (fobj F * syns) * res unit :=
  match getattr fluid_own x name with
  | Ok (Method m) => let (o, r) := fluid_method m a (fst x) in ((o, snd x), r)
  | Ok (Value _) => (x, Err TypeError)
  | Err e => (x, Err e)
  end.
(** base.py:281-301 set_units of a fluid; synonyms are left as they are. *)
Definition fluid_units (x : fobj F * syns) (u : string) : (fobj F * syns) * res unit :=
  let (o, r) := fset_units (fst x) u in ((o, snd x), r).

(** ** Wells *)
(** wells/single_cell.py:18-42 (cell_id and constrain are not numbers and have no
    synonym). *)
Definition well_own (w : single_cell F) : string -> option (attr F) := own_of [
  ("q", option_map Value (sc_q w)); ("s", option_map Value (sc_s w)); ("r", option_map Value (sc_r w));
  ("set_cell_id", Some (Method "set_cell_id")); ("set_q", Some (Method "set_q"));
  ("set_s", Some (Method "set_s")); ("set_r", Some (Method "set_r"));
  ("set_constrain", Some (Method "set_constrain")); ("set_props", Some (Method "set_props"))].
(** wells/single_cell.py:48-55 allow_synonyms *)
Definition well_allow (x : single_cell F * syns) : (single_cell F * syns) * res unit :=
  assign_all well_own [
    (["set_properties"], "set_props");
    (["set_rate"], "set_q");
    (["rate"], "q");
    (["set_skin"], "set_s");
    (["skin"], "s");
    (["set_radius"], "set_r");
    (["radius"], "r")] x.
(** Arguments: one number, one text (for the constraint), or the keywords. *)
Inductive wargs := WPos (v : F) | WText (t : option string)
| WKw (cell : option Z) (q s r : option F) (con : option string).
(** single_cell.py:33-42 set_props on a well that may have attributes already *)
Definition keep {A} (new old : option A) : option A := match new with Some _ => new | None => old end.
Definition well_props (w : single_cell F) (cell : option Z) (q s r : option F) (con : option string) : single_cell F :=
  mkSC (keep (match cell with Some 0%Z => None | c => c end) (sc_cell w))
       (keep (truthy q) (sc_q w)) (keep (truthy s) (sc_s w)) (keep (truthy r) (sc_r w)) con.
(** single_cell.py:18-31: the setters store what they are given, also 0.  Calls
    with arguments of another kind than the setter stores (a number as cell id or
    constraint, a text as rate) are left out: they count as a TypeError. *)
Definition well_method (m : string) (a : wargs) (w : single_cell F) : single_cell F * res unit :=
  match a with
  | WPos v =>
      if String.eqb m "set_q" then (mkSC (sc_cell w) (Some v) (sc_s w) (sc_r w) (sc_con w), Ok tt)
      else if String.eqb m "set_s" then (mkSC (sc_cell w) (sc_q w) (Some v) (sc_r w) (sc_con w), Ok tt)
      else if String.eqb m "set_r" then (mkSC (sc_cell w) (sc_q w) (sc_s w) (Some v) (sc_con w), Ok tt)
      else (w, Err TypeError)
  | WText t =>
      if String.eqb m "set_constrain" then (mkSC (sc_cell w) (sc_q w) (sc_s w) (sc_r w) t, Ok tt)
      else (w, Err TypeError)
  | WKw cell q s r con =>
      if String.eqb m "set_props" then (well_props w cell q s r con, Ok tt) else (w, Err TypeError)
  end.
Definition well_call (x : single_cell F * syns) (name : string) (a : wargs) : (single_cell F * syns) * res unit :=
  match getattr well_own x name with
  | Ok (Method m) => let (w, r) := well_method m a (fst x) in ((w, snd x), r)
  | Ok (Value _) => (x, Err TypeError)
  | Err e => (x, Err e)
  end.

(** ** Models *)
(** models/model.py:49-165, models/black_oil.py:87-1135, base.py:278-370: every
    name that a BlackOil object or its classes ever define (names that begin with
    two underscores left out); what they hold plays no role here. *)
Definition model_names : list string := [
  "solution"; "solutions"; "compiler"; "compilers"; "set_comp"; "comp"; "comp_type"; "compile"; "solve"; "run";
  "set_solution"; "get_solutions"; "allow_synonyms"; "grid"; "fluid"; "cells_terms"; "dt"; "bdict"; "bdict_update";
  "n"; "cells_i"; "cells_id"; "cells_i_dict"; "boundaries_id"; "init_pressures"; "init_rates"; "pi"; "start_date";
  "wells"; "w_pressures"; "scalers_dict"; "get_shape"; "get_init_arrays"; "get_cell_trans"; "get_cells_trans";
  "get_cells_trans_diag"; "set_well"; "set_boundary"; "set_boundaries"; "set_all_boundaries"; "RHS"; "get_alpha";
  "alpha"; "update_scalers"; "get_time"; "get_centers"; "get_domain"; "set_scalers"; "get_df"; "show"; "plot";
  "plot_grid"; "copy"; "name"; "dtype"; "verbose"; "unit"; "units"; "factors"; "set_units"; "report"].
(** black_oil.py:1140-1152 allow_synonyms (it replaces the one of model.py:168-183);
    the model's attributes are any dictionary. *)
Definition model_own (d : syns) (name : string) : option (attr F) := sget name d.
Definition model_allow (d : syns) : (syns * syns) * res unit :=
  assign_all model_own [
    (["set_transmissibility"], "set_trans");
    (["transmissibility"], "T")] (d, []).
End synonyms.
Arguments syns : clear implicits.
Arguments fargs : clear implicits. Arguments wargs : clear implicits.
