(** Which full name stands for which short one. *)
From Coq Require Import String List.
From Verif Require Import Prelude Num UnitsModel BlackOilModel SynonymModel.
Import ListNotations.
Local Open Scope string_scope.

(** Fluids: numbers and methods, full name and short name. *)
Definition fluid_values : list (string * string) := [
  ("viscosity", "mu"); ("density", "rho"); ("gravity", "g");
  ("formation_volume_factor", "B"); ("FVF", "B")].
Definition fluid_methods : list (string * string) := [
  ("set_viscosity", "set_mu"); ("set_density", "set_rho"); ("set_formation_volume_factor", "set_B");
  ("set_FVF", "set_B"); ("set_properties", "set_props")].
(** Wells. *)
Definition well_values : list (string * string) := [("rate", "q"); ("skin", "s"); ("radius", "r")].
Definition well_methods : list (string * string) := [
  ("set_properties", "set_props"); ("set_rate", "set_q"); ("set_skin", "set_s"); ("set_radius", "set_r")].

(** Anything a user may do with a fluid; a call that raises is caught. *)
Inductive fop (F : Type) := FCall (name : string) (a : fargs F) | FSetUnits (u : string) | FAllow.
Arguments FCall {F}. Arguments FSetUnits {F}. Arguments FAllow {F}.
Definition fluid_op {F} {NF : Num F} (x : fobj F * syns F) (c : fop F) : fobj F * syns F :=
  match c with
  | FCall n a => fst (fluid_call x n a)
  | FSetUnits u => fst (fluid_units x u)
  | FAllow => fst (fluid_allow x)
  end.
Definition fluid_ops {F} {NF : Num F} (x : fobj F * syns F) (l : list (fop F)) := fold_left fluid_op l x.
(** Anything a user may do with a well. *)
Inductive wop (F : Type) := WCall (name : string) (a : wargs F) | WAllow.
Arguments WCall {F}. Arguments WAllow {F}.
Definition well_op {F} {NF : Num F} (x : single_cell F * syns F) (c : wop F) : single_cell F * syns F :=
  match c with
  | WCall n a => fst (well_call x n a)
  | WAllow => fst (well_allow x)
  end.
Definition well_ops {F} {NF : Num F} (x : single_cell F * syns F) (l : list (wop F)) := fold_left well_op l x.

(** What reading an attribute gives. *)
Definition fluid_get {F} (x : fobj F * syns F) (name : string) : res (attr F) := getattr fluid_own x name.
Definition well_get {F} {NF : Num F} (x : single_cell F * syns F) (name : string) : res (attr F) := getattr well_own x name.
