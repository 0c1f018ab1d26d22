(** What boundary conditions should be. *)
From Coq Require Import String ZArith Reals Bool List.
From Verif Require Import Prelude Num GridModel GridSpec GeoModel PropModel UnitsModel BlackOilModel FdmModel.
Import ListNotations.
Local Open Scope string_scope.

(** The spellings of a condition, in any letter case. *)
Definition spellings : list (list string) :=
  [["rate"; "q"]; ["pressure"; "press"; "p"]; ["gradient"; "grad"; "g"]].
Definition same_kind (c c' : string) : Prop := exists l, In l spellings /\ In (lower c) l /\ In (lower c') l.
(** Dictionaries differing in the spelling of the conditions only. *)
Definition variants {F} (bd bd' : list (Z * (string * F))) : Prop :=
  Forall2 (fun e e' => fst e = fst e' /\ snd (snd e) = snd (snd e') /\ same_kind (fst (snd e)) (fst (snd e'))) bd bd'.
(** The word "pressure" itself is used for the same cells in both. *)
Definition same_pressure_word {F} (bd bd' : list (Z * (string * F))) : Prop :=
  Forall2 (fun e e' => fst (snd e) = "pressure" <-> fst (snd e') = "pressure") bd bd'.

(** The model with another boundary dictionary. *)
Definition with_dict {F} (bd : list (Z * (string * F))) (x : bo F * fs F) : bo F * fs F := (set_bdict bd (fst x), snd x).
(** The model with another dictionary and other cells to be updated. *)
Definition with_dict_up {F} (bd : list (Z * (string * F))) (up : list Z) (x : bo F * fs F) : bo F * fs F :=
  (set_bup up (set_bdict bd (fst x)), snd x).

(** A model as the constructor leaves it, with wells set in interior cells. *)
Definition sound {F} (m : bo F) : Prop :=
  wf (gr (geom (b_grid m))) /\ has_flow (gr (geom (b_grid m))) /\
  get_cells_id (gr (geom (b_grid m))) false = Ok (b_ids m) /\
  length (b_ip m) = get_n (gr (geom (b_grid m))) true /\
  (forall id, dget id (b_wells m) <> None -> In id (b_ids m)).
(** Pressure conditions only, in any spelling. *)
Definition pressures_only {F} (bd : list (Z * (string * F))) : Prop :=
  Forall (fun e => In (lower (fst (snd e))) ["pressure"; "press"; "p"]) bd.
