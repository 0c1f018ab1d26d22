(** What can be read of the properties of a grid, and which calls replace arrays. *)
From Coq Require Import String ZArith Bool Arith List.
From Verif Require Import Prelude Num GridModel GeoModel PropModel RefModel.
Import ListNotations.

Section spec.
Context {F : Type} {NF : Num F}.
(** __props__["kx"], grid.kx, grid.k["x"], grid.permeability_x, grid.permeability["x"] (and alike) *)
Definition of_props (p : rprops F) (n : pname) : option (list F) := deref (r_heap p) (r_cur p n).
Definition of_attr (p : rprops F) (n : pname) : option (list F) := deref (r_heap p) (r_att p n).
Definition of_dict (p : rprops F) (n : pname) : option (list F) := deref (r_heap p) (r_k p n).
Definition of_name (p : rprops F) (n : pname) : option (list F) := deref (r_heap p) (r_syn p n).
Definition of_permeability (p : rprops F) (n : pname) : option (list F) := if r_perm p then of_dict p n else None.

(** The same calls on the grid without heap; allow_synonyms changes no property. *)
Definition pstep (g : grid) (p : props F) (o : rop F) : props F * res unit :=
  match o with
  | RSetProps kx ky kz phi z comp r => set_props g p kx ky kz phi z comp r
  | RSetProp n v r => set_prop g p n v r
  | RSetComp c => set_comp p c
  | RAllow => (p, Ok tt)
  end.
Definition is_allow (o : rop F) : bool := match o with RAllow => true | _ => false end.
Fixpoint prun (g : grid) (p : props F) (l : list (rop F)) : props F * list (res unit) :=
  match l with
  | [] => (p, [])
  | o :: l' => let (p', r) := pstep g p o in let (p'', rs) := prun g p' l' in (p'', r :: rs)
  end.
(** A call that is for all cells and gives the property: it makes a new array. *)
Definition has_in {A} (o : option A) : bool := match o with Some _ => true | None => false end.
Definition replaces (n : pname) (o : rop F) : bool :=
  match o with
  | RSetProps kx ky kz phi z _ None => has_in (match n with KX => kx | KY => ky | KZ => kz | PHI => phi | ZED => z end)
  | RSetProp m _ None => pname_eqb m n
  | _ => false
  end.
(** Calls for all cells. *)
Definition whole (o : rop F) : bool := match o with RSetProps _ _ _ _ _ _ (Some _) | RSetProp _ _ (Some _) => false | _ => true end.
(** The properties a call is about. *)
Definition mentions (n : pname) (o : rop F) : bool :=
  match o with
  | RSetProps kx ky kz phi z _ _ => has_in (match n with KX => kx | KY => ky | KZ => kz | PHI => phi | ZED => z end)
  | RSetProp m _ _ => pname_eqb m n
  | _ => false
  end.
End spec.
