(** The rock properties of a grid with the array objects made visible: arrays live in
    a heap, __props__, the attributes (self.kx, self.phi, self.z) and the dictionary
    self.k hold addresses, and so do the full names of allow_synonyms.
    (/repo/reservoirflow/grids/regular_cartesian.py:2260-2426, 3016-3047;
    grids/grid.py:62-94.)  Definitions only. *)
From Coq Require Import String ZArith Bool Arith List.
From Verif Require Import Prelude Num GridModel GeoModel PropModel.
Import ListNotations.
Set Implicit Arguments.

Definition pname_eqb (a b : pname) : bool :=
  match a, b with KX, KX | KY, KY | KZ, KZ | PHI, PHI | ZED, ZED => true | _, _ => false end.
Definition fset {A} (n : pname) (v : A) (f : pname -> A) : pname -> A := fun m => if pname_eqb m n then v else f m.

(** [r_cur]: addresses in __props__; [r_att]: in the attributes; [r_k]: in the
    dictionary k (its keys x, y, z are named KX, KY, KZ); [r_syn]: in the attributes
    porosity (PHI), permeability_x (KX), permeability_y (KY), permeability_z (KZ) and
    tops (ZED); [r_perm]: whether the attribute permeability exists (it is the
    dictionary self.k itself). *)
Record rprops (F : Type) := mkRef {
  r_heap : list (list F); r_cur : pname -> option nat; r_att : pname -> option nat; r_k : pname -> option nat;
  r_syn : pname -> option nat; r_perm : bool; r_comp : option F; r_ctype : option string }.
Arguments mkRef {F}.

Section refs.
Context {F : Type} {NF : Num F}.

(** grid.py:62-68 *)
Definition ref0 : rprops F := mkRef [] (fun _ => None) (fun _ => None) (fun _ => None) (fun _ => None) false None None.
(** The array at an address that may be missing. *)
Definition deref (h : list (list F)) (a : option nat) : option (list F) :=
  match a with Some a => nth_error h a | None => None end.

(** regular_cartesian.py:2359-2426 set_prop: "ones * value" is a new array, the item
    assignment changes the array in place. *)
Definition rset_prop (g : grid) (p : rprops F) (n : pname) (v : dinput F) (r : option cellref) : rprops F * res unit :=
  match p with
  | mkRef h cu at_ k sy pe co ct =>
      match r with
      | None =>
          match bcast (get_n g true) v with
          | Ok l => (mkRef (h ++ [l]) (fset n (Some (length h)) cu) at_ k sy pe co ct, Ok tt)
          | Err e => (p, Err e)
          end
      | Some r =>
          let res :=
            let* c := match r with ById id => get_cell_coords g id true | ByCoords c => Ok c end in
            let* ic := get_cell_icoords g c in
            match cu n with
            | None => Err TypeError
            | Some a =>
                match nth_error h a with
                | None => Err TypeError
                | Some l => match v with
                            | Scalar x => let* l' := flat_set l ic x in Ok (a, l')
                            | Vec _ => Err ValueError
                            end
                end
            end in
          match res with
          | Ok (a, l) => (mkRef (upd h a l) cu at_ k sy pe co ct, Ok tt)
          | Err e => (p, Err e)
          end
      end
  end.
(** self.kx = self.k["x"] = self.__props__["kx"]; phi and z are not in k. *)
Definition rlink (n : pname) (p : rprops F) : rprops F :=
  match p with
  | mkRef h cu at_ k sy pe co ct =>
      mkRef h cu (fset n (cu n) at_) (match n with KX | KY | KZ => fset n (cu n) k | _ => k end) sy pe co ct
  end.
Definition rset_linked (g : grid) (n : pname) (v : option (dinput F)) (r : option cellref) (s : rprops F * res unit) : rprops F * res unit :=
  match s, v with
  | (p, Ok _), Some v => match rset_prop g p n v r with (p', Ok _) => (rlink n p', Ok tt) | x => x end
  | _, _ => s
  end.
(** grid.py:70-94 set_comp *)
Definition rset_comp (p : rprops F) (c : F) : rprops F * res unit :=
  match p with
  | mkRef h cu at_ k sy pe _ _ => (mkRef h cu at_ k sy pe (Some c) (fst (comp_class c)), snd (comp_class c))
  end.
(** 2260-2339 set_props *)
Definition rset_props (g : grid) (p : rprops F) (kx ky kz phi z : option (dinput F)) (comp : option F) (r : option cellref) : rprops F * res unit :=
  let s := rset_linked g KX kx r (p, Ok tt) in
  let s := rset_linked g KY ky r s in
  let s := rset_linked g KZ kz r s in
  let s := rset_linked g PHI phi r s in
  let s := rset_linked g ZED z r s in
  let s := match s, comp with (p, Ok _), Some c => rset_comp p c | _, _ => s end in
  let s := match s with
           | (p, Ok _) => match r_cur p ZED with
                          | None => rset_linked g ZED (Some (Scalar n0)) None (p, Ok tt)
                          | Some _ => s
                          end
           | _ => s
           end in
  match s with
  | (p, Ok _) => match r_comp p with None => rset_comp p n0 | Some _ => s end
  | _ => s
  end.
(** "self.porosity = self.phi" and alike *)
Definition rname (n : pname) (s : rprops F * res unit) : rprops F * res unit :=
  match s with
  | (mkRef h cu at_ k sy pe co ct as p, Ok _) =>
      match at_ n with Some a => (mkRef h cu at_ k (fset n (Some a) sy) pe co ct, Ok tt) | None => (p, Err AttributeError) end
  | _ => s
  end.
Definition rperm (s : rprops F * res unit) : rprops F * res unit :=
  match s with (mkRef h cu at_ k sy _ co ct, Ok _) => (mkRef h cu at_ k sy true co ct, Ok tt) | _ => s end.
(** 3036-3047 allow_synonyms; the methods, the flow shape and the dimension (which the
    constructor has set) are left out. *)
Definition rallow (p : rprops F) : rprops F * res unit :=
  let s := rname PHI (p, Ok tt) in
  let s := rperm s in
  let s := rname KX s in
  let s := rname KY s in
  let s := rname KZ s in
  rname ZED s.

(** What a user may do; an exception is caught. *)
Inductive rop :=
| RSetProps (kx ky kz phi z : option (dinput F)) (comp : option F) (r : option cellref)
| RSetProp (n : pname) (v : dinput F) (r : option cellref)
| RSetComp (c : F)
| RAllow.
Definition rstep (g : grid) (p : rprops F) (o : rop) : rprops F * res unit :=
  match o with
  | RSetProps kx ky kz phi z comp r => rset_props g p kx ky kz phi z comp r
  | RSetProp n v r => rset_prop g p n v r
  | RSetComp c => rset_comp p c
  | RAllow => rallow p
  end.
Fixpoint rrun (g : grid) (p : rprops F) (l : list rop) : rprops F * list (res unit) :=
  match l with
  | [] => (p, [])
  | o :: l' => let (p', r) := rstep g p o in let (p'', rs) := rrun g p' l' in (p'', r :: rs)
  end.
End refs.
Arguments rop F : clear implicits.
