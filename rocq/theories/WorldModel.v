(** Several models and the objects their caller passes to them.  set_well(well=...)
    stores the dictionary of the well object itself (black_oil.py:480-486
    "self.wells[cell_id] = vars(well)"), set_boundaries stores the dictionary it is
    given (black_oil.py:586-587 "self.bdict = bdict"): both stay shared. *)
From Coq Require Import String ZArith Bool List.
From Verif Require Import Prelude Num GridModel GeoModel PropModel BlackOilModel FdmModel HistSpec.
Import ListNotations.
Set Implicit Arguments.

Section world.
Context {F : Type} {NF : Num F} {NT : NumT F}.
(** What set_boundaries is given. *)
Definition bdict := list (Z * (string * F)).

(** One model: its state, the cells whose well is the dictionary of a well object
    (by name), and the boundary dictionary shared with the caller (by name).  The
    wells of tied cells and a shared dictionary are looked up in the world. *)
Record inst := mkInst { i_ws : ws F; i_ties : list (Z * Z); i_dict : option Z }.
(** Well objects (vars(well): the cell_id and the rest), dictionaries, models. *)
Record world := mkWorld { w_objs : list (Z * (option Z * well F)); w_dicts : list (Z * bdict); w_insts : list (Z * inst) }.

(** What a script does.
    - wells/single_cell.py:15-42 SingleCell(...), 21-22 set_q
    - a dictionary written down, an entry of it assigned
    - black_oil.py:459-527 set_well(well=o), 576-595 set_boundaries(d)
    - any other call on a model *)
Inductive cmd : Type :=
| Make_well (o : Z) (w : single_cell F)
| Tell_rate (o : Z) (q : F)
| Make_dict (d : Z) (bd : bdict)
| Edit_dict (d : Z) (id : Z) (c : string * F)
| Put_well (k : Z) (o : Z) (cell : option Z)
| Put_dict (k : Z) (d : Z)
| On (k : Z) (c : call F).

(** The wells as the model sees them. *)
Definition look (objs : list (Z * (option Z * well F))) (d : list (Z * well F)) (t : Z * Z) : list (Z * well F) :=
  if din (fst t) d then match dget (snd t) objs with Some (_, w) => dset (fst t) w d | None => d end else d.
Definition view (w : world) (i : inst) : ws F :=
  let m := fst (i_ws i) in
  let m := set_wells (fold_left (look (w_objs w)) (i_ties i) (b_wells m)) m in
  let m := match i_dict i with Some d => match dget d (w_dicts w) with Some bd => set_bdict bd m | None => m end | None => m end in
  (m, snd (i_ws i)).
(** What a method assigned to the wells of the cells [ts] is in their objects. *)
Definition save (d : list (Z * well F)) (objs : list (Z * (option Z * well F))) (t : Z * Z) : list (Z * (option Z * well F)) :=
  match dget (fst t) d, dget (snd t) objs with Some w, Some (c, _) => dset (snd t) (c, w) objs | _, _ => objs end.
(** The cells whose well a call assigns to.  (Simplified: the steps assign to every
    well in turn; if two cells of one model are tied to one object, what the first
    assigns is here not seen by the second before the end of the call.) *)
Definition concerns (c : call F) (ties : list (Z * Z)) : list (Z * Z) :=
  match c with
  | Set_well (Some id) _ _ _ _ => filter (fun t => Z.eqb (fst t) id) ties
  | Set_well None _ _ _ _ | Set_well_obj _ _ => []
  | _ => ties
  end.
(** A well object without a name takes the place of the one tied to its cell. *)
Definition untied (c : call F) (m : bo F) (ties : list (Z * Z)) : list (Z * Z) :=
  match c with
  | Set_well_obj w cell =>
    match (match cell with Some id => Some id | None => sc_cell w end) with
    | Some id => if zmem id (b_ids m) then filter (fun t => negb (Z.eqb (fst t) id)) ties else ties
    | None => ties
    end
  | _ => ties
  end.
Definition tell (q : F) (w : well F) : well F := match w with mkWell _ b c d e f g h i => mkWell (Some (Some q)) b c d e f g h i end.

(** One command; names that do not exist raise (NameError, here KeyError). *)
Definition play (c : cmd) (w : world) : world * res unit :=
  match c with
  | Make_well o s => (mkWorld (dset o (sc_cell s, well_of s) (w_objs w)) (w_dicts w) (w_insts w), Ok tt)
  | Tell_rate o q =>
    match dget o (w_objs w) with
    | Some (c, v) => (mkWorld (dset o (c, tell q v) (w_objs w)) (w_dicts w) (w_insts w), Ok tt)
    | None => (w, Err KeyError)
    end
  | Make_dict d bd => (mkWorld (w_objs w) (dset d bd (w_dicts w)) (w_insts w), Ok tt)
  | Edit_dict d id v =>
    match dget d (w_dicts w) with
    | Some bd => (mkWorld (w_objs w) (dset d (dset id v bd) (w_dicts w)) (w_insts w), Ok tt)
    | None => (w, Err KeyError)
    end
  | Put_well k o cell =>
    match dget k (w_insts w), dget o (w_objs w) with
    | Some i, Some (c, v) =>
      let x := view w i in
      match (match cell with Some id => Some id | None => c end) with
      | None => (w, Err AttributeError)
      | Some id =>
        if zmem id (b_ids (fst x)) then
          let (y, r) := set_well_tail id (set_wells (dset id v (b_wells (fst x))) (fst x), snd x) in
          (mkWorld (save (b_wells (fst y)) (w_objs w) (id, o)) (w_dicts w) (dset k (mkInst y (dset id o (i_ties i)) (i_dict i)) (w_insts w)), r)
        else (w, Err AssertionError)
      end
    | _, _ => (w, Err KeyError)
    end
  | Put_dict k d =>
    match dget k (w_insts w), dget d (w_dicts w) with
    | Some i, Some bd =>
      let (y, r) := set_boundaries bd (view w i) in
      (mkWorld (w_objs w) (w_dicts w) (dset k (mkInst y (i_ties i) (Some d)) (w_insts w)), r)
    | _, _ => (w, Err KeyError)
    end
  | On k c =>
    match dget k (w_insts w) with
    | Some i =>
      let (y, r) := exec c (view w i) in
      (mkWorld (fold_left (save (b_wells (fst y))) (concerns c (i_ties i)) (w_objs w)) (w_dicts w)
        (dset k (mkInst y (untied c (fst (i_ws i)) (i_ties i)) (match c with Set_boundaries _ => None | _ => i_dict i end)) (w_insts w)), r)
    | None => (w, Err KeyError)
    end
  end.
Definition plays (w : world) (l : list cmd) : world := fold_left (fun w c => fst (play c w)) l w.
(** The models, nothing shared yet. *)
Definition world_of (ms : list (Z * ws F)) : world := mkWorld [] [] (map (fun e => (fst e, mkInst (snd e) [] None)) ms).
(** What is seen of a model. *)
Definition seen (w : world) (k : Z) : option (ws F) := option_map (view w) (dget k (w_insts w)).
End world.
Arguments world : clear implicits.
Arguments cmd : clear implicits.
Arguments inst : clear implicits.
