(** A model by itself: the calls a script makes on it, with every object passed as
    the value it was given in the script. *)
From Coq Require Import String ZArith Bool List.
From Verif Require Import Prelude Num GridModel GeoModel PropModel BlackOilModel FdmModel HistSpec WorldModel.
Import ListNotations.
Set Implicit Arguments.

Section alone.
Context {F : Type} {NF : Num F} {NT : NumT F}.
(** What the script has said so far: the wells described, those passed to a model,
    the dictionaries written down, those passed to a model. *)
Record env := mkEnv { e_wells : list (Z * single_cell F); e_put : list Z; e_dicts : list (Z * bdict (F := F)); e_lent : list Z }.
Definition env0 : env := mkEnv [] [] [] [].
Definition learn (e : env) (c : cmd F) : env :=
  match c with
  | Make_well o s => mkEnv (dset o s (e_wells e)) (e_put e) (e_dicts e) (e_lent e)
  | Tell_rate o q =>
    mkEnv (match dget o (e_wells e) with Some s => dset o (mkSC (sc_cell s) (Some q) (sc_s s) (sc_r s) (sc_con s)) (e_wells e) | None => e_wells e end)
      (e_put e) (e_dicts e) (e_lent e)
  | Make_dict d bd => mkEnv (e_wells e) (e_put e) (dset d bd (e_dicts e)) (e_lent e)
  | Edit_dict d id v =>
    mkEnv (e_wells e) (e_put e) (match dget d (e_dicts e) with Some bd => dset d (dset id v bd) (e_dicts e) | None => e_dicts e end) (e_lent e)
  | Put_well _ o _ => mkEnv (e_wells e) (o :: e_put e) (e_dicts e) (e_lent e)
  | Put_dict _ d => mkEnv (e_wells e) (e_put e) (e_dicts e) (d :: e_lent e)
  | On _ _ => e
  end.
(** The calls on the model [k]. *)
Definition said (k : Z) (e : env) (c : cmd F) : list (call F) :=
  match c with
  | Put_well k' o cell => if Z.eqb k' k then match dget o (e_wells e) with Some s => [Set_well_obj s cell] | None => [] end else []
  | Put_dict k' d => if Z.eqb k' k then match dget d (e_dicts e) with Some bd => [Set_boundaries bd] | None => [] end else []
  | On k' c => if Z.eqb k' k then [c] else []
  | _ => []
  end.
Fixpoint alone (k : Z) (e : env) (l : list (cmd F)) : list (call F) :=
  match l with [] => [] | c :: l' => said k e c ++ alone k (learn e c) l' end.
(** Names are not used again, a well object is passed at most once and not changed
    afterwards, a dictionary is not changed after it has been passed. *)
Definition fair (e : env) (c : cmd F) : Prop :=
  match c with
  | Make_well o _ => dget o (e_wells e) = None /\ ~ In o (e_put e)
  | Tell_rate o _ => dget o (e_wells e) <> None /\ ~ In o (e_put e)
  | Make_dict d _ => dget d (e_dicts e) = None /\ ~ In d (e_lent e)
  | Edit_dict d _ _ => dget d (e_dicts e) <> None /\ ~ In d (e_lent e)
  | Put_well _ o _ => dget o (e_wells e) <> None /\ ~ In o (e_put e)
  | Put_dict _ d => dget d (e_dicts e) <> None
  | On _ _ => True
  end.
Fixpoint careful (e : env) (l : list (cmd F)) : Prop :=
  match l with [] => True | c :: l' => fair e c /\ careful (learn e c) l' end.
(** What the commands on the model [k] return or raise. *)
Definition addressed (k : Z) (c : cmd F) : bool :=
  match c with Put_well k' _ _ | Put_dict k' _ | On k' _ => Z.eqb k' k | _ => false end.
Fixpoint answers (k : Z) (w : world F) (l : list (cmd F)) : list (res unit) :=
  match l with [] => [] | c :: l' => (if addressed k c then [snd (play c w)] else []) ++ answers k (fst (play c w)) l' end.
(** No further well object is passed to a model. *)
Definition quiet (c : cmd F) : Prop :=
  match c with Put_well _ _ _ | On _ (Set_well_obj _ _) => False | _ => True end.
(** The well of a cell of a model. *)
Definition well_at (w : world F) (k id : Z) : option (well F) := match seen w k with Some x => dget id (b_wells (fst x)) | None => None end.
End alone.
Arguments env : clear implicits.
