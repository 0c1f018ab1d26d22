(** The equations kept in cells_terms: vocabulary. *)
From Coq Require Import String ZArith Bool Arith List Reals.
From Verif Require Import Prelude Num GridModel GeoModel PropModel BlackOilModel FdmModel HistSpec.
Import ListNotations.
Close Scope R_scope.
Open Scope nat_scope.

Section kept.
Context {F : Type} {NF : Num F} {NT : NumT F}.
(** The model with cells_terms emptied. *)
Definition forget (x : ws F) : ws F := (set_terms [] (fst x), snd x).
(** A history in which cells_terms is emptied before every call. *)
Definition exec_f (c : call F) (x : ws F) : ws F * res unit := exec c (forget x).
Fixpoint after_f (x : ws F) (l : list (call F)) : ws F :=
  match l with [] => x | c :: l' => after_f (fst (exec_f c x)) l' end.
Fixpoint outcomes_f (x : ws F) (l : list (call F)) : list (res unit) :=
  match l with [] => [] | c :: l' => snd (exec_f c x) :: outcomes_f (fst (exec_f c x)) l' end.
(** A well stays in the cell, or none: it is controlled by its pressure now (its
    pressure, factor, ... may have changed, and it may have had a rate before), or it keeps its rate, or
    it is the same. *)
Definition well_stays (w w' : option (well F)) : Prop :=
  match w, w' with
  | None, None => True
  | Some w, Some w' =>
      w_con w' = Some (Some "pwf"%string) \/
      (w_con w = Some (Some "q"%string) /\ w_con w' = w_con w /\ w_q w <> None /\ w_q w' = w_q w) \/ w' = w
  | _, _ => False
  end.
(** From one state to the next: the boundary conditions and the wells of the cells with
    kept terms stay. *)
Definition steady (x y : ws F) : Prop := forall id, dget id (b_terms (fst y)) <> None ->
  (forall idb, dget idb (b_bdict (fst y)) = dget idb (b_bdict (fst x))) /\
  well_stays (dget id (b_wells (fst x))) (dget id (b_wells (fst y))).
(** ... in every pass of a step: a step cut off after [j] passes leaves the state
    after [j] passes. *)
Definition steady_call (x : ws F) (c : call F) : Prop :=
  match c with
  | Solve slv sc fuel sp o => forall j, j < fuel -> steady (fst (exec (Solve slv sc j sp o) x)) (fst (exec (Solve slv sc (S j) sp o) x))
  | Run _ _ _ _ _ _ _ _ _ _ => False
  | _ => steady x (fst (exec c x))
  end.
End kept.
(** Pressure-controlled wells: set_well is called with pwf and without q and succeeds;
    once there are kept terms, only for cells that have a well; set_boundaries is
    called only before that. *)
Definition none_kept {F} (x : ws F) : Prop := forall id, dget id (b_terms (fst x)) = None.
Definition pressure_call (x : ws R) (c : call R) : Prop :=
  match c with
  | Set_well (Some id) None (Some _) _ _ => snd (exec c x) = Ok tt /\ (none_kept x \/ dget id (b_wells (fst x)) <> None)
  | Set_boundaries _ => none_kept x
  | Set_boundary _ _ _ | Set_all_boundaries _ _ | Compile | Solve _ _ _ _ _ => True
  | _ => False
  end.
