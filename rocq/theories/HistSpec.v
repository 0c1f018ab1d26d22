(** Histories: sequences of calls of the public methods on a model and its
    solution.  A call that raises is caught; what it changed stays changed. *)
From Coq Require Import String ZArith Bool List.
From Verif Require Import Prelude Num GridModel GeoModel PropModel BlackOilModel FdmModel.
Import ListNotations.
Set Implicit Arguments.

Section hist.
Context {F : Type} {NF : Num F} {NT : NumT F}.
Notation solver := (solver_kind -> @mat F -> list (fl F) -> res (list (fl F))).

(** Every solve and run comes with what the linear solver answers ([slv]) and how
    sympy scales ([sc]); both may differ from call to call. *)
Inductive call : Type :=
| Set_well (cell : option Z) (q pwf r s : option F)
| Set_well_obj (w : single_cell F) (cell : option Z)
| Set_boundary (idb : Z) (cond : string) (v : F)
| Set_boundaries (bd : list (Z * (string * F)))
| Set_all_boundaries (cond : string) (v : F)
| Compile
| Solve (slv : solver) (sc : Z -> F) (fuel : nat) (sparse : bool) (o : sopts)
| Run (slv : solver) (sc : Z -> F) (n fuel : nat) (sparse thr vect mb pr : bool) (iso : option string).

(** A method of the solution; AttributeError before compile. *)
Definition of_solution (c : M (st F) unit) : M (ws F) unit := fun x =>
  match snd x with
  | None => (x, Err AttributeError)
  | Some s => match c (fst x, s) with (y, r) => ((fst y, Some (snd y)), r) end
  end.
Definition exec (c : call) : M (ws F) unit :=
  match c with
  | Set_well cell q pwf r s => set_well cell q pwf r s
  | Set_well_obj w cell => set_well_obj w cell
  | Set_boundary idb cond v => set_boundary idb cond v
  | Set_boundaries bd => set_boundaries bd
  | Set_all_boundaries cond v => set_all_boundaries cond v
  | Compile => mset (fun x => Ok (fst x, Some (fdm_new (fst x))))
  | Solve slv sc fuel sparse o => of_solution (solve slv sc fuel sparse o)
  | Run slv sc n fuel sparse thr vect mb pr iso => of_solution (run slv sc n fuel sparse thr vect mb pr iso)
  end.
Definition after (x : ws F) (l : list call) : ws F := fold_left (fun x c => fst (exec c x)) l x.
(** All calls succeed. *)
Fixpoint all_ok (x : ws F) (l : list call) : Prop :=
  match l with [] => True | c :: l' => snd (exec c x) = Ok tt /\ all_ok (fst (exec c x)) l' end.
(** [P] holds now and after every call. *)
Fixpoint always (P : ws F -> Prop) (x : ws F) (l : list call) : Prop :=
  P x /\ match l with [] => True | c :: l' => always P (fst (exec c x)) l' end.
(** Solves and runs use the vectorised assembly. *)
Definition vectorised (c : call) : Prop :=
  match c with
  | Solve _ _ _ _ o => o_vect o = true /\ o_print o = false
  | Run _ _ _ _ _ _ vect _ pr _ => vect = true /\ pr = false
  | _ => True
  end.
(** A solve or a run. *)
Definition stepping (c : call) : Prop := match c with Solve _ _ _ _ _ | Run _ _ _ _ _ _ _ _ _ _ => True | _ => False end.
End hist.
Arguments call : clear implicits.
