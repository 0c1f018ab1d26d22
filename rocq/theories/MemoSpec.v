(** Histories with the cache of the boundary terms: vocabulary. *)
From Coq Require Import String ZArith Bool Arith List.
From Verif Require Import Prelude Num GridModel GeoModel PropModel BlackOilModel FdmModel HistSpec MemoModel.
Import ListNotations.
Open Scope nat_scope.

Section memo.
Context {F : Type} {NF : Num F} {NT : NumT F}.
(** What the calls return or raise. *)
Fixpoint outcomes (x : ws F) (l : list (call F)) : list (res unit) :=
  match l with [] => [] | c :: l' => snd (exec c x) :: outcomes (fst (exec c x)) l' end.
Fixpoint outcomes_m (x : ws F * memo F) (l : list (call F)) : list (res unit) :=
  match l with [] => [] | c :: l' => snd (exec_m c x) :: outcomes_m (fst (exec_m c x)) l' end.
(** The boundary conditions stay: all of them, or, with only vectorised steps, those of
    the boundaries with a prescribed pressure. *)
Definition conditions_stay (vect : bool) (x y : ws F) : Prop :=
  forall idb, (vect = true -> In idb (b_bup (fst x))) ->
  dget idb (b_bdict (fst y)) = dget idb (b_bdict (fst x)) /\ (vect = true -> In idb (b_bup (fst y))).
(** From the first step of a solution on the conditions stay until it is compiled anew. *)
Fixpoint undisturbed (vect stepped : bool) (x : ws F) (l : list (call F)) : Prop :=
  match l with
  | [] => True
  | c :: l' =>
      (stepped = true -> conditions_stay vect x (fst (exec c x))) /\ (vect = true -> vectorised c) /\
      undisturbed vect (match c with Compile => false | Solve _ _ _ _ _ | Run _ _ _ _ _ _ _ _ _ _ => true | _ => stepped end) (fst (exec c x)) l'
  end.
(** set_boundaries is called only before the first step of a solution (or before it is
    compiled anew). *)
Fixpoint boundaries_first (stepped : bool) (l : list (call F)) : Prop :=
  match l with
  | [] => True
  | Set_boundaries _ :: l' => stepped = false /\ boundaries_first stepped l'
  | Compile :: l' => boundaries_first false l'
  | Solve _ _ _ _ _ :: l' | Run _ _ _ _ _ _ _ _ _ _ :: l' => boundaries_first true l'
  | _ :: l' => boundaries_first stepped l'
  end.
End memo.
