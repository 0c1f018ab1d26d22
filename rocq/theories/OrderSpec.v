(** The order of the calls that set a model up: vocabulary. *)
From Coq Require Import String ZArith Bool Arith List Permutation Reals.
From Verif Require Import Prelude Num GridModel BlackOilModel FdmModel HistSpec BalanceSpec.
Import ListNotations.
Close Scope R_scope.
Open Scope nat_scope.

(** A call sets the well of the cell [id]. *)
Definition on_cell {F} (id : Z) (c : call F) : bool := match c with Set_well (Some i) _ _ _ _ => Z.eqb i id | _ => false end.
(** Two setups with the same calls for every cell, in the same order cell by cell,
    and with the same boundary conditions, in any order. *)
Definition rearranged {F} (l1 : list (call F)) (ob : option (list (Z * (string * F)))) (l2 l1' : list (call F)) (ob' : option (list (Z * (string * F)))) (l2' : list (call F)) : Prop :=
  (forall id, filter (on_cell id) (l1 ++ l2) = filter (on_cell id) (l1' ++ l2')) /\
  match ob, ob' with Some bd, Some bd' => Permutation bd bd' | None, None => True | _, _ => False end.
