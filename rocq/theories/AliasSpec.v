(** Vocabulary for stating when two models share their initial rates. *)
From Coq Require Import ZArith Bool Arith List.
From Verif Require Import Prelude Num CacheModel AliasModel.
Import ListNotations.
Set Implicit Arguments.

Section alias.
Context {F : Type}.
Notation aop := (aop (F := F)).
(** The arguments of the calls of get_zeros made by a sequence of operations;
    [gs]: grids of the models so far. *)
Fixpoint zeros_calls (gs : list nat) (l : list aop) : list (nat * bool) :=
  match l with
  | [] => []
  | ANew g :: l' => (g, true) :: zeros_calls (gs ++ [g]) l'
  | ACompile m :: l' =>
      match nth_error gs m with
      | Some g => (g, false) :: zeros_calls gs l'
      | None => zeros_calls gs l'
      end
  | ASetRate _ _ _ :: l' => zeros_calls gs l'
  | AZeros g b :: l' => (g, b) :: zeros_calls gs l'
  end.
(** Grids of the models made by a sequence of operations. *)
Fixpoint grids_of (l : list aop) : list nat :=
  match l with [] => [] | ANew g :: l' => g :: grids_of l' | _ :: l' => grids_of l' end.
End alias.
