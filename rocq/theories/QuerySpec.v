(** What the queries about sizes should answer: computed afresh, without memory. *)
From Coq Require Import String ZArith Bool Arith List.
From Verif Require Import Prelude GridModel QueryModel.
Import ListNotations.

Definition fresh (g : grid) (q : query) : res ans :=
  match q with
  | QD => Ok (Num (get_D g))
  | QFdir => Ok (Dir (get_fdir g))
  | QShape b => Ok (Shape (get_shape g b))
  | QN b => Ok (Num (get_n g b))
  | QNmax b => Ok (Num (get_n_max g b))
  | QFshape b p => let* s := get_fshape g b in Ok (Shape (if p then s ++ [3] else s))
  end.
(** A session without caches and attributes: the grids are their sizes. *)
Definition plain (gs : nat -> option grid) (p : op) : (nat -> option grid) * res (option ans) :=
  match p with
  | New i x y z u =>
      match gs i, grid_new x y z u with
      | Some _, _ => (gs, Err UnboundLocalError)
      | None, Err e => (gs, Err e)
      | None, Ok g => ((fun j => if j =? i then Some g else gs j), Ok None)
      end
  | Ask i _ q =>
      match gs i with
      | Some g => (gs, let* a := fresh g q in Ok (Some a))
      | None => (gs, Err UnboundLocalError)
      end
  end.
Fixpoint plain_run (gs : nat -> option grid) (l : list op) : list (res (option ans)) :=
  match l with
  | [] => []
  | p :: l' => let (gs', r) := plain gs p in r :: plain_run gs' l'
  end.
