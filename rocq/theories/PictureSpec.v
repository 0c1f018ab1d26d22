(** What the properties of pictures speak about. *)
From Coq Require Import Reals ZArith List.
From Verif Require Import GridModel GridSpec.
Import ListNotations.

(** The numbers among values of which some are not known. *)
Fixpoint numbers (l : list (option R)) : list R :=
  match l with
  | [] => []
  | None :: l' => numbers l'
  | Some x :: l' => x :: numbers l'
  end.
(** The mean of numbers: their sum is as many times the mean. *)
Definition is_mean (av : R) (l : list R) : Prop := (av * INR (length l))%R = fold_right Rplus 0%R l.
(** The coordinates of a cell as numpy's indices: last axis first, without unify only
    the axes with flow. *)
Definition shown_coords (g : grid) (c : coord) : list Z :=
  map (fun a => at_axis a c) (if unify g then [AZ; AY; AX] else filter (fun a => Nat.ltb 1 (size g a)) [AZ; AY; AX]).
