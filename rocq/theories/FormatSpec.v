(** What a result in an output format should be: a container of the requested
    kind with the requested elements.  And the layouts in which the values of
    all cells can be given. *)
From Coq Require Import String ZArith Arith List.
From Verif Require Import Prelude GridModel FormatModel.
Import ListNotations.

(** An array that holds the numbers or the points [l]: one row per element. *)
Definition holds {A} (a : arr A) (l : list (item A)) : Prop :=
  (exists d, l = map scal d /\ a = ([length d], d)) \/
  (exists d, l = map tri d /\ a = ([length d; 3], flat3 d)).

(** The result of asking for the elements [l] in the format [fmt]: lists,
    tuples and arrays keep the order, a set has every element once, any other
    format is a ValueError. *)
Definition shows {A} (fmt : option string) (l : list (item A)) (r : res (pyval A)) : Prop :=
  match fmt with
  | None => r = Err ValueError
  | Some f =>
      (f = "list"%string -> r = Ok (VList l)) /\
      (f = "tuple"%string -> r = Ok (VTup l)) /\
      (f = "set"%string -> exists s, r = Ok (VSet s) /\ NoDup s /\ forall x, In x s <-> In x l) /\
      (f = "array"%string -> exists a, r = Ok (VArr a) /\ holds a l) /\
      (~ In f ["list"; "tuple"; "set"; "array"]%string -> r = Err ValueError)
  end.

(** As [shows], for results that can also be had by direction. *)
Definition shows_dirs {A} (fmt : option string) (d : dirs (item A)) (r : res (pyval A)) : Prop :=
  (fmt = Some "dict"%string -> r = Ok (VDict d)) /\
  (fmt <> Some "dict"%string -> shows fmt (d_x d ++ d_y d ++ d_z d) r).

(** The values [d] of all cells (boundary cells included) as an array: a flat
    array or an array of the shape of the grid. *)
Definition laid_out {A} (g : grid) (d : list A) (a : arr A) : Prop :=
  a = ([length d], d) \/ exists s, get_fshape g true = Ok s /\ a = (s, d).
(** The same for points: rows of three. *)
Definition laid_out3 {A} (g : grid) (d : list (A * A * A)) (a : arr A) : Prop :=
  a = ([length d; 3], flat3 d) \/
  exists s, get_fshape g true = Ok s /\ a = (s ++ [3], flat3 d).

(** Coordinates in the order (k, j, i). *)
Definition turned (c : coord) : coord := match c with (i, j, k) => (k, j, i) end.

(** The points argument is right or left for the method to work out. *)
Definition says (p : bool) (points : option bool) : Prop := points = None \/ points = Some p.
(** An array has as many entries as its shape says. *)
Definition sound {A} (a : arr A) : Prop := length (snd a) = prodn (fst a).
