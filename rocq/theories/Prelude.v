(** Shared vocabulary of the models: exceptions as values, Python-style
    indexing, numpy-style array operations on flat lists.  Definitions only;
    lemmas are in [PreludeFacts.v]. *)
From Coq Require Import String ZArith Bool Arith List.
Import ListNotations.
Set Implicit Arguments.

(** Python exception classes raised by the modelled code. *)
Inductive exn :=
| ValueError | AssertionError | IndexError | KeyError | TypeError
| AttributeError | NotImplementedError | UnboundLocalError
| GenericException | RecursionError.

(** Result of a Python call that does not mutate anything: a value or a
    raised exception. *)
Inductive res (A : Type) := Ok (a : A) | Err (e : exn).
Arguments Ok {A} a.
Arguments Err {A} e.

Definition rbind {A B} (x : res A) (f : A -> res B) : res B :=
  match x with Ok a => f a | Err e => Err e end.
Definition rmap {A B} (f : A -> B) (x : res A) : res B :=
  match x with Ok a => Ok (f a) | Err e => Err e end.

Declare Scope res_scope.
Notation "'let*' x ':=' e1 'in' e2" := (rbind e1 (fun x => e2))
  (at level 200, x pattern, e1 at level 100, e2 at level 200) : res_scope.
Open Scope res_scope.

(** Python [assert b]. *)
Definition passert (b : bool) : res unit := if b then Ok tt else Err AssertionError.

(** Python list comprehension whose body may raise: left to right, first
    exception wins. *)
Fixpoint rmapM {A B} (f : A -> res B) (l : list A) : res (list B) :=
  match l with
  | [] => Ok []
  | a :: l' => let* b := f a in let* bs := rmapM f l' in Ok (b :: bs)
  end.

(** Python sequence indexing [l[i]]: negative indices count from the end,
    anything else out of range raises IndexError. *)
Definition pyget {A} (l : list A) (i : Z) : res A :=
  let n := Z.of_nat (length l) in
  let i' := if (i <? 0)%Z then (i + n)%Z else i in
  if (0 <=? i')%Z then
    match nth_error l (Z.to_nat i') with Some a => Ok a | None => Err IndexError end
  else Err IndexError.

(** Python item assignment [l[i] = v]. *)
Fixpoint upd {A} (l : list A) (i : nat) (v : A) : list A :=
  match l, i with
  | [], _ => []
  | _ :: t, 0 => v :: t
  | a :: t, S i' => a :: upd t i' v
  end.
Definition pyset {A} (l : list A) (i : Z) (v : A) : res (list A) :=
  let n := Z.of_nat (length l) in
  let i' := if (i <? 0)%Z then (i + n)%Z else i in
  if ((0 <=? i') && (i' <? n))%Z then Ok (upd l (Z.to_nat i') v) else Err IndexError.

(** Python [x in l] for integers. *)
Definition zmem (z : Z) (l : list Z) : bool := existsb (Z.eqb z) l.

Definition map2 {A B C} (f : A -> B -> C) (l : list A) (m : list B) : list C :=
  map (fun p => f (fst p) (snd p)) (combine l m).

(** ** numpy arrays as flat row-major lists with a shape *)

Definition prodn (s : list nat) : nat := fold_right Nat.mul 1 s.

(** Row-major position of a multi-index. *)
Fixpoint ravel (s : list nat) (idx : list nat) : nat :=
  match s, idx with
  | n :: s', i :: idx' => i * prodn s' + ravel s' idx'
  | _, _ => 0
  end.

(** The array whose entry at multi-index [idx] is [f idx]. *)
Fixpoint tab {A} (s : list nat) (f : list nat -> A) : list A :=
  match s with
  | [] => [f []]
  | n :: s' => flat_map (fun i => tab s' (fun r => f (i :: r))) (seq 0 n)
  end.

(** [i]-th block of [m] consecutive entries. *)
Definition chunk {A} (m i : nat) (l : list A) : list A := firstn m (skipn (i * m) l).

(** numpy fancy/basic indexing along axis [ax] with the index list [sel],
    all other axes being [:]. *)
Fixpoint take_ax {A} (s : list nat) (ax : nat) (sel : list nat) (l : list A) : list A :=
  match s with
  | [] => l
  | n :: s' =>
      match ax with
      | 0 => flat_map (fun i => chunk (prodn s') i l) sel
      | S ax' => flat_map (fun i => take_ax s' ax' sel (chunk (prodn s') i l)) (seq 0 n)
      end
  end.

(** Shape after [take_ax]. *)
Definition take_shape (s : list nat) (ax : nat) (sel : list nat) : list nat :=
  upd s ax (length sel).

(** numpy.transpose: axis [p] of the result is axis [nth p axes] of the input. *)
Definition transpose {A} (d : A) (s axes : list nat) (l : list A) : list A :=
  tab (map (fun a => nth a s 0) axes)
      (fun r =>
         let idx := map (fun a =>
             (* position of [a] in [axes] gives the result coordinate *)
             nth ((fix pos (xs : list nat) : nat :=
                     match xs with
                     | [] => 0
                     | x :: xs' => if Nat.eqb x a then 0 else S (pos xs')
                     end) axes) r 0) (seq 0 (length s)) in
         nth (ravel s idx) l d).

(** numpy.repeat (1D): every element [m] times. *)
Definition np_repeat {A} (l : list A) (m : nat) : list A :=
  flat_map (fun a => List.repeat a m) l.
(** numpy.tile (1D): the whole list [m] times. *)
Definition np_tile {A} (l : list A) (m : nat) : list A :=
  flat_map (fun _ => l) (seq 0 m).

(** Insertion sort, for numpy.sort on integers. *)
Fixpoint zinsert (z : Z) (l : list Z) : list Z :=
  match l with
  | [] => [z]
  | x :: t => if (z <=? x)%Z then z :: l else x :: zinsert z t
  end.
Definition zsort (l : list Z) : list Z := fold_right zinsert [] l.

(** ASCII str.lower(). *)
Definition lower_ascii (c : Ascii.ascii) : Ascii.ascii :=
  let n := Ascii.nat_of_ascii c in
  if (Nat.leb 65 n && Nat.leb n 90)%bool then Ascii.ascii_of_nat (n + 32) else c.
Fixpoint lower (s : string) : string :=
  match s with
  | EmptyString => EmptyString
  | String c s' => String (lower_ascii c) (lower s')
  end.
(** Python [s in list] for strings. *)
Definition smem (s : string) (l : list string) : bool := existsb (String.eqb s) l.

(** ** Insertion-ordered dictionaries with integer keys *)
Fixpoint dget {A} (k : Z) (d : list (Z * A)) : option A :=
  match d with
  | [] => None
  | (k', v) :: d' => if Z.eqb k k' then Some v else dget k d'
  end.
(** [d[k] = v]: keeps the position of an existing key, appends a new one. *)
Fixpoint dset {A} (k : Z) (v : A) (d : list (Z * A)) : list (Z * A) :=
  match d with
  | [] => [(k, v)]
  | (k', v') :: d' => if Z.eqb k k' then (k', v) :: d' else (k', v') :: dset k v d'
  end.
Definition dkeys {A} (d : list (Z * A)) : list Z := map fst d.
