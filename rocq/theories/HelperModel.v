(** Model of array helpers (/repo/reservoirflow/utils/helpers.py).
    Definitions only. *)
From Coq Require Import String ZArith Bool Arith List.
From Verif Require Import Prelude.
Import ListNotations.
Set Implicit Arguments.

(** A two-dimensional integer array: number of columns and rows (each with that
    many entries). *)
Record arr2 := mkArr2 { a_cols : nat; a_rows : list (list Z) }.
Definition row_eqb (a b : list Z) : bool := if list_eq_dec Z.eq_dec a b then true else false.

(** helpers.py:42-74 isin for a row and a two-dimensional array (the branch of
    lines 68-73). *)
Definition isin (x : list Z) (in_data : arr2) : bool := existsb (fun a => row_eqb a x) (a_rows in_data).

(** np.max(a.shape) *)
Definition max_shape (a : arr2) : nat := Nat.max (length (a_rows a)) (a_cols a).

(** helpers.py:77-107 intersection of two-dimensional arrays; np.argmin takes
    the first of equal values; tuples and arrays of rows are both lists here. *)
Definition intersection (x y : arr2) (fmt : string) : res (list (list Z)) :=
  let xy := if Nat.leb (max_shape x) (max_shape y)
            then filter (fun a => isin a y) (a_rows x)
            else filter (fun a => isin a x) (a_rows y) in
  if smem fmt ["tuple"; "list"]%string then Ok xy
  else if String.eqb fmt "array" then Ok xy
  else Err ValueError.

(** helpers.py:214-216 remove_diag: arr[~np.eye(n)] takes the entries off the
    diagonal in row-major order (IndexError unless the array is square), then
    reshape(n, -1). *)
Definition off_diag {A} (rows : list (list A)) : list A :=
  flat_map (fun ir => map snd (filter (fun jx => negb (Nat.eqb (fst ir) (fst jx)))
                                 (combine (seq 0 (length (snd ir))) (snd ir))))
           (combine (seq 0 (length rows)) rows).
Definition reshape_rows {A} (n : nat) (l : list A) : res (list (list A)) :=
  if Nat.eqb n 0 then Err ValueError
  else if Nat.eqb (Nat.modulo (length l) n) 0 then
    Ok (map (fun i => chunk (Nat.div (length l) n) i l) (seq 0 n))
  else Err ValueError.
Definition remove_diag {A} (rows : list (list A)) : res (list (list A)) :=
  if forallb (fun r => Nat.eqb (length r) (length rows)) rows
  then reshape_rows (length rows) (off_diag rows)
  else Err IndexError.
