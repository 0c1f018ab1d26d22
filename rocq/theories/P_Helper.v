(** Property theorems (each one a lemma proved in [HelperThm.v]), the assumptions they
    rest on, and for each a concrete case meeting its hypotheses. *)
From Coq Require Import String ZArith Bool Arith Lia List.
From Verif Require Import Prelude PreludeFacts HelperModel.
Import ListNotations.
From Verif Require Import HelperThm.

(** intersection contains exactly the common rows, without changing their
    number of repetitions if no input repeats a row; unknown formats raise. *)
Theorem C78_intersection :
  forall (x y : arr2) (fmt : string),
  (In fmt ["tuple"; "list"; "array"]%string ->
     exists r, intersection x y fmt = Ok r /\ (forall a, In a r <-> In a (a_rows x) /\ In a (a_rows y)) /\
     (NoDup (a_rows x) -> NoDup (a_rows y) -> NoDup r)) /\
  (~ In fmt ["tuple"; "list"; "array"]%string -> intersection x y fmt = Err ValueError).
Proof. exact L_C78_intersection. Qed.
Print Assumptions C78_intersection.

Example C78_run :
  intersection (mkArr2 3 [[1; 0; 0]; [2; 0; 0]; [3; 0; 0]; [4; 0; 0]]%Z) (mkArr2 3 [[4; 0; 0]; [0; 1; 0]; [2; 0; 0]]%Z) "list"%string
  = Ok [[4; 0; 0]; [2; 0; 0]]%Z.
Proof. exact ex_C78_run. Qed.

(** remove_diag of a square matrix drops the i-th entry of the i-th row;
    entry by entry, column j of the result is column j or j+1 of the input. *)
Theorem C79_remove_diag :
  forall (A : Type) (rows : list (list A)) (n : nat) (d : A),
  0 < n -> length rows = n -> (forall r, In r rows -> length r = n) ->
  exists out, remove_diag rows = Ok out /\ length out = n /\
  forall i, i < n -> length (nth i out []) = n - 1 /\
  forall j, j < n - 1 -> nth j (nth i out []) d = nth (if Nat.ltb j i then j else S j) (nth i rows []) d.
Proof. exact L_C79_remove_diag. Qed.
Print Assumptions C79_remove_diag.

Example C79_run : remove_diag [[1; 2; 3]; [4; 5; 6]; [7; 8; 9]] = Ok [[2; 3]; [4; 6]; [7; 8]].
Proof. exact ex_C79_run. Qed.
