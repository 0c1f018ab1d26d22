(** Property theorems (each one a lemma proved in [AliasThm.v]), the assumptions they
    rest on, and for each a concrete case meeting its hypotheses. *)
From Coq Require Import ZArith Reals Bool Arith Lia Lra List.
From Verif Require Import Prelude PreludeFacts Num CacheModel CacheProofs AliasModel AliasSpec.
Import ListNotations.
Close Scope R_scope.
From Verif Require Import AliasThm.
Close Scope R_scope.

(** Two models (made first on grid g, then on grid g', after l1 and with the
    operations l2 in between) are independent as soon as one call of get_zeros
    with other arguments was made between the two constructions: another model
    on another grid, or a compile of a model. *)
Theorem C76_independent_partial :
  forall (F : Type) (NF : Num F) (sz : nat -> bool -> nat) (l1 l2 l3 : list (aop (F := F))) (g g' : nat)
         (id : Z) (v : F),
  let w := arun sz world0 (l1 ++ ANew g :: l2 ++ ANew g' :: l3) in
  let m := length (grids_of l1) in
  let m' := length (grids_of (l1 ++ ANew g :: l2)) in
  (exists q, In q ((zeros_calls (grids_of l1 ++ [g]) l2) ++ [(g', true)]) /\ q <> (g, true)) ->
  init_rates (astep sz w (ASetRate m id v)) m' = init_rates w m' /\
  init_rates (astep sz w (ASetRate m' id v)) m = init_rates w m.
Proof. exact L_C76_independent_partial. Qed.
Print Assumptions C76_independent_partial.

Example C76_independent_hyps :
  let l2 := [ACompile (F := R) 0; ASetRate 0 1 5%R] in
  exists q, In q (zeros_calls (grids_of (F := R) [] ++ [7]) l2 ++ [(7, true)]) /\ q <> (7, true).
Proof. exact ex_C76_independent_hyps. Qed.

(** In all other cases the two models share one array: every boundary rate set on
    one of them is set on the other. *)
Theorem C76_shared :
  forall (F : Type) (NF : Num F) (sz : nat -> bool -> nat) (l1 l2 l3 : list (aop (F := F))) (g : nat)
         (id : Z) (v : F),
  let w := arun sz world0 (l1 ++ ANew g :: l2 ++ ANew g :: l3) in
  let m := length (grids_of l1) in
  let m' := length (grids_of (l1 ++ ANew g :: l2)) in
  (forall q, In q (zeros_calls (grids_of l1 ++ [g]) l2) -> q = (g, true)) ->
  init_rates w m' = init_rates w m /\
  init_rates (astep sz w (ASetRate m id v)) m' = init_rates (astep sz w (ASetRate m id v)) m.
Proof. exact L_C76_shared. Qed.
Print Assumptions C76_shared.

Example C76_shared_hyps :
  forall q, In q (zeros_calls (grids_of (F := R) [] ++ [7]) [ASetRate (F := R) 0 1 5%R; ANew 7]) -> q = (7, true).
Proof. exact ex_C76_shared_hyps. Qed.

(** Setting a boundary rate on the first of two models built on one grid changes
    the initial rates of the second, and the solution compiled from it. *)
Theorem C76_refuted :
  exists (sz : nat -> bool -> nat) (l : list (aop (F := R))) (id : Z) (v : R),
  let w := arun sz world0 l in
  let w' := astep sz w (ASetRate 0 id v) in
  models w = [(0, 0); (0, 0)] /\
  init_rates w 1 = Some [0; 0; 0]%R /\ init_rates w' 1 = Some [7; 0; 0]%R /\
  sols (astep sz w' (ACompile 1)) = [(1, [7; 0; 0]%R)].
Proof. exact L_C76_refuted. Qed.
Print Assumptions C76_refuted.
