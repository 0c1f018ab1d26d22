(** Property theorems (each one a lemma proved in [CacheThm.v]), the assumptions they
    rest on, and for each a concrete case meeting its hypotheses. *)
From Coq Require Import ZArith QArith Bool Arith Lia List.
From Verif Require Import Prelude PreludeFacts Num GridModel GeoModel PropModel PropSpec CacheModel CacheSpec CacheProofs.
Import ListNotations.
Close Scope Q_scope.
From Verif Require Import CacheThm.
Close Scope Q_scope.

(** While the wrapped function gives the same answer for the same key during the
    whole sequence of calls, the memoised function returns exactly what the
    plain one would, exceptions included, for every capacity. *)
Theorem C19_transparent :
  forall (K V : Type) (keqb : K -> K -> bool) (maxsize : option nat) (l : list (K * res V)),
  (forall a b, keqb a b = true <-> a = b) ->
  (forall k f f', In (k, f) l -> In (k, f') l -> f = f') ->
  snd (lru_run keqb maxsize l []) = map snd l.
Proof. exact L_C19_transparent. Qed.
Print Assumptions C19_transparent.

Example C19_transparent_hyps :
  let l := [(1, Ok 10); (2, Err KeyError); (1, Ok 10); (3, Ok 30); (2, Err KeyError)] in
  (forall a b, (a =? b) = true <-> a = b) /\
  (forall k f f', In (k, f) l -> In (k, f') l -> f = f') /\
  lru_run Nat.eqb (Some 1) l [] = ([(3, 30)], map snd l).
Proof. exact ex_C19_transparent_hyps. Qed.

(** At most maxsize entries are kept. *)
Theorem C19_capacity :
  forall (K V : Type) (keqb : K -> K -> bool) (n : nat) (l : list (K * res V)),
  (forall a b, keqb a b = true <-> a = b) ->
  length (fst (lru_run keqb (Some n) l [])) <= n.
Proof. exact L_C19_capacity. Qed.
Print Assumptions C19_capacity.

(** The kept entries are those of the most recently used keys, last used first. *)
Theorem C19_recent :
  forall (K V : Type) (keqb : K -> K -> bool) (maxsize : option nat) (l : list (K * V)),
  (forall a b, keqb a b = true <-> a = b) ->
  map fst (fst (lru_run keqb maxsize (map (fun p => (fst p, Ok (snd p))) l) [])) =
  match maxsize with
  | None => recent keqb (map fst l) []
  | Some n => firstn n (recent keqb (map fst l) [])
  end.
Proof. exact L_C19_recent. Qed.
Print Assumptions C19_recent.

Example C19_recent_case :
  recent Nat.eqb [1; 2; 1; 3; 4; 3] [] = [3; 4; 1; 2] /\
  lru_run Nat.eqb (Some 2) (map (fun k => (k, Ok (10 * k))) [1; 2; 1; 3; 4; 3]) [] =
    ([(3, 30); (4, 40)], map (fun k => Ok (10 * k)) [1; 2; 1; 3; 4; 3]).
Proof. exact ex_C19_recent_case. Qed.

(** Sessions on any number of grid objects in which every grid is updated only
    before its first memoised query: all answers are those of the
    un-memoised code. *)
Theorem C18_set_up_first_partial :
  forall (F : Type) (NF : Num F) (g : nat -> gobj F) (l : list op),
  set_up_first l ->
  snd (exec_all (g, caches0) l) = snd (plain_all g l).
Proof. exact L_C18_set_up_first_partial. Qed.
Print Assumptions C18_set_up_first_partial.

Example C18_set_up_first_hyps :
  forall p p' : pcall Q,
  set_up_first [OSet 0 p; OIso 0; OSet 1 p'; OG 0 1 true; OSet 1 p; OProp 1 KX true; OK 1 AX (ById 1)].
Proof. exact ex_C18_set_up_first_hyps. Qed.

(** C19 for the memoised accessors of the grid: while nothing is updated, queries about
    any number of grids, in any order and interleaving, are each answered as if it
    were the only one. *)
Theorem C19_accessors :
  forall (F : Type) (NF : Num F) (g : nat -> gobj F) (l : list op),
  (forall p, In p l -> updates p = false) ->
  snd (exec_all (g, caches0) l) = map (fun p => snd (plain g p)) l.
Proof. exact L_C19_accessors. Qed.
Print Assumptions C19_accessors.

Example C19_accessors_case :
  forall p, In p [OK 0 AX (ById 1); OIso 1; OK 1 AX (ById 1); OG 0 1 true; OIso 0; OG 1 1 true; OHom 0; OHom 1; OIso 1] -> updates (F := Q) p = false.
Proof. exact ex_C19_accessors_case. Qed.

(** get_prop and get_cells_k are current after every history, and the
    memoisation never influences the objects. *)
Theorem C18_direct_current :
  forall (F : Type) (NF : Num F) (g : nat -> gobj F) (c : caches) (l : list op) (p : op),
  direct p = true ->
  snd (exec (fst (exec_all (g, c) l)) p) = snd (plain (fst (plain_all g l)) p).
Proof. exact L_C18_direct_current. Qed.
Print Assumptions C18_direct_current.

Example C18_direct_case : direct (F := nat) (OKcells 0 AX true) = true.
Proof. exact ex_C18_direct_case. Qed.

(** The memoised get_cell_k and get_cell_G are frozen: once such a query has been
    answered, it is answered the same for ever, whatever set_props does. *)
Theorem C18_frozen :
  forall (F : Type) (NF : Num F) (g : nat -> gobj F) (c : caches) (i : nat) (l : list op),
  (forall a r v, snd (exec (g, c) (OK i a r)) = RNum (Ok v) ->
     snd (exec (fst (exec_all (fst (exec (g, c) (OK i a r))) l)) (OK i a r)) = RNum (Ok v)) /\
  (forall id b v, snd (exec (g, c) (OG i id b)) = RDict (Ok v) ->
     snd (exec (fst (exec_all (fst (exec (g, c) (OG i id b))) l)) (OG i id b)) = RDict (Ok v)).
Proof. exact L_C18_frozen. Qed.
Print Assumptions C18_frozen.

(** After set_props(kx=...) the memoised accessors answer from the old
    properties: the queries before and after the update agree although the
    un-memoised answers differ. *)
Theorem C18_stale_refuted :
  exists (g : nat -> gobj Q) (new : pcall Q),
  (exists v v' : Q, ~ (v == v')%Q /\
     let l := [OK 0 AX (ById 1); OSet 0 new; OK 0 AX (ById 1)] in
     snd (exec_all (g, caches0) l) = [RNum (Ok v); RUnit (Ok tt); RNum (Ok v)] /\
     snd (plain_all g l) = [RNum (Ok v); RUnit (Ok tt); RNum (Ok v')]) /\
  (let l := [OIso 0; OSet 0 new; OIso 0] in
     snd (exec_all (g, caches0) l) = [RBool (Ok true); RUnit (Ok tt); RBool (Ok true)] /\
     snd (plain_all g l) = [RBool (Ok true); RUnit (Ok tt); RBool (Ok false)]) /\
  (exists v v' : Q, ~ (v == v')%Q /\
     let l := [OG 0 1 false; OSet 0 new; OG 0 1 false] in
     snd (exec_all (g, caches0) l) = [RDict (Ok [(2%Z, v)]); RUnit (Ok tt); RDict (Ok [(2%Z, v)])] /\
     snd (plain_all g l) = [RDict (Ok [(2%Z, v)]); RUnit (Ok tt); RDict (Ok [(2%Z, v')])]) /\
  (exists m m' m'' : mat, ~ (ment m' 0 1 == ment m'' 0 1)%Q /\
     let l := [OGcells 0 false; OSet 0 new; OGcells 0 false] in
     snd (exec_all (g, caches0) l) = [RMat (Ok m); RUnit (Ok tt); RMat (Ok m')] /\
     snd (plain_all g l) = [RMat (Ok m); RUnit (Ok tt); RMat (Ok m'')]).
Proof. exact L_C18_stale_refuted. Qed.
Print Assumptions C18_stale_refuted.
