(** Property theorems (each one a lemma proved in [CompileThm.v]), the assumptions they
    rest on, and for each a concrete case meeting its hypotheses. *)
From Coq Require Import String ZArith Bool Lia List.
From Verif Require Import Prelude PreludeFacts UnitsModel CompileModel CompileSpec.
Import ListNotations.
Local Open Scope string_scope.
From Verif Require Import CompileThm.
Local Open Scope string_scope.

(** A compile call that raises changes nothing. *)
Theorem C62_failing_compile :
  forall (m m' : mobj) (stype method : string) (sparse : parg) (e : exn),
  compile m stype method sparse = (m', Err e) -> m' = m.
Proof. exact L_C62_failing_compile. Qed.
Print Assumptions C62_failing_compile.

Example C62_hyps :
  let m := fst (compile (model_new "BlackOil") "num" "fdm" (PBool true)) in
  snd (compile m "num" "FVM" (PBool true)) = Err TypeError /\ snd (compile m "numer" "FDM" (PBool true)) = Err ValueError /\
  snd (compile m "n" "fdm" POther) = Err ValueError.
Proof. exact ex_C62_hyps. Qed.

(** Names are resolved without regard to letter case, to exactly the method
    they denote, never to two methods; all other names raise ValueError, from
    compile as well. *)
Theorem C63_names :
  forall (s n : string),
  (forall T M, resolve s n = Ok (T, M) <-> denotes T M (lower s) (lower n)) /\
  (forall T M T' M', denotes T M (lower s) (lower n) -> denotes T' M' (lower s) (lower n) -> T = T' /\ M = M') /\
  ((forall T M, ~ denotes T M (lower s) (lower n)) -> resolve s n = Err ValueError /\
     forall m b, compile m s n (PBool b) = (m, Err ValueError)) /\
  (forall s' n', lower s' = lower s -> lower n' = lower n -> resolve s' n' = resolve s n /\
     forall m b, compile m s' n' b = compile m s n b) /\
  (forall T M m b m', resolve s n = Ok (T, M) -> compile m s n (PBool b) = (m', Ok tt) ->
     compiler_ m' = Some (mkComp T M b)).
Proof. exact L_C63_names. Qed.
Print Assumptions C63_names.

Example C63_hyps : resolve "NUM" "Finite Volume Method" = Ok ("numerical", "FVM") /\
  denotes "analytical" "D2P3" "ana" "2-dimension-3-phase".
Proof. exact ex_C63_hyps. Qed.

(** The short names of one dimension or one phase select that method ... *)
Theorem C64_short_names_partial :
  forall (s : string) (i j : nat) (n : string), set_stype s = Ok "analytical" ->
  1 <= i <= 3 -> 1 <= j <= 3 -> i = 1 \/ j = 1 -> lower n = short_name i j ->
  resolve s n = Ok ("analytical", upper_name i j).
Proof. exact L_C64_short_names_partial. Qed.
Print Assumptions C64_short_names_partial.

Example C64_hyps : set_stype "Analytical" = Ok "analytical" /\ lower "3D1P" = short_name 3 1.
Proof. exact ex_C64_hyps. Qed.

(** ... but the other four short names are unknown. *)
Theorem C64_short_names_refuted :
  forall (i j : nat), 2 <= i <= 3 -> 2 <= j <= 3 ->
  resolve "analytical" (short_name i j) = Err ValueError /\
  (forall m b, compile m "analytical" (short_name i j) (PBool b) = (m, Err ValueError)).
Proof. exact L_C64_short_names_refuted. Qed.
Print Assumptions C64_short_names_refuted.

(** Compiling and switching behave as if every (type, method, sparse) had its
    own history, of which one is active; unknown names raise ValueError and
    change nothing; different solutions never share a name. *)
Theorem C65_switching :
  forall (name : string) (l : list mop),
  let m := mexec_all (model_new name) l in
  (exists i, iruns name i0 l i) /\
  (forall i, iruns name i0 l i -> sees m i) /\
  (forall n, ~ In n (get_solutions m) -> set_solution m n = (m, Err ValueError)) /\
  (forall n, In n (get_solutions m) -> snd (set_solution m n) = Ok tt) /\
  (forall o o' k k', compiled_key o = Some k -> compiled_key o' = Some k' -> k <> k' -> key_name name k <> key_name name k').
Proof. exact L_C65_switching. Qed.
Print Assumptions C65_switching.

Example C65_run :
  let m := mexec_all (model_new "BlackOil") [MCompile "n" "fdm" (PBool true); MRun 1; MCompile "a" "1D1P" (PBool true); MRun 2;
     MSet "BlackOil-numerical-FDM-True"; MSet "no such"; MRun 3] in
  nth_error (sols m) 0 = Some (mkSol "FDM" true [1; 3]) /\ bound m = Some 0 /\
  get_solutions m = ["BlackOil-numerical-FDM-True"; "BlackOil-analytical-D1P1-True"].
Proof. exact ex_C65_run. Qed.
