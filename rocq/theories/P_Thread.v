(** Property theorems (each one a lemma proved in [ThreadThm.v]), the assumptions they
    rest on, and for each a concrete case meeting its hypotheses. *)
From Coq Require Import String ZArith Bool Arith List Lia QArith.
From Verif Require Import Prelude PreludeFacts Num GridModel GeoModel PropModel UnitsModel BlackOilModel FdmModel MonadFacts InvFacts HistSpec Samples QSamples ThreadSpec.
Import ListNotations.
Close Scope Q_scope.
Open Scope nat_scope.
From Verif Require Import ThreadThm.
Close Scope Q_scope.
Open Scope nat_scope.

(** C124, what holds: in a reservoir of at least two cells, if a sequence of calls
    succeeds without threads, then with threads in any of the calls it succeeds too
    and ends in the same state: pressures, rates, systems, cached terms and all. *)
Theorem C124_threads_partial :
  forall (F : Type) (NF : Num F) (NT : NumT F) (m0 : bo F) l l',
  2 <= length (b_ids m0) -> all_ok (m0, None) (map (with_threads false) l) -> Forall2 but_threads l l' ->
  all_ok (m0, None) l' /\ after (m0, None) l' = after (m0, None) (map (with_threads false) l).
Proof. exact L_C124_threads_partial. Qed.
Print Assumptions C124_threads_partial.

(** C124: the vectorised path does not look at the argument at all. *)
Theorem C124_vectorised :
  forall (F : Type) (NF : Num F) (NT : NumT F) b (c : call F) x, vectorised c -> exec (with_threads b c) x = exec c x.
Proof. exact L_C124_vectorised. Qed.
Print Assumptions C124_vectorised.

(** C124 is false: a compressible reservoir of three closed cells at pressure 0. Without
    threads the step raises TypeError and records nothing; with threads (the default of
    run) the error is dropped, the system is 0 p = 0, and the step records whatever the
    solver gives for it. *)
Theorem C124_threads_refuted :
  exists (m : bo Q) (s : fs Q) A d, build 3 1 1 None 1%Q (Some 0%Q) None = Ok m /\ s = fdm_new m /\
  snd (get_matrices_symb oneQ true (m, s)) = Ok (A, d) /\ (forall p q, p < 3 -> q < 3 -> ment A p q = 0%Q) /\ d = [Some 0%Q; Some 0%Q; Some 0%Q] /\
  forall (NT : NumT Q) a b c,
  let solve_with thr := exec (with_threads thr (Solve (gives [a; b; c]) oneQ 1 false (mkOpts false false false true false None))) (m, Some s) in
  snd (solve_with false) = Err TypeError /\ option_map (fun s => s_p s) (snd (fst (solve_with false))) = Some (s_p s) /\
  snd (solve_with true) = Ok tt /\ option_map (fun s => s_p s) (snd (fst (solve_with true))) = Some (s_p s ++ [[None; Some a; Some b; Some c; None]])%list.
Proof. exact L_C124_threads_refuted. Qed.
Print Assumptions C124_threads_refuted.

(** C124: three cells at pressure 10; a solve and a run of two steps, the pressure on the
    left held at 6; threads in the run. *)
Example C124_threads_case : forall NT : NumT Q, exists (m : bo Q) l l', build 3 1 1 None 1%Q (Some 10%Q) None = Ok m /\ 2 <= length (b_ids m) /\
  all_ok (m, None) (map (with_threads false) l) /\ Forall2 but_threads l l' /\ l <> l' /\
  option_map (fun s => length (s_p s)) (snd (after (m, None) l')) = Some 4.
Proof. exact ex_C124_threads_case. Qed.

(** C124: a vectorised run. *)
Example C124_vectorised_case : forall NT : NumT Q, exists (m : bo Q) c c' x, build 3 1 1 None 1%Q (Some 10%Q) None = Ok m /\ x = (m, Some (fdm_new m)) /\
  vectorised c /\ c' = with_threads true c /\ c' <> c /\ snd (exec c x) = Ok tt.
Proof. exact ex_C124_vectorised_case. Qed.
