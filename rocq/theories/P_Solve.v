(** Property theorems (each one a lemma proved in [SolveThm.v]), the assumptions they
    rest on, and for each a concrete case meeting its hypotheses. *)
From Coq Require Import String ZArith Bool Arith List Lia Reals Lra QArith Permutation.
From Verif Require Import Prelude PreludeFacts Num GridModel GridSpec GeoModel GeoSpec PropModel PropSpec
  UnitsModel BlackOilModel FdmModel MonadFacts HistSpec InvFacts Samples AsmFacts ModelSpec SampleFacts SampleWell SolverSpec StepSpec StepFacts WellStepFacts
  SolveSpec SolveFacts DryFacts WpFacts QSamples.
Import ListNotations.
Close Scope Q_scope. Close Scope R_scope.
Open Scope nat_scope.
From Verif Require Import SolveThm.
Close Scope Q_scope. Close Scope R_scope.
Open Scope nat_scope.

(** C52: with W wells a step is solved at most W+1 times: more fuel changes
    nothing, and at most W+1 systems are stored. *)
Theorem C52_terminates :
  forall slv sc sparse o (m0 : bo R) l m s,
  b_wells m0 = [] -> NoDup (b_ids m0) -> (forall id, In id (b_ids m0) -> 0 <= id)%Z ->
  all_ok (m0, None) l -> after (m0, None) l = (m, Some s) ->
  (0 < b_B m)%R -> (0 < b_mu m)%R -> (forall id w G, dget id (b_wells m) = Some w -> w_G w = Some G -> (0 < G)%R) ->
  no_tie m slv ->
  let W := length (b_wells m) in
  (forall n, solve slv sc (S W + n) sparse o (m, s) = solve slv sc (S W) sparse o (m, s)) /\
  (forall fuel m' s', o_upd o = true -> solve slv sc fuel sparse o (m, s) = ((m', s'), Ok tt) ->
     length (s_As s') <= length (s_As s) + S W).
Proof. exact L_C52_terminates. Qed.
Print Assumptions C52_terminates.

Example C52_case : exists (m0 m m' : bo R) (s s' : fs R), build 3 1 1 None 1%R (Some 10%R) None = Ok m0 /\ b_wells m0 = [] /\ NoDup (b_ids m0) /\
  all_ok (m0, None) [set_q; Compile] /\ after (m0, None) [set_q; Compile] = (m, Some s) /\
  (0 < b_B m)%R /\ (0 < b_mu m)%R /\ (forall id w G, dget id (b_wells m) = Some w -> w_G w = Some G -> (0 < G)%R) /\ no_tie m two_answers /\
  length (b_wells m) = 1 /\ solve two_answers one 9 true odirect (m, s) = ((m', s'), Ok tt) /\ length (s_As s') = length (s_As s) + 2.
Proof. exact ex_C52_case. Qed.

(** C58: calls of solve(update=False) leave the results and the settings as they
    were, and the system assembled next is the same, whichever way it is
    assembled. *)
Theorem C58_dry_run :
  forall (F : Type) (NF : Num F) (NT : NumT F) sc (m0 : bo F) l m s l' m' s',
  b_wells m0 = [] -> after (m0, None) l = (m, Some s) ->
  Forall (dry sc) l' -> all_ok (m, Some s) l' -> after (m, Some s) l' = (m', Some s') ->
  settings m' = settings m /\ results s' = results s /\
  forall o, same_system (snd (get_system sc o (m', s'))) (snd (get_system sc o (m, s))).
Proof. exact L_C58_dry_run. Qed.
Print Assumptions C58_dry_run.

Example C58_case : exists m0 : bo Q, build 3 1 1 None 1%Q (Some 10%Q) None = Ok m0 /\ b_wells m0 = [] /\
  forall NT : NumT Q, exists m s m' s',
  let l := [Set_boundaries [(0%Z, ("pressure"%string, 20%Q))]; Compile; Solve cramer3 oneQ 9 true symbolic] in
  let l' := [Solve cramer3 oneQ 9 true dried; Solve cramer3 oneQ 9 true (mkOpts true true true false true None); Solve cramer3 oneQ 9 true (mkOpts false true false false false None)] in
  after (m0, None) l = (m, Some s) /\ Forall (dry oneQ) l' /\ all_ok (m, Some s) l' /\ after (m, Some s) l' = (m', Some s') /\
  nth_error (s_p s) 1 = Some [Some 20%Q; Some (140 # 9)%Q; Some (110 # 9)%Q; Some (100 # 9)%Q; None].
Proof. exact ex_C58_case. Qed.

(** C59: with threads, whatever order the tasks run in, the assembly succeeds or
    fails alike, gives the same matrix and right side, and leaves the same cached
    terms. *)
Theorem C59_schedule :
  forall (F : Type) (NF : Num F) sc o1 o2 (x : st F),
  NoDup (b_ids (fst x)) -> Permutation o1 (b_ids (fst x)) -> Permutation o2 (b_ids (fst x)) ->
  scheduled sc (b_ids (fst x)) (b_ids (fst x)) x = get_matrices_symb sc true x /\
  match scheduled sc o1 o2 x, get_matrices_symb sc true x with
  | (y, Ok Ad), (z, Ok Bd) => meq (fst Ad) (fst Bd) /\ snd Ad = snd Bd /\ forall id, dget id (b_terms (fst y)) = dget id (b_terms (fst z))
  | (_, Err _), (_, Err _) => True
  | _, _ => False
  end.
Proof. exact L_C59_schedule. Qed.
Print Assumptions C59_schedule.

Example C59_case : exists (m : bo Q) y Ad, build 3 1 1 None 1%Q (Some 10%Q) None = Ok m /\ b_ids m = [1; 2; 3]%Z /\
  Permutation [3; 1; 2]%Z (b_ids m) /\ Permutation [2; 3; 1]%Z (b_ids m) /\
  scheduled oneQ [3; 1; 2]%Z [2; 3; 1]%Z (m, fdm_new m) = (y, Ok Ad) /\ snd Ad = [Some (-10)%Q; Some (-10)%Q; Some (-10)%Q] /\ ment (fst Ad) 1 0 = 1%Q.
Proof. exact ex_C59_case. Qed.

(** C72, what holds: if every well is set once, before the first step (and later
    only without pwf), every well has one pressure per step. *)
Theorem C72_pressures_partial :
  forall (F : Type) (NF : Num F) (NT : NumT F) (m0 : bo F) l,
  b_wells m0 = [] -> b_wp m0 = [] -> along tidy (m0, None) l -> all_ok (m0, None) l ->
  one_per_step (after (m0, None) l).
Proof. exact L_C72_pressures_partial. Qed.
Print Assumptions C72_pressures_partial.

Example C72_case : exists (m0 m : bo R) (s : fs R), build 3 1 1 None 1%R (Some 10%R) None = Ok m0 /\ b_wells m0 = [] /\ b_wp m0 = [] /\
  let l := [set_q; Compile; Solve two_answers one 9 true odirect] in
  along tidy (m0, None) l /\ all_ok (m0, None) l /\ after (m0, None) l = (m, Some s) /\ s_tstep s = 1 /\ dkeys (b_wells m) = [2%Z].
Proof. exact ex_C72_case. Qed.

(** C72 is false: setting pwf again records a second pressure at the same step, and
    a well added later starts with one pressure. *)
Theorem C72_pressures_refuted :
  exists m0 : bo Q, build 3 1 1 None 1%Q (Some 10%Q) None = Ok m0 /\ b_wells m0 = [] /\ b_wp m0 = [] /\
  forall NT : NumT Q,
  (let l := [Set_well (Some 2%Z) None (Some 5%Q) (Some 1%Q) None; Set_well (Some 2%Z) None (Some 6%Q) (Some 1%Q) None; Compile] in
   all_ok (m0, None) l /\ ~ one_per_step (after (m0, None) l)) /\
  (let l := [Compile; Solve cramer3 oneQ 9 true vectorial; Set_well (Some 2%Z) (Some 1%Q) None (Some 1%Q) None] in
   all_ok (m0, None) l /\ ~ one_per_step (after (m0, None) l)).
Proof. exact L_C72_pressures_refuted. Qed.
Print Assumptions C72_pressures_refuted.

(** C77, what holds: a vectorised solve or run of a model without wells leaves the
    model exactly as it was, so nothing done with another solution changes. *)
Theorem C77_no_wells_partial :
  forall (F : Type) (NF : Num F) (NT : NumT F) (m : bo F) s c c2 s2,
  b_wells m = [] -> stepping c -> vectorised c ->
  exec c2 (fst (fst (exec c (m, Some s))), s2) = exec c2 (m, s2).
Proof. exact L_C77_no_wells_partial. Qed.
Print Assumptions C77_no_wells_partial.

Example C77_case : exists m : bo Q, build 3 1 1 None 1%Q (Some 10%Q) None = Ok m /\ b_wells m = [] /\
  forall NT : NumT Q, exists (m' : bo Q) (s' : fs Q), let c := Run cramer3 oneQ 2 9 true false true false false None in
  stepping c /\ vectorised c /\ snd (exec c (m, Some (fdm_new m))) = Ok tt /\ fst (exec c (m, Some (fdm_new m))) = (m', Some s') /\ s_tstep s' = 2.
Proof. exact ex_C77_case. Qed.

(** C77 is false: a symbolic solve of one solution leaves the terms of the cells in
    the model, and another solution, compiled after the boundary has been changed,
    uses them: its pressures are those of the old boundary. *)
Theorem C77_independent_refuted :
  exists m0 : bo Q, build 3 1 1 None 1%Q (Some 10%Q) None = Ok m0 /\
  forall NT : NumT Q, exists m1 m2 s1 s2,
  let edge v := Set_boundaries [(0%Z, ("pressure"%string, v))] in
  let step := Solve cramer3 oneQ 9 true symbolic in
  let with_first := [edge 20%Q; Compile; step; edge 40%Q; Compile; step] in
  let without := [edge 20%Q; Compile; edge 40%Q; Compile; step] in
  all_ok (m0, None) with_first /\ after (m0, None) with_first = (m1, Some s1) /\
  all_ok (m0, None) without /\ after (m0, None) without = (m2, Some s2) /\
  b_bdict m1 = b_bdict m2 /\ at2 (s_p s1) 1 1 = Ok (Some (140 # 9)%Q) /\ at2 (s_p s2) 1 1 = Ok (Some (80 # 3)%Q).
Proof. exact L_C77_independent_refuted. Qed.
Print Assumptions C77_independent_refuted.
