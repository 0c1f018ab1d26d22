(** Property theorems (each one a lemma proved in [StepThm.v]), the assumptions they
    rest on, and for each a concrete case meeting its hypotheses. *)
From Coq Require Import String ZArith Bool Arith List Lia Reals Lra QArith.
From Verif Require Import Prelude PreludeFacts Num GridModel GridSpec GeoModel GeoSpec PropModel PropSpec
  UnitsModel BlackOilModel FdmModel MonadFacts HistSpec InvFacts Samples AsmFacts ModelSpec SampleFacts SampleWell SolverSpec StepSpec StepFacts WellStepFacts.
Import ListNotations.
Close Scope Q_scope. Close Scope R_scope.
Open Scope nat_scope.
From Verif Require Import StepThm.
Close Scope Q_scope. Close Scope R_scope.
Open Scope nat_scope.

(** C49: one row more, the old ones as before; outside the interior cells the new
    pressures are the old ones. *)
Theorem C49_append_only :
  forall (F : Type) (NF : Num F) (NT : NumT F) slv sc fuel sparse o (m0 : bo F) l m s m' s',
  all_ok (m0, None) l -> after (m0, None) l = (m, Some s) ->
  (forall id, In id (b_ids m) -> 0 <= id)%Z ->
  o_upd o = true -> solve slv sc fuel sparse o (m, s) = ((m', s'), Ok tt) ->
  s_tstep s' = S (s_tstep s) /\
  exists rp rr, s_p s' = (s_p s ++ [rp])%list /\ s_r s' = (s_r s ++ [rr])%list /\
    length rr = length (last (s_r s) []) /\
    forall i, ~ In (Z.of_nat i) (b_ids m) -> nth_error rp i = nth_error (last (s_p s) []) i.
Proof. exact L_C49_append_only. Qed.
Print Assumptions C49_append_only.

Example C49_case : exists (m0 m m' : bo R) (s s' : fs R), build 3 1 1 None 1%R (Some 10%R) None = Ok m0 /\ b_wells m0 = [] /\
  all_ok (m0, None) [set_q; Compile] /\ after (m0, None) [set_q; Compile] = (m, Some s) /\
  NoDup (b_ids m) /\ (forall id, In id (b_ids m) -> 0 <= id)%Z /\
  solve two_answers one 9 true odirect (m, s) = ((m', s'), Ok tt) /\ b_wells m <> [] /\ length (s_As s') = 2.
Proof. exact ex_C49_case. Qed.

(** C50: in every successful history there are tstep+1 rows; without direct calls
    of solve this is also nsteps. *)
Theorem C50_rows_partial :
  forall (F : Type) (NF : Num F) (NT : NumT F) (m0 : bo F) l m s,
  all_ok (m0, None) l -> after (m0, None) l = (m, Some s) ->
  length (s_p s) = S (s_tstep s) /\ length (s_r s) = S (s_tstep s) /\
  (Forall no_solve l -> s_nsteps s = S (s_tstep s)).
Proof. exact L_C50_rows_partial. Qed.
Print Assumptions C50_rows_partial.

Example C50_case : exists (m0 : bo R) m s, build 3 1 1 None 1%R (Some 10%R) None = Ok m0 /\
  let l := [Compile; Run (fun _ _ _ => Ok [Some 10%R; Some 10%R; Some 10%R]) one 3 9 true false true false false None] in
  all_ok (m0, None) l /\ Forall no_solve l /\ after (m0, None) l = (m, Some s) /\ s_tstep s = 3.
Proof. exact ex_C50_case. Qed.

(** C50 fails for direct calls of solve: two rows, nsteps is 1. *)
Theorem C50_nsteps_refuted :
  exists (m0 : bo R) slv sc m s, build 3 1 1 None 1%R (Some 10%R) None = Ok m0 /\
  let l := [Compile; Solve slv sc 9 true (mkOpts false true false true false None)] in
  all_ok (m0, None) l /\ after (m0, None) l = (m, Some s) /\ length (s_p s) = 2 /\ s_tstep s = 1 /\ s_nsteps s = 1.
Proof. exact L_C50_nsteps_refuted. Qed.
Print Assumptions C50_nsteps_refuted.

(** C51: the last stored system is the one whose solution is the last row; there
    are at least as many systems as steps, and exactly as many without wells. *)
Theorem C51_stored_partial :
  forall (F : Type) (NF : Num F) (NT : NumT F) slv sc fuel sparse o (m0 : bo F) l m s m' s',
  all_ok (m0, None) l -> after (m0, None) l = (m, Some s) ->
  NoDup (b_ids m) -> (forall id, In id (b_ids m) -> 0 <= id)%Z ->
  o_upd o = true -> solve slv sc fuel sparse o (m, s) = ((m', s'), Ok tt) ->
  exists n As ds k A d p rp, s_As s' = (s_As s ++ As ++ [A])%list /\ s_ds s' = (s_ds s ++ ds ++ [d])%list /\
    length As = n /\ length ds = n /\ s_tstep s' <= length (s_As s') /\ length (s_As s') = length (s_ds s') /\
    slv k A d = Ok p /\ last (s_p s') [] = rp /\ rmapM (pyget rp) (b_ids m) = Ok p /\
    (b_wells m = [] -> n = 0).
Proof. exact L_C51_stored_partial. Qed.
Print Assumptions C51_stored_partial.

Example C51_case : exists (m0 m m' : bo R) (s s' : fs R), build 3 1 1 None 1%R (Some 10%R) None = Ok m0 /\ b_wells m0 = [] /\
  all_ok (m0, None) [set_q; Compile] /\ after (m0, None) [set_q; Compile] = (m, Some s) /\
  NoDup (b_ids m) /\ (forall id, In id (b_ids m) -> 0 <= id)%Z /\
  solve two_answers one 9 true odirect (m, s) = ((m', s'), Ok tt) /\ b_wells m <> [] /\ length (s_As s') = 2.
Proof. exact ex_C51_case. Qed.

(** C51 fails for wells at their limit: one step, two stored systems, although
    both are solved exactly. *)
Theorem C51_stored_refuted :
  exists (m0 : bo R) slv sc m s, build 3 1 1 None 1%R (Some 10%R) None = Ok m0 /\ exact slv /\
  let l := [Set_well (Some 2%Z) (Some (-1)%R) (Some 10%R) (Some (1 / 2)%R) None; Compile;
            Solve slv sc 9 true (mkOpts false true false true false None)] in
  all_ok (m0, None) l /\ after (m0, None) l = (m, Some s) /\ s_tstep s = 1 /\ length (s_As s) = 2.
Proof. exact L_C51_stored_refuted. Qed.
Print Assumptions C51_stored_refuted.

(** C53: without wells, for dense matrices and for "cgs" itself only the solver
    asked for matters. *)
Theorem C53_solver_partial :
  forall (F : Type) (NF : Num F) slv slv' sc fuel sparse o k (m : bo F) s,
  pick_solver sparse (o_iso o) = Ok k -> (forall A d, slv k A d = slv' k A d) ->
  b_wells m = [] \/ sparse = false \/ o_iso o = Some "cgs"%string ->
  solve slv sc fuel sparse o (m, s) = solve slv' sc fuel sparse o (m, s).
Proof. exact L_C53_solver_partial. Qed.
Print Assumptions C53_solver_partial.

Example C53_case : exists (m : bo R) slv slv' m' s', pick_solver false (Some "bicg"%string) = Ok Dense /\
  (forall A d, slv Dense A d = slv' Dense A d) /\ (exists A d, slv Direct A d <> slv' Direct A d) /\ b_wells m <> [] /\
  solve slv one 9 false (mkOpts false true false true false (Some "bicg"%string)) (m, fdm_new m) = ((m', s'), Ok tt) /\ length (s_As s') = 2.
Proof. exact ex_C53_case. Qed.

(** C53 fails: spsolve is asked for, but the pressures are those of cgs. *)
Theorem C53_solver_refuted :
  exists (m : bo R) slv slv' sc m1 s1 m2 s2, let o := mkOpts false true false true false None in
  pick_solver true (o_iso o) = Ok Direct /\ (forall A d, slv Direct A d = slv' Direct A d) /\
  solve slv sc 9 true o (m, fdm_new m) = ((m1, s1), Ok tt) /\ solve slv' sc 9 true o (m, fdm_new m) = ((m2, s2), Ok tt) /\
  at2 (s_p s1) 1 1 = Ok (Some 10%R) /\ at2 (s_p s2) 1 1 = Ok (Some 9%R).
Proof. exact L_C53_solver_refuted. Qed.
Print Assumptions C53_solver_refuted.

(** C54: after a successful step every bottom-hole pressure is at or above its
    limit; a pressure-controlled well flows at its inflow rate; a well that was
    at its specified rate and is not switched stays at it. *)
Theorem C54_limits :
  forall (F : Type) (NF : Num F) (NT : NumT F) slv sc fuel sparse o (m0 : bo F) l m s m' s',
  b_wells m0 = [] -> (forall id, In id (b_ids m0) -> 0 <= id)%Z ->
  all_ok (m0, None) l -> after (m0, None) l = (m, Some s) ->
  o_upd o = true -> solve slv sc fuel sparse o (m, s) = ((m', s'), Ok tt) ->
  forall id w', dget id (b_wells m') = Some w' ->
  exists w lim v p q, dget id (b_wells m) = Some w /\ w_pwfsp w = Some lim /\
    w_pwf w' = Some (Some v) /\ (v = lim \/ nltb lim v = true) /\
    at2 (s_p s') (s_tstep s') id = Ok p /\ at2 (s_r s') (s_tstep s') id = Ok q /\ w_q w' = Some q /\
    (w_con w' = Some (Some "q"%string) \/
     w_con w' = Some (Some "pwf"%string) /\ v = lim /\
       exists G, w_G w = Some G /\ q = fmul (Some (ndiv (nopp G) (nmul (b_B m) (b_mu m)))) (fsub p (Some lim))) /\
    (forall qsp, w_con w' = Some (Some "q"%string) -> length (s_As s') = S (length (s_As s)) ->
       w_q w = Some (Some qsp) -> q = Some qsp).
Proof. exact L_C54_limits. Qed.
Print Assumptions C54_limits.

Example C54_case : exists (m0 m m' : bo R) (s s' : fs R), build 3 1 1 None 1%R (Some 10%R) None = Ok m0 /\ b_wells m0 = [] /\
  all_ok (m0, None) [set_q; Compile] /\ after (m0, None) [set_q; Compile] = (m, Some s) /\
  NoDup (b_ids m) /\ (forall id, In id (b_ids m) -> 0 <= id)%Z /\
  solve two_answers one 9 true odirect (m, s) = ((m', s'), Ok tt) /\ b_wells m <> [] /\ length (s_As s') = 2.
Proof. exact ex_C54_case. Qed.

(** C55 fails: in steps 2 and 3 the well is back under rate control but flows at
    0 instead of -1, and its equation still contains the pressure term: the
    diagonal entry is -3 - G instead of -3. *)
Theorem C55_return_refuted :
  exists (m0 : bo R) l m s w G A, build 3 1 1 None 1%R (Some 10%R) None = Ok m0 /\
  Forall (fun c => match c with Solve slv _ _ _ _ => exact slv | _ => True end) l /\
  all_ok (m0, None) l /\ after (m0, None) l = (m, Some s) /\ s_tstep s = 3 /\
  dget 2%Z (b_wells m) = Some w /\ w_con w = Some (Some "q"%string) /\ w_qsp w = Some (-1)%R /\
  at2 (s_r s) 2 2 = Ok (Some 0%R) /\ at2 (s_r s) 3 2 = Ok (Some 0%R) /\
  (0 < G)%R /\ last (s_As s) (mat0 0) = A /\ ment A 1 1 = (-3 - G)%R.
Proof. exact L_C55_return_refuted. Qed.
Print Assumptions C55_return_refuted.
