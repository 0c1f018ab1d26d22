(** Property theorems (each one a lemma proved in [FdmThm.v]), the assumptions they
    rest on, and for each a concrete case meeting its hypotheses. *)
From Coq Require Import String ZArith Bool Arith List Lia Reals Lra QArith.
From Verif Require Import Prelude PreludeFacts Num GridModel GridSpec GeoModel GeoSpec PropModel PropSpec
  UnitsModel BlackOilModel FdmModel MonadFacts HistSpec Samples AsmFacts ModelSpec SampleFacts AssemblyThm SampleWell QSamples FdmSpec MemoModel.
Import ListNotations.
Close Scope Q_scope. Close Scope R_scope.
Open Scope nat_scope.
From Verif Require Import FdmThm.
Close Scope Q_scope. Close Scope R_scope.
Open Scope nat_scope.

(** C37 is false: with viscosity 2 the gradient 4 is the rate 2 in the vectorised
    assembly, but the symbolic one takes 4 for the rate. *)
Theorem C37_gradient_refuted :
  exists m0 : bo Q, build_mu 2%Q 3 1 1 1%Q (Some 10%Q) = Ok m0 /\
  forall NT : NumT Q, exists m s,
  let l := [Set_boundaries [(0%Z, ("gradient"%string, 4%Q))]; Compile] in
  all_ok (m0, None) l /\ after (m0, None) l = (m, Some s) /\ at2 (s_r s) 0 0 = Ok (Some 2%Q) /\
  right_side (snd (get_matrices_vect (m, s))) = Ok [Some (-12)%Q; Some (-10)%Q; Some (-10)%Q] /\
  right_side (snd (get_matrices_symb oneQ false (m, s))) = Ok [Some (-14)%Q; Some (-10)%Q; Some (-10)%Q].
Proof. exact L_C37_gradient_refuted. Qed.
Print Assumptions C37_gradient_refuted.

(** C56 is false: the vectorised assembly of a well with pwf = 0 takes the
    coefficient -G/(B*mu) of its cell for a constant: the matrix is the one without
    the well, and G/(B*mu) is added to the right side. *)
Theorem C56_zero_pwf_refuted :
  exists (m0 m : bo R) G, build 3 1 1 None 0%R (Some 7%R) None = Ok m0 /\ (0 < G)%R /\
  let l := [Set_well (Some 2%Z) None (Some 0%R) (Some (1 / 2)%R) None; Compile] in
  all_ok (m0, None) l /\ after (m0, None) l = (m, Some (fdm_new m)) /\
  (exists w, dget 2%Z (b_wells m) = Some w /\ w_con w = Some (Some "pwf"%string) /\ w_pwf w = Some (Some 0%R) /\ w_G w = Some G) /\
  entry (snd (get_matrices_vect (m, fdm_new m))) 1 1 = entry (snd (get_matrices_vect (m0, fdm_new m0))) 1 1 /\
  entry (snd (get_matrices_vect (m, fdm_new m))) 1 1 = Ok (-2)%R /\
  right_side (snd (get_matrices_vect (m, fdm_new m))) = Ok [Some 0%R; Some G; Some 0%R].
Proof. exact L_C56_zero_pwf_refuted. Qed.
Print Assumptions C56_zero_pwf_refuted.

(** C57 is false: the vectorised step fails with ValueError if the boundary
    pressure is 0 (on a level grid); the symbolic one succeeds. *)
Theorem C57_zero_pressure_refuted :
  exists m0 : bo Q, build 3 1 1 None 0%Q (Some 10%Q) None = Ok m0 /\
  forall NT : NumT Q,
  let x := after (m0, None) [Set_boundaries [(0%Z, ("pressure"%string, 0%Q))]; Compile] in
  snd (exec (Solve cramer3 oneQ 9 true vectorial) x) = Err ValueError /\ snd (exec (Solve cramer3 oneQ 9 true symbolic) x) = Ok tt.
Proof. exact L_C57_zero_pressure_refuted. Qed.
Print Assumptions C57_zero_pressure_refuted.

(** C45 is false: two steps, both balanced (the incremental error is 0), and the
    cumulative indicator is 1/2. *)
Theorem C45_cumulative_refuted :
  exists m0 : bo Q, build 3 1 1 None 1%Q (Some 10%Q) None = Ok m0 /\
  forall NT : NumT Q, exists m1 s1 m2 s2,
  let l := [Set_boundaries [(0%Z, ("pressure"%string, 20%Q))]; Compile; Solve cramer3 oneQ 9 true (mkOpts false false true true false None)] in
  let l' := [Solve cramer3 oneQ 9 true (mkOpts false false true true false None)] in
  all_ok (m0, None) (l ++ l') /\ after (m0, None) l = (m1, Some s1) /\ after (m1, Some s1) l' = (m2, Some s2) /\
  s_err s1 = Some (Some 0%Q) /\ s_cum s1 = Some (Some 1%Q) /\ s_err s2 = Some (Some 0%Q) /\ s_cum s2 = Some (Some (1 # 2)%Q).
Proof. exact L_C45_cumulative_refuted. Qed.
Print Assumptions C45_cumulative_refuted.

(** C60 is false: after changing the boundary pressure from 20 to 40 the next step
    still has the pressures of 20, vectorised and symbolic; the recorded boundary rate
    is still that of 20 if the pressure of the cell has not changed (no
    compressibility), that of 40 if it has (compressible); a new pressure boundary
    makes the vectorised step fail with KeyError; and the symbolic step ignores a
    change to a rate.  (With the cache of the boundary terms.) *)
Theorem C60_changed_boundary_refuted :
  exists m0 mc : bo Q, build 3 1 1 None 0%Q (Some 10%Q) None = Ok m0 /\ build 3 1 1 None 1%Q (Some 10%Q) None = Ok mc /\
  forall NT : NumT Q,
  let edge v := Set_boundaries [(0%Z, ("pressure"%string, v))] in
  let step o := Solve cramer3 oneQ 9 true o in
  (forall o, o = vectorial \/ o = symbolic ->
   let x := after_m (m0, None, memo0) [edge 20%Q; Compile; step o; edge 40%Q] in
   snd (exec_m (step o) x) = Ok tt /\ b_bdict (fst (fst x)) = [(0%Z, ("pressure"%string, 40%Q))] /\
   nth_error (s_p (sol m0 (fst (fst (exec_m (step o) x))))) 2 = Some [Some 40%Q; Some 20%Q; Some 20%Q; Some 20%Q; None] /\
   at2 (s_r (sol m0 (fst (fst (exec_m (step o) x))))) 2 0 = Ok (Some 0%Q)) /\
  (forall o, o = vectorial \/ o = symbolic ->
   let x := after_m (mc, None, memo0) [edge 20%Q; Compile; step o; edge 40%Q] in
   let y := after_m (mc, None, memo0) [edge 20%Q; Compile; step o] in
   snd (exec_m (step o) x) = Ok tt /\ snd (exec_m (step o) y) = Ok tt /\
   (forall id, (1 <= id <= 3)%Z -> at2 (s_p (sol mc (fst (fst (exec_m (step o) x))))) 2 id = at2 (s_p (sol mc (fst (fst (exec_m (step o) y))))) 2 id) /\
   exists p, at2 (s_p (sol mc (fst (fst (exec_m (step o) x))))) 2 1 = Ok (Some p) /\ at2 (s_r (sol mc (fst (fst (exec_m (step o) x))))) 2 0 = Ok (Some (2 * (40 - p))%Q) /\ Qlt p 20%Q) /\
  (let x := after_m (m0, None, memo0) [edge 20%Q; Compile; step vectorial; Set_boundaries [(0%Z, ("pressure"%string, 20%Q)); (4%Z, ("pressure"%string, 20%Q))]] in
   snd (exec_m (step vectorial) x) = Err KeyError) /\
  (let x := after_m (m0, None, memo0) [edge 20%Q; Compile; step symbolic; Set_boundaries [(0%Z, ("rate"%string, 3%Q)); (4%Z, ("pressure"%string, 20%Q))]] in
   snd (exec_m (step symbolic) x) = Ok tt /\
   nth_error (s_p (sol m0 (fst (fst (exec_m (step symbolic) x))))) 2 = Some [Some 20%Q; Some 20%Q; Some 20%Q; Some 20%Q; Some 20%Q]).
Proof. exact L_C60_changed_boundary_refuted. Qed.
Print Assumptions C60_changed_boundary_refuted.

(** C61 is false: without an initial pressure the vectorised assembly succeeds
    with a right side of NaN, and the step succeeds if the solver passes NaN on;
    the symbolic assembly raises AttributeError. *)
Theorem C61_missing_pi_refuted :
  exists m0 : bo Q, build 3 1 1 None 1%Q None None = Ok m0 /\ b_cmp m0 = true /\
  forall NT : NumT Q,
  let x := after (m0, None) [Set_boundaries [(0%Z, ("pressure"%string, 20%Q))]; Compile] in
  let pass : solver_kind -> @mat Q -> list (fl Q) -> res (list (fl Q)) := fun _ _ d => Ok d in
  snd (exec (Run pass oneQ 1 9 true false true false false None) x) = Ok tt /\
  nth_error (s_p (sol m0 (fst (exec (Run pass oneQ 1 9 true false true false false None) x)))) 1 = Some [Some 20%Q; None; None; None; None] /\
  snd (exec (Run pass oneQ 1 9 true false false false false None) x) = Err AttributeError.
Proof. exact L_C61_missing_pi_refuted. Qed.
Print Assumptions C61_missing_pi_refuted.

(** C48 is false of the vectorised path: cells at heights 0, 1, 2 with pressures in
    equilibrium; after the step they are not. *)
Theorem C48_vectorised_refuted :
  exists (m : bo Q) row row', build 3 1 1 (Some 1000%Q) 1%Q (Some 10%Q) (Some (Vec [0; 0; 1; 2; 2]%Q)) = Ok m /\ closed m /\
  hydrostatic m row /\ length row = 5 /\
  (let x := (m, set_p [row] (fdm_new m)) in
   snd (solve cramer3 oneQ 9 true vectorial x) = Ok tt /\
   nth_error (s_p (snd (fst (solve cramer3 oneQ 9 true vectorial x)))) 1 = Some row') /\
  ~ hydrostatic m row'.
Proof. exact L_C48_vectorised_refuted. Qed.
Print Assumptions C48_vectorised_refuted.
