(** Single steps and histories: property lemmas. *)
From Coq Require Import String ZArith Bool Arith List Lia Reals Lra QArith.
From Verif Require Import Prelude PreludeFacts Num GridModel GridSpec GeoModel GeoSpec PropModel PropSpec
  UnitsModel BlackOilModel FdmModel MonadFacts HistSpec InvFacts Samples AsmFacts ModelSpec SampleFacts SampleWell SolverSpec StepSpec StepFacts WellStepFacts.
Import ListNotations.
Close Scope Q_scope. Close Scope R_scope.
Open Scope nat_scope.

(** The hypotheses of C49, C51 and C54 hold for the step of the sample well,
    which is solved twice. *)
Lemma well_case : exists (m0 m m' : bo R) (s s' : fs R), build 3 1 1 None 1%R (Some 10%R) None = Ok m0 /\ b_wells m0 = [] /\
  all_ok (m0, None) [set_q; Compile] /\ after (m0, None) [set_q; Compile] = (m, Some s) /\
  NoDup (b_ids m) /\ (forall id, In id (b_ids m) -> 0 <= id)%Z /\
  solve two_answers one 9 true odirect (m, s) = ((m', s'), Ok tt) /\ b_wells m <> [] /\ length (s_As s') = 2.
Proof.
  destruct line3q_built as (G & req & HG & E). assert (HG' : (0 < / G)%R) by now apply Rinv_0_lt_compat.
  destruct (line3q_step G req HG HG') as (m' & s' & E2 & H1 & _).
  exists (line3 (1 + 0) true (Some 10%R)), (line3q G req), m', (fdm_new (line3q G req)), s'.
  split; [apply line3_pos; lra|]. split; [reflexivity|].
  assert (H : all_ok (line3 (1 + 0) true (Some 10%R), None) [set_q; Compile] /\
    after (line3 (1 + 0) true (Some 10%R), None) [set_q; Compile] = (line3q G req, Some (fdm_new (line3q G req)))).
  { eapply exec_step; [exact E|]. eapply exec_step; [reflexivity|]. split; [exact I|reflexivity]. }
  destruct H as (Ha & Hb). split; auto. split; auto.
  assert (Ei : b_ids (line3q G req) = [1; 2; 3]%Z) by reflexivity. rewrite Ei. split; [repeat constructor; cbn; intuition discriminate|].
  split; [cbn; intros id Hi; lia|]. split; auto. split; auto. discriminate.
Qed.

(** C49: one row more, the old ones as before; outside the interior cells the new
    pressures are the old ones. *)
Lemma L_C49_append_only :
  forall (F : Type) (NF : Num F) (NT : NumT F) slv sc fuel sparse o (m0 : bo F) l m s m' s',
  all_ok (m0, None) l -> after (m0, None) l = (m, Some s) ->
  (forall id, In id (b_ids m) -> 0 <= id)%Z ->
  o_upd o = true -> solve slv sc fuel sparse o (m, s) = ((m', s'), Ok tt) ->
  s_tstep s' = S (s_tstep s) /\
  exists rp rr, s_p s' = (s_p s ++ [rp])%list /\ s_r s' = (s_r s ++ [rr])%list /\
    length rr = length (last (s_r s) []) /\
    forall i, ~ In (Z.of_nat i) (b_ids m) -> nth_error rp i = nth_error (last (s_p s) []) i.
Proof.
  intros F NF NT slv sc fuel sparse o m0 l m s m' s' A E P U S.
  assert (C : counted false (m, Some s)). { rewrite <- E. apply ok_counted; auto; [intros ? ?; discriminate|discriminate]. }
  destruct (C s eq_refl) as (L & _). destruct (solve_ok slv sc _ _ _ _ _ _ L U S) as (n & (k & A' & d & p & row & la & lb & _ & M & _ & _ & _ & T) & _).
  destruct T as (T1 & (rr & T2 & T2') & T3 & _). cbn [fst snd] in *. split; [rewrite T3; apply L|]. exists row, rr. repeat split; auto.
  unfold set_many in M. destruct (length (b_ids m) =? length p); [|discriminate]. eapply many_other; eauto.
Qed.
Example ex_C49_case : exists (m0 m m' : bo R) (s s' : fs R), build 3 1 1 None 1%R (Some 10%R) None = Ok m0 /\ b_wells m0 = [] /\
  all_ok (m0, None) [set_q; Compile] /\ after (m0, None) [set_q; Compile] = (m, Some s) /\
  NoDup (b_ids m) /\ (forall id, In id (b_ids m) -> 0 <= id)%Z /\
  solve two_answers one 9 true odirect (m, s) = ((m', s'), Ok tt) /\ b_wells m <> [] /\ length (s_As s') = 2.
Proof. exact well_case. Qed.

(** C50: in every successful history there are tstep+1 rows; without direct calls
    of solve this is also nsteps. *)
Lemma L_C50_rows_partial :
  forall (F : Type) (NF : Num F) (NT : NumT F) (m0 : bo F) l m s,
  all_ok (m0, None) l -> after (m0, None) l = (m, Some s) ->
  length (s_p s) = S (s_tstep s) /\ length (s_r s) = S (s_tstep s) /\
  (Forall no_solve l -> s_nsteps s = S (s_tstep s)).
Proof.
  intros F NF NT m0 l m s A E.
  assert (C : counted false (m, Some s)). { rewrite <- E. apply ok_counted; auto; [intros ? ?; discriminate|discriminate]. }
  destruct (C s eq_refl) as ((L1 & L2) & _). split; auto. split; auto. intros N.
  assert (C' : counted true (m, Some s)). { rewrite <- E. apply ok_counted; auto. intros ? ?; discriminate. }
  destruct (C' s eq_refl) as (_ & _ & _ & H). symmetry. auto.
Qed.
Example ex_C50_case : exists (m0 : bo R) m s, build 3 1 1 None 1%R (Some 10%R) None = Ok m0 /\
  let l := [Compile; Run (fun _ _ _ => Ok [Some 10%R; Some 10%R; Some 10%R]) one 3 9 true false true false false None] in
  all_ok (m0, None) l /\ Forall no_solve l /\ after (m0, None) l = (m, Some s) /\ s_tstep s = 3.
Proof.
  do 3 eexists. split; [apply line3_pos; lra|]. cbv zeta.
  assert (H : forall l x z (P Q : Prop), (all_ok x l /\ after x l = z) -> P -> Q -> all_ok x l /\ P /\ after x l = z /\ Q) by (intros; tauto).
  apply H; [hrun|repeat constructor|reflexivity].
Qed.
(** C50 fails for direct calls of solve: two rows, nsteps is 1. *)
Lemma L_C50_nsteps_refuted :
  exists (m0 : bo R) slv sc m s, build 3 1 1 None 1%R (Some 10%R) None = Ok m0 /\
  let l := [Compile; Solve slv sc 9 true (mkOpts false true false true false None)] in
  all_ok (m0, None) l /\ after (m0, None) l = (m, Some s) /\ length (s_p s) = 2 /\ s_tstep s = 1 /\ s_nsteps s = 1.
Proof.
  exists (line3 (1 + 0) true (Some 10%R)), (fun _ _ _ => Ok [Some 10%R; Some 10%R; Some 10%R]), one.
  assert (Q : exists m s, solve (fun _ _ _ => Ok [Some 10%R; Some 10%R; Some 10%R]) one 9 true odirect (line3 (1 + 0) true (Some 10%R), fdm_new (line3 (1 + 0) true (Some 10%R))) = ((m, s), Ok tt) /\
    length (s_p s) = 2 /\ s_tstep s = 1 /\ s_nsteps s = 1).
  { do 2 eexists. split; [mrun|repeat split]. }
  destruct Q as (m & s & Q & Q1). exists m, s. split; [apply line3_pos; lra|]. cbv zeta.
  assert (E : exec Compile (line3 (1 + 0) true (Some 10%R), None) = ((line3 (1 + 0) true (Some 10%R), Some (fdm_new (line3 (1 + 0) true (Some 10%R)))), Ok tt)) by reflexivity.
  set (m1 := line3 (1 + 0) true (Some 10%R)) in *.
  cbn [all_ok after fold_left]. rewrite E. cbn [fst snd exec]. unfold of_solution. cbn [fst snd]. change (mkOpts false true false true false None) with odirect. rewrite Q. cbn [fst snd]. repeat split; tauto.
Qed.

(** C51: the last stored system is the one whose solution is the last row; there
    are at least as many systems as steps, and exactly as many without wells. *)
Lemma L_C51_stored_partial :
  forall (F : Type) (NF : Num F) (NT : NumT F) slv sc fuel sparse o (m0 : bo F) l m s m' s',
  all_ok (m0, None) l -> after (m0, None) l = (m, Some s) ->
  NoDup (b_ids m) -> (forall id, In id (b_ids m) -> 0 <= id)%Z ->
  o_upd o = true -> solve slv sc fuel sparse o (m, s) = ((m', s'), Ok tt) ->
  exists n As ds k A d p rp, s_As s' = (s_As s ++ As ++ [A])%list /\ s_ds s' = (s_ds s ++ ds ++ [d])%list /\
    length As = n /\ length ds = n /\ s_tstep s' <= length (s_As s') /\ length (s_As s') = length (s_ds s') /\
    slv k A d = Ok p /\ last (s_p s') [] = rp /\ rmapM (pyget rp) (b_ids m) = Ok p /\
    (b_wells m = [] -> n = 0).
Proof.
  intros F NF NT slv sc fuel sparse o m0 l m s m' s' A E ND P U S.
  assert (C : counted false (m, Some s)). { rewrite <- E. apply ok_counted; auto; [intros ? ?; discriminate|discriminate]. }
  destruct (C s eq_refl) as (L & L2 & L3 & _). destruct (solve_counted _ _ _ _ _ _ _ _ L L2 L3 S) as (_ & C2 & C3 & _).
  destruct (solve_ok slv sc _ _ _ _ _ _ L U S) as (n & (k & A' & d & p & row & la & lb & S1 & M & _ & N1 & N2 & T) & W).
  destruct T as (T1 & _ & _ & T4 & _). cbn [fst snd] in *. inversion T4 as [[TA Td]].
  exists n, la, lb, k, A', d, p, row. repeat split; auto.
  - rewrite T1. apply last_last.
  - unfold set_many in M. destruct (Nat.eqb_spec (length (b_ids m)) (length p)); [|discriminate]. eapply many_get; eauto.
Qed.
Example ex_C51_case : exists (m0 m m' : bo R) (s s' : fs R), build 3 1 1 None 1%R (Some 10%R) None = Ok m0 /\ b_wells m0 = [] /\
  all_ok (m0, None) [set_q; Compile] /\ after (m0, None) [set_q; Compile] = (m, Some s) /\
  NoDup (b_ids m) /\ (forall id, In id (b_ids m) -> 0 <= id)%Z /\
  solve two_answers one 9 true odirect (m, s) = ((m', s'), Ok tt) /\ b_wells m <> [] /\ length (s_As s') = 2.
Proof. exact well_case. Qed.

(** A step of the sample well with its limit. *)
Lemma well_run : exists (m0 m : bo R) s G, build 3 1 1 None 1%R (Some 10%R) None = Ok m0 /\ (0 < G)%R /\
  let l := [Set_well (Some 2%Z) (Some (-1)%R) (Some 10%R) (Some (1 / 2)%R) None; Compile;
            Solve two_answers one 9 true (mkOpts false true false true false None)] in
  all_ok (m0, None) l /\ after (m0, None) l = (m, Some s) /\ s_tstep s = 1 /\ length (s_As s) = 2.
Proof.
  destruct line3q_built as (G & req & HG & E). assert (HG' : (0 < / G)%R) by now apply Rinv_0_lt_compat.
  destruct (line3q_step G req HG HG') as (m & s & E2 & H1 & H2). exists (line3 (1 + 0) true (Some 10%R)), m, s, G.
  split; [apply line3_pos; lra|]. split; auto. cbv zeta.
  assert (H : all_ok (line3 (1 + 0) true (Some 10%R), None) [set_q; Compile; Solve two_answers one 9 true odirect] /\
    after (line3 (1 + 0) true (Some 10%R), None) [set_q; Compile; Solve two_answers one 9 true odirect] = (m, Some s)).
  { eapply exec_step; [exact E|]. eapply exec_step; [reflexivity|]. eapply exec_step; [|split; [exact I|reflexivity]].
    cbn [exec]. apply of_solution_run. exact E2. }
  destruct H as (Ha & Hb). repeat split; auto; apply Ha.
Qed.
(** C51 fails for wells at their limit: one step, two stored systems, although
    both are solved exactly. *)
Lemma L_C51_stored_refuted :
  exists (m0 : bo R) slv sc m s, build 3 1 1 None 1%R (Some 10%R) None = Ok m0 /\ exact slv /\
  let l := [Set_well (Some 2%Z) (Some (-1)%R) (Some 10%R) (Some (1 / 2)%R) None; Compile;
            Solve slv sc 9 true (mkOpts false true false true false None)] in
  all_ok (m0, None) l /\ after (m0, None) l = (m, Some s) /\ s_tstep s = 1 /\ length (s_As s) = 2.
Proof.
  destruct well_run as (m0 & m & s & G & H1 & H2 & H3). exists m0, two_answers, one, m, s. split; auto. split; [apply trial_exact|]. exact H3.
Qed.

(** C53: without wells, for dense matrices and for "cgs" itself only the solver
    asked for matters. *)
Lemma L_C53_solver_partial :
  forall (F : Type) (NF : Num F) slv slv' sc fuel sparse o k (m : bo F) s,
  pick_solver sparse (o_iso o) = Ok k -> (forall A d, slv k A d = slv' k A d) ->
  b_wells m = [] \/ sparse = false \/ o_iso o = Some "cgs"%string ->
  solve slv sc fuel sparse o (m, s) = solve slv' sc fuel sparse o (m, s).
Proof.
  intros F NF slv slv' sc fuel sparse o k m s Ek Es [W|H].
  - destruct fuel as [|fuel]; [reflexivity|]. cbn [solve]. apply mbind_eq; [reflexivity|]. intros [A d] [m1 s1] E1. pose proof (system_pub sc o (m, s)) as P.
    rewrite E1 in P. cbn [fst snd] in P. apply mbind_eq; [unfold mread; rewrite Ek; cbn [rbind]; now rewrite Es|]. intros p X2 E2.
    apply mread_ok in E2 as (-> & _). destruct (o_upd o); [|reflexivity]. apply mbind_eq; [reflexivity|]. intros [] X3 E3.
    apply mbind_eq; [reflexivity|]. intros [] X4 E4. apply mbind_eq; [reflexivity|]. intros again X5 E5.
    assert (W4 : b_wells (fst X4) = []).
    { assert (W1 : b_wells m1 = []) by (rewrite <- W; unfold pub, settings in P; cbn [fst] in P; congruence).
      assert (I3 : inv (fun x : st F => b_wells (fst x) = []) (new_rows A d p)).
      { unfold new_rows. isplit; apply i_set; intros [? ?] [? ?] Hx Ex; fin; exact Hx. }
      specialize (I3 (m1, s1) W1). cbn [fst snd] in E3. rewrite E3 in I3.
      assert (I4 : inv (fun x : st F => b_wells (fst x) = []) update_boundaries).
      { unfold update_boundaries, update_boundary, put_r. isplit. apply i_set. intros [? ?] [? ?] Hx Ex. fin. exact Hx. }
      specialize (I4 X3 I3). rewrite E4 in I4. exact I4. }
    unfold update_wells in E5. rewrite (mbind_run _ _ X4 X4 []) in E5 by (unfold mread; now rewrite W4). cbn in E5. inversion E5; subst. reflexivity.
  - revert o m s Ek H. induction fuel as [|fuel IH]; intros o m s Ek H; [reflexivity|]. cbn [solve]. apply mbind_eq; [reflexivity|]. intros [A d] X1 E1.
    apply mbind_eq; [unfold mread; rewrite Ek; cbn [rbind]; now rewrite Es|]. intros p X2 E2.
    destruct (o_upd o); [|reflexivity]. apply mbind_eq; [reflexivity|]. intros [] X3 E3.
    apply mbind_eq; [reflexivity|]. intros [] X4 E4. apply mbind_eq; [reflexivity|]. intros again X5 E5.
    apply mbind_eq; [|reflexivity]. destruct again; [|reflexivity]. cbn [mwhen]. apply mbind_eq; [reflexivity|]. intros [] [m6 s6] E6.
    apply IH.
    + cbn [o_iso]. destruct H as [->|H]; [destruct (o_iso o); exact Ek|now rewrite <- H].
    + destruct H as [->|H]; auto.
Qed.
Example ex_C53_case : exists (m : bo R) slv slv' m' s', pick_solver false (Some "bicg"%string) = Ok Dense /\
  (forall A d, slv Dense A d = slv' Dense A d) /\ (exists A d, slv Direct A d <> slv' Direct A d) /\ b_wells m <> [] /\
  solve slv one 9 false (mkOpts false true false true false (Some "bicg"%string)) (m, fdm_new m) = ((m', s'), Ok tt) /\ length (s_As s') = 2.
Proof.
  destruct line3q_built as (G & req & HG & E). assert (HG' : (0 < / G)%R) by now apply Rinv_0_lt_compat.
  exists (line3q G req), two_answers, (fun k A d => match k with Dense => two_answers k A d | _ => Err ValueError end). do 2 eexists.
  split; [reflexivity|]. split; [reflexivity|]. split; [exists (mat0 3), [Some 0%R; Some 0%R; Some 0%R]|split; [discriminate|split; [mrun|reflexivity]]].
  assert (Hx : checks (mat0 3) [Some 0%R; Some 0%R; Some 0%R] [10; 10; 10]%R = true) by (unfold checks, times; cbn; rewrite !Rmult_0_l, !Rplus_0_l; unfold Reqb; destruct (Req_EM_T 0 0); [reflexivity|congruence]).
  unfold two_answers, trial. cbn [find]. destruct (checks _ _ [39 / 4; 19 / 2; 39 / 4]%R); [discriminate|]. rewrite Hx. discriminate.
Qed.
(** C53 fails: spsolve is asked for, but the pressures are those of cgs. *)
Lemma L_C53_solver_refuted :
  exists (m : bo R) slv slv' sc m1 s1 m2 s2, let o := mkOpts false true false true false None in
  pick_solver true (o_iso o) = Ok Direct /\ (forall A d, slv Direct A d = slv' Direct A d) /\
  solve slv sc 9 true o (m, fdm_new m) = ((m1, s1), Ok tt) /\ solve slv' sc 9 true o (m, fdm_new m) = ((m2, s2), Ok tt) /\
  at2 (s_p s1) 1 1 = Ok (Some 10%R) /\ at2 (s_p s2) 1 1 = Ok (Some 9%R).
Proof.
  destruct line3q_built as (G & req & HG & E). assert (HG' : (0 < / G)%R) by now apply Rinv_0_lt_compat.
  set (bad := fun k A d => match k with Iter _ => Ok [Some 9%R; Some 9%R; Some 9%R] | _ => two_answers k A d end).
  assert (Q1 : exists m s, solve two_answers one 9 true odirect (line3q G req, fdm_new (line3q G req)) = ((m, s), Ok tt) /\ at2 (s_p s) 1 1 = Ok (Some 10%R)).
  { do 2 eexists. split; [mrun|reflexivity]. }
  assert (Q2 : exists m s, solve bad one 9 true odirect (line3q G req, fdm_new (line3q G req)) = ((m, s), Ok tt) /\ at2 (s_p s) 1 1 = Ok (Some 9%R)).
  { do 2 eexists. split; [mrun|reflexivity]. }
  destruct Q1 as (m1 & s1 & Q1 & H1), Q2 as (m2 & s2 & Q2 & H2).
  exists (line3q G req), two_answers, bad, one, m1, s1, m2, s2. cbv zeta. split; [reflexivity|]. split; [reflexivity|]. auto.
Qed.

(** C54: after a successful step every bottom-hole pressure is at or above its
    limit; a pressure-controlled well flows at its inflow rate; a well that was
    at its specified rate and is not switched stays at it. *)
Lemma L_C54_limits :
  forall (F : Type) (NF : Num F) (NT : NumT F) slv sc fuel sparse o (m0 : bo F) l m s m' s',
  b_wells m0 = [] -> (forall id, In id (b_ids m0) -> 0 <= id)%Z ->
  all_ok (m0, None) l -> after (m0, None) l = (m, Some s) ->
  o_upd o = true -> solve slv sc fuel sparse o (m, s) = ((m', s'), Ok tt) ->
  forall id w', dget id (b_wells m') = Some w' ->
  exists w lim v p q, dget id (b_wells m) = Some w /\ w_pwfsp w = Some lim /\
    w_pwf w' = Some (Some v) /\ (v = lim \/ nltb lim v = true) /\
    at2 (s_p s') (s_tstep s') id = Ok p /\ at2 (s_r s') (s_tstep s') id = Ok q /\ w_q w' = Some q /\
    (w_con w' = Some (Some "q"%string) \/
     w_con w' = Some (Some "pwf"%string) /\ v = lim /\
       exists G, w_G w = Some G /\ q = fmul (Some (ndiv (nopp G) (nmul (b_B m) (b_mu m)))) (fsub p (Some lim))) /\
    (forall qsp, w_con w' = Some (Some "q"%string) -> length (s_As s') = S (length (s_As s)) ->
       w_q w = Some (Some qsp) -> q = Some qsp).
Proof.
  intros F NF NT slv sc fuel sparse o m0 l m s m' s' W0 P A E U S id w' Ew.
  assert (C : counted false (m, Some s)). { rewrite <- E. apply ok_counted; auto; [intros ? ?; discriminate|discriminate]. }
  destruct (C s eq_refl) as (L & _).
  assert (K : wkeys (b_ids m0) (m, Some s)). { rewrite <- E. apply wk_after. unfold wkeys. cbn [fst]. rewrite W0. repeat split; [constructor|intros ? []]. }
  destruct K as (K1 & K2 & K3). cbn [fst] in *.
  destruct (solve_last slv sc _ _ _ _ _ _ L U S) as (Y & Y' & Y1 & Y2 & Y3 & Y4 & Y5 & Y6 & Y7 & Y8 & Y9 & Y10). cbn [fst snd] in *.
  assert (Ky : dkeys (b_wells (fst Y)) = dkeys (b_wells m)) by now rewrite fixm_keys, Y3, <- fixm_keys.
  destruct (update_wells_ok Y Y' false) as (Z & t & U1 & U2 & U3 & U4 & _); [rewrite Ky; auto|rewrite Ky; auto|auto|].
  assert (T : t <> None) by now apply U4. destruct Y as [my sy]. cbn [fst snd] in *.
  destruct (loop_ok (dkeys (b_wells my)) [] my sy Z t) as (dn & rest & L1 & L2 & L3 & L4 & _ & _ & L5 & _ & _ & L6 & L7); [rewrite Ky; auto|rewrite Ky; auto|exact U1|].
  destruct t as [t|]; [|congruence]. destruct L7 as (-> & _). rewrite app_nil_r in L1. cbn [fst snd] in *.
  assert (I : In id dn). { rewrite <- L1, <- L5, <- U2, <- Y5. apply dget_keys. congruence. }
  destruct (L6 id I) as (w & w2 & p & q & b & pw & G1 & G2 & G3 & G4 & G5 & G6).
  destruct (fixm_get _ _ _ _ Y3 G1) as (w1 & F1 & F2).
  rewrite Y5, U2, G2 in Ew. inversion Ew; subst w2; clear Ew.
  assert (Bq : b = false) by (destruct b; auto; specialize (G6 eq_refl); congruence). subst b.
  destruct G4 as (est & lim & H1 & H2 & H3 & H4 & H5 & H6).
  assert (Q1 : w_pwfsp w1 = Some lim) by (unfold fixedw in F2; congruence). assert (Q2 : w_G w1 = w_G w) by (unfold fixedw in F2; congruence).
  assert (V : exists v, pwf_of lim est = Some v /\ (v = lim \/ nltb lim v = true)).
  { unfold pwf_of. destruct (fltb (Some lim) est) eqn:Ef; [|eauto]. destruct est as [v|]; [|discriminate]. exists v. auto. }
  destruct V as (v & V1 & V2).
  assert (Mw : w_pwf w' = Some (pwf_of lim est) /\ w_q w' = Some q /\ w_con w' = Some (Some (con_of lim est))) by (rewrite H6; unfold mid; destruct w; repeat split).
  destruct Mw as (M1 & M2 & M3).
  destruct (core_fields _ _ Y2) as (_ & _ & Cmu & CB & _).
  exists w1, lim, v, p, q. rewrite M1, V1, M2, M3, Y6, Y7, Y8, U3, L3, L4. repeat split; auto.
  - unfold con_of. unfold pwf_of in V1. destruct (fltb (Some lim) est) eqn:Ef; [now left|right]. inversion V1; subst v. split; auto. split; auto.
    unfold w_num, w_mode in H5. unfold mid, con_of, pwf_of in H5. rewrite Ef in H5. rewrite Q2, <- CB, <- Cmu.
    destruct w; cbn in *. destruct (has w_q); cbn in H5; destruct w_G as [G|]; cbn in H5; try discriminate; inversion H5; subst; eauto.
  - intros qsp Hc Hl Hq. injection Hc as Hc. assert (Ef : fltb (Some lim) est = true) by (unfold con_of in Hc; destruct (fltb (Some lim) est); congruence).
    rewrite (Y10 Hl) in G1. rewrite F1 in G1. inversion G1; subst w1.
    unfold w_num, w_mode in H5. unfold mid, con_of, pwf_of in H5. rewrite Ef in H5. destruct w; cbn in *. rewrite Hq in H5. cbn in H5. congruence.
Qed.
Example ex_C54_case : exists (m0 m m' : bo R) (s s' : fs R), build 3 1 1 None 1%R (Some 10%R) None = Ok m0 /\ b_wells m0 = [] /\
  all_ok (m0, None) [set_q; Compile] /\ after (m0, None) [set_q; Compile] = (m, Some s) /\
  NoDup (b_ids m) /\ (forall id, In id (b_ids m) -> 0 <= id)%Z /\
  solve two_answers one 9 true odirect (m, s) = ((m', s'), Ok tt) /\ b_wells m <> [] /\ length (s_As s') = 2.
Proof. exact well_case. Qed.

(** C55 fails: in steps 2 and 3 the well is back under rate control but flows at
    0 instead of -1, and its equation still contains the pressure term: the
    diagonal entry is -3 - G instead of -3. *)
Lemma L_C55_return_refuted :
  exists (m0 : bo R) l m s w G A, build 3 1 1 None 1%R (Some 10%R) None = Ok m0 /\
  Forall (fun c => match c with Solve slv _ _ _ _ => exact slv | _ => True end) l /\
  all_ok (m0, None) l /\ after (m0, None) l = (m, Some s) /\ s_tstep s = 3 /\
  dget 2%Z (b_wells m) = Some w /\ w_con w = Some (Some "q"%string) /\ w_qsp w = Some (-1)%R /\
  at2 (s_r s) 2 2 = Ok (Some 0%R) /\ at2 (s_r s) 3 2 = Ok (Some 0%R) /\
  (0 < G)%R /\ last (s_As s) (mat0 0) = A /\ ment A 1 1 = (-3 - G)%R.
Proof.
  destruct line3q_built as (G & req & HG & E). destruct (line3q_back G req HG) as (m & s & A & (H1 & H2) & H3 & H4 & H5 & H6 & (w & H7 & H8 & H9) & H10 & H11).
  exists (line3 (1 + 0) true (Some 10%R)), (set_q :: back G), m, s, w, G, A. split; [apply line3_pos; lra|].
  split; [repeat constructor; apply trial_exact|].
  assert (H : all_ok (line3 (1 + 0) true (Some 10%R), None) (set_q :: back G) /\ after (line3 (1 + 0) true (Some 10%R), None) (set_q :: back G) = (m, Some s)).
  { eapply exec_step; [exact E|]. split; auto. }
  destruct H as (Ha & Hb). repeat split; auto; apply Ha.
Qed.
