(** Repeated solving, dry runs, threads, other solutions: property lemmas. *)
From Coq Require Import String ZArith Bool Arith List Lia Reals Lra QArith Permutation.
From Verif Require Import Prelude PreludeFacts Num GridModel GridSpec GeoModel GeoSpec PropModel PropSpec
  UnitsModel BlackOilModel FdmModel MonadFacts HistSpec InvFacts Samples AsmFacts ModelSpec SampleFacts SampleWell SolverSpec StepSpec StepFacts WellStepFacts
  SolveSpec SolveFacts DryFacts WpFacts QSamples.
Import ListNotations.
Close Scope Q_scope. Close Scope R_scope.
Open Scope nat_scope.

(** C52: with W wells a step is solved at most W+1 times: more fuel changes
    nothing, and at most W+1 systems are stored. *)
Lemma L_C52_terminates :
  forall slv sc sparse o (m0 : bo R) l m s,
  b_wells m0 = [] -> NoDup (b_ids m0) -> (forall id, In id (b_ids m0) -> 0 <= id)%Z ->
  all_ok (m0, None) l -> after (m0, None) l = (m, Some s) ->
  (0 < b_B m)%R -> (0 < b_mu m)%R -> (forall id w G, dget id (b_wells m) = Some w -> w_G w = Some G -> (0 < G)%R) ->
  no_tie m slv ->
  let W := length (b_wells m) in
  (forall n, solve slv sc (S W + n) sparse o (m, s) = solve slv sc (S W) sparse o (m, s)) /\
  (forall fuel m' s', o_upd o = true -> solve slv sc fuel sparse o (m, s) = ((m', s'), Ok tt) ->
     length (s_As s') <= length (s_As s) + S W).
Proof.
  intros slv sc sparse o m0 l m s W0 ND P A E HB Hm HG HT W.
  assert (C : counted false (m, Some s)). { rewrite <- E. apply ok_counted; auto; [intros ? ?; discriminate|discriminate]. }
  destruct (C s eq_refl) as (L & _).
  assert (K : wkeys (b_ids m0) (m, Some s)). { rewrite <- E. apply wk_after. unfold wkeys. cbn [fst]. rewrite W0. repeat split; [constructor|intros ? []]. }
  destruct K as (K1 & K2 & K3). cbn [fst] in *.
  assert (G : gfix slv (b_ids m0) m) by (unfold gfix; tauto). pose proof (askers_le (b_wells m)) as Ha. split.
  - intros n. apply (fuel_enough slv sc (b_ids m0)); auto.
  - intros fuel m' s' U Es. pose proof (systems_bound slv sc (b_ids m0) ND P _ _ _ _ _ _ G L U Es) as H. cbn [snd] in H. unfold W. lia.
Qed.
Lemma trial_answers cands k A d ps : trial cands k A d = Ok ps -> exists y, In y cands /\ ps = map Some y.
Proof. unfold trial. destruct (find _ cands) as [y|] eqn:Ef; [|discriminate]. apply find_some in Ef as (H & _). intros E. inversion E. eauto. Qed.
Example ex_C52_case : exists (m0 m m' : bo R) (s s' : fs R), build 3 1 1 None 1%R (Some 10%R) None = Ok m0 /\ b_wells m0 = [] /\ NoDup (b_ids m0) /\
  all_ok (m0, None) [set_q; Compile] /\ after (m0, None) [set_q; Compile] = (m, Some s) /\
  (0 < b_B m)%R /\ (0 < b_mu m)%R /\ (forall id w G, dget id (b_wells m) = Some w -> w_G w = Some G -> (0 < G)%R) /\ no_tie m two_answers /\
  length (b_wells m) = 1 /\ solve two_answers one 9 true odirect (m, s) = ((m', s'), Ok tt) /\ length (s_As s') = length (s_As s) + 2.
Proof.
  destruct line3q_built as (G & req & HG & E). assert (HG' : (0 < / G)%R) by now apply Rinv_0_lt_compat.
  destruct (line3q_step G req HG HG') as (m' & s' & E2 & H1 & _).
  exists (line3 (1 + 0) true (Some 10%R)), (line3q G req), m', (fdm_new (line3q G req)), s'.
  split; [apply line3_pos; lra|]. split; [reflexivity|]. split; [repeat constructor; cbn; intuition discriminate|].
  assert (H : all_ok (line3 (1 + 0) true (Some 10%R), None) [set_q; Compile] /\
    after (line3 (1 + 0) true (Some 10%R), None) [set_q; Compile] = (line3q G req, Some (fdm_new (line3q G req)))).
  { eapply exec_step; [exact E|]. eapply exec_step; [reflexivity|]. split; [exact I|reflexivity]. }
  destruct H as (Ha & Hb). split; auto. split; auto.
  assert (HB : b_B (line3q G req) = 1%R) by reflexivity. assert (Hm : b_mu (line3q G req) = 1%R) by reflexivity. rewrite HB, Hm. split; [lra|]. split; [lra|].
  assert (Hw : forall id w, dget id (b_wells (line3q G req)) = Some w -> id = 2%Z /\ w_G w = Some G /\ w_qsp w = Some (-1)%R /\ w_pwfsp w = Some 10%R).
  { intros id w Hx. cbn in Hx. destruct (Z.eqb_spec id 2); [|discriminate]. inversion Hx. auto. }
  split. { intros id w G' Hx Hg. destruct (Hw id w Hx) as (_ & H & _). rewrite H in Hg. now inversion Hg; subst. }
  split.
  { intros k A d ps Es id w qsp G' lim i v Hx Q1 Q2 Q3 Q4 Q5. destruct (Hw id w Hx) as (-> & R1 & R2 & R3). rewrite R1 in Q2. rewrite R2 in Q1. rewrite R3 in Q3.
    inversion Q1; inversion Q2; inversion Q3; subst. rewrite HB, Hm.
    assert (Hi : i = 1). { destruct i as [|[|[|i]]]; cbn in Q4; try discriminate; auto. destruct i; discriminate. } subst i.
    apply trial_answers in Es as (y & [<-|[<-|[]]] & ->); cbn in Q5; inversion Q5; subst; unfold Rdiv; lra. }
  split; [reflexivity|]. split; auto.
Qed.

(** ** Dry runs *)
(** C58: calls of solve(update=False) leave the results and the settings as they
    were, and the system assembled next is the same, whichever way it is
    assembled. *)
Lemma L_C58_dry_run :
  forall (F : Type) (NF : Num F) (NT : NumT F) sc (m0 : bo F) l m s l' m' s',
  b_wells m0 = [] -> after (m0, None) l = (m, Some s) ->
  Forall (dry sc) l' -> all_ok (m, Some s) l' -> after (m, Some s) l' = (m', Some s') ->
  settings m' = settings m /\ results s' = results s /\
  forall o, same_system (snd (get_system sc o (m', s'))) (snd (get_system sc o (m, s))).
Proof.
  intros F NF NT sc m0 l m s l' m' s' W E D A E'.
  assert (Gx : goodx (m, Some s)). { rewrite <- E. apply go_after. intros id w. cbn [fst]. rewrite W. discriminate. }
  pose proof (dry_after sc l' m s m' s' Gx D A E') as H. pose proof H as (P & _). unfold pub in P. cbn [fst snd] in P. split; [congruence|]. split; [congruence|].
  intros o. apply ds_outcome. exact H.
Qed.
Lemma sol_eq {F} (m : bo F) (x : ws F) : has (snd x) = true -> x = (fst x, Some (sol m x)).
Proof. destruct x as [m' [s|]]; [reflexivity|discriminate]. Qed.
Example ex_C58_case : exists m0 : bo Q, build 3 1 1 None 1%Q (Some 10%Q) None = Ok m0 /\ b_wells m0 = [] /\
  forall NT : NumT Q, exists m s m' s',
  let l := [Set_boundaries [(0%Z, ("pressure"%string, 20%Q))]; Compile; Solve cramer3 oneQ 9 true symbolic] in
  let l' := [Solve cramer3 oneQ 9 true dried; Solve cramer3 oneQ 9 true (mkOpts true true true false true None); Solve cramer3 oneQ 9 true (mkOpts false true false false false None)] in
  after (m0, None) l = (m, Some s) /\ Forall (dry oneQ) l' /\ all_ok (m, Some s) l' /\ after (m, Some s) l' = (m', Some s') /\
  nth_error (s_p s) 1 = Some [Some 20%Q; Some (140 # 9)%Q; Some (110 # 9)%Q; Some (100 # 9)%Q; None].
Proof.
  eexists. split; [vm_compute; reflexivity|]. split; [reflexivity|]. intros NT. do 2 eexists.
  match goal with |- exists m' s', let l := ?a in let l' := ?b in after (?m0, None) _ = (?m, Some ?s) /\ _ => exists (fst (after (m, Some s) b)), (sol m0 (after (m, Some s) b)) end.
  cbv zeta. split; [vm_compute; reflexivity|].
  split; [repeat constructor|]. split; [vm_compute; repeat split; reflexivity|]. split; [apply sol_eq; vm_compute; reflexivity|vm_compute; reflexivity].
Qed.

(** ** Threads *)
(** C59: with threads, whatever order the tasks run in, the assembly succeeds or
    fails alike, gives the same matrix and right side, and leaves the same cached
    terms. *)
Lemma L_C59_schedule :
  forall (F : Type) (NF : Num F) sc o1 o2 (x : st F),
  NoDup (b_ids (fst x)) -> Permutation o1 (b_ids (fst x)) -> Permutation o2 (b_ids (fst x)) ->
  scheduled sc (b_ids (fst x)) (b_ids (fst x)) x = get_matrices_symb sc true x /\
  match scheduled sc o1 o2 x, get_matrices_symb sc true x with
  | (y, Ok Ad), (z, Ok Bd) => meq (fst Ad) (fst Bd) /\ snd Ad = snd Bd /\ forall id, dget id (b_terms (fst y)) = dget id (b_terms (fst z))
  | (_, Err _), (_, Err _) => True
  | _, _ => False
  end.
Proof. intros F NF sc o1 o2 x N P1 P2. split; [apply sched_ids|apply sched_any; auto]. Qed.
Example ex_C59_case : exists (m : bo Q) y Ad, build 3 1 1 None 1%Q (Some 10%Q) None = Ok m /\ b_ids m = [1; 2; 3]%Z /\
  Permutation [3; 1; 2]%Z (b_ids m) /\ Permutation [2; 3; 1]%Z (b_ids m) /\
  scheduled oneQ [3; 1; 2]%Z [2; 3; 1]%Z (m, fdm_new m) = (y, Ok Ad) /\ snd Ad = [Some (-10)%Q; Some (-10)%Q; Some (-10)%Q] /\ ment (fst Ad) 1 0 = 1%Q.
Proof.
  do 3 eexists. split; [vm_compute; reflexivity|]. split; [reflexivity|].
  split; [apply Permutation_sym; cbn; eapply perm_trans; [apply perm_skip, perm_swap|apply perm_swap]|].
  split; [cbn; eapply perm_trans; [apply perm_skip, perm_swap|apply perm_swap]|].
  split; [vm_compute; reflexivity|]. split; vm_compute; reflexivity.
Qed.

(** ** Recorded bottom-hole pressures *)
(** C72, what holds: if every well is set once, before the first step (and later
    only without pwf), every well has one pressure per step. *)
Lemma L_C72_pressures_partial :
  forall (F : Type) (NF : Num F) (NT : NumT F) (m0 : bo F) l,
  b_wells m0 = [] -> b_wp m0 = [] -> along tidy (m0, None) l -> all_ok (m0, None) l ->
  one_per_step (after (m0, None) l).
Proof.
  intros F NF NT m0 l W P T A. apply (wp_along (b_ids m0)); auto. split; [|split].
  - unfold wkeys. cbn [fst]. rewrite W. repeat split; [constructor|intros ? []].
  - intros s E. discriminate.
  - split; cbn [fst]; rewrite W; [discriminate|]. rewrite P. reflexivity.
Qed.
Example ex_C72_case : exists (m0 m : bo R) (s : fs R), build 3 1 1 None 1%R (Some 10%R) None = Ok m0 /\ b_wells m0 = [] /\ b_wp m0 = [] /\
  let l := [set_q; Compile; Solve two_answers one 9 true odirect] in
  along tidy (m0, None) l /\ all_ok (m0, None) l /\ after (m0, None) l = (m, Some s) /\ s_tstep s = 1 /\ dkeys (b_wells m) = [2%Z].
Proof.
  destruct line3q_built as (G & req & HG & E). assert (HG' : (0 < / G)%R) by now apply Rinv_0_lt_compat.
  destruct (line3q_step G req HG HG') as (m' & s' & E2 & H1 & _).
  exists (line3 (1 + 0) true (Some 10%R)), m', s'. split; [apply line3_pos; lra|]. split; [reflexivity|]. split; [reflexivity|]. cbv zeta.
  split.
  { cbn [along]. split; [left; split; reflexivity|]. rewrite E. cbn [fst]. split; [reflexivity|]. split; exact I. }
  assert (H : all_ok (line3 (1 + 0) true (Some 10%R), None) [set_q; Compile; Solve two_answers one 9 true odirect] /\
    after (line3 (1 + 0) true (Some 10%R), None) [set_q; Compile; Solve two_answers one 9 true odirect] = (m', Some s')).
  { eapply exec_step; [exact E|]. eapply exec_step; [reflexivity|]. eapply exec_step; [apply of_solution_run; exact E2|]. split; [exact I|reflexivity]. }
  destruct H as (Ha & Hb). split; auto. split; auto. pose proof (fx_solve two_answers one (fixm (b_wells (line3q G req))) 9 true odirect (line3q G req, fdm_new (line3q G req)) eq_refl) as Fx.
  rewrite E2 in Fx. unfold fx in Fx. cbn [fst] in Fx.
  destruct (wp_solve_upd two_answers one 9 true odirect (line3q G req) (fdm_new (line3q G req)) (m', s') 1) as (_ & T); auto; try (split; reflexivity).
  - repeat constructor. intros [].
  - split.
    + intros id w. cbn [line3q]. intros Q. assert (Hw : dget id (b_wells (line3q G req)) = Some w) by exact Q. cbn in Hw. destruct (Z.eqb_spec id 2); [|discriminate]. subst. inversion Hw; subst. split; [discriminate|reflexivity].
    + intros id Q. cbn in Q |- *. destruct (Z.eqb_spec id 2); [discriminate|reflexivity].
  - cbn [snd] in T. split; [exact T|]. rewrite fixm_keys, Fx. reflexivity.
Qed.
Lemma miscount {F} id (x : ws F) n : has (dget id (b_wells (fst x))) = true -> option_map (@length (fl F)) (dget id (b_wp (fst x))) = Some n ->
  n <> S (get_tstep x) -> ~ one_per_step x.
Proof.
  intros H1 H2 N H. destruct (dget id (b_wells (fst x))) as [w|] eqn:E; [|discriminate]. destruct (H id w E) as (ps & E1 & E2).
  rewrite E1 in H2. cbn in H2. congruence.
Qed.
(** C72 is false: setting pwf again records a second pressure at the same step, and
    a well added later starts with one pressure. *)
Lemma L_C72_pressures_refuted :
  exists m0 : bo Q, build 3 1 1 None 1%Q (Some 10%Q) None = Ok m0 /\ b_wells m0 = [] /\ b_wp m0 = [] /\
  forall NT : NumT Q,
  (let l := [Set_well (Some 2%Z) None (Some 5%Q) (Some 1%Q) None; Set_well (Some 2%Z) None (Some 6%Q) (Some 1%Q) None; Compile] in
   all_ok (m0, None) l /\ ~ one_per_step (after (m0, None) l)) /\
  (let l := [Compile; Solve cramer3 oneQ 9 true vectorial; Set_well (Some 2%Z) (Some 1%Q) None (Some 1%Q) None] in
   all_ok (m0, None) l /\ ~ one_per_step (after (m0, None) l)).
Proof.
  eexists. split; [vm_compute; reflexivity|]. split; [reflexivity|]. split; [reflexivity|]. intros NT. cbv zeta. split.
  - split; [lazy; repeat split; reflexivity|]. eapply (miscount 2%Z); [lazy; reflexivity|lazy; reflexivity|lazy; discriminate].
  - split; [lazy; repeat split; reflexivity|]. eapply (miscount 2%Z); [lazy; reflexivity|lazy; reflexivity|lazy; discriminate].
Qed.

(** ** Several solutions *)
(** C77, what holds: a vectorised solve or run of a model without wells leaves the
    model exactly as it was, so nothing done with another solution changes. *)
Lemma L_C77_no_wells_partial :
  forall (F : Type) (NF : Num F) (NT : NumT F) (m : bo F) s c c2 s2,
  b_wells m = [] -> stepping c -> vectorised c ->
  exec c2 (fst (fst (exec c (m, Some s))), s2) = exec c2 (m, s2).
Proof.
  intros F NF NT m s c c2 s2 W S V. assert (E : fst (fst (exec c (m, Some s))) = m); [|now rewrite E].
  destruct c; cbn [stepping vectorised] in *; try tauto; cbn [exec]; unfold of_solution; cbn [fst snd].
  - destruct V as (V & P). pose proof (al_solve m W slv sc fuel sparse o V P (m, s) eq_refl) as H. destruct (solve slv sc fuel sparse o (m, s)). exact H.
  - destruct V as (-> & ->). pose proof (al_run m W slv sc n fuel sparse thr mb iso (m, s) eq_refl) as H. destruct (run slv sc n fuel sparse thr true mb false iso (m, s)). exact H.
Qed.
Example ex_C77_case : exists m : bo Q, build 3 1 1 None 1%Q (Some 10%Q) None = Ok m /\ b_wells m = [] /\
  forall NT : NumT Q, exists (m' : bo Q) (s' : fs Q), let c := Run cramer3 oneQ 2 9 true false true false false None in
  stepping c /\ vectorised c /\ snd (exec c (m, Some (fdm_new m))) = Ok tt /\ fst (exec c (m, Some (fdm_new m))) = (m', Some s') /\ s_tstep s' = 2.
Proof.
  eexists. split; [vm_compute; reflexivity|]. split; [reflexivity|]. intros NT.
  match goal with |- exists m' s', let c := ?a in _ /\ _ /\ snd (exec c ?x) = _ /\ _ => exists (fst (fst (exec a x))), (sol (fst x) (fst (exec a x))) end.
  cbv zeta. split; [exact I|]. split; [split; reflexivity|].
  split; [vm_compute; reflexivity|]. split; [apply sol_eq; vm_compute; reflexivity|vm_compute; reflexivity].
Qed.
(** C77 is false: a symbolic solve of one solution leaves the terms of the cells in
    the model, and another solution, compiled after the boundary has been changed,
    uses them: its pressures are those of the old boundary. *)
Lemma L_C77_independent_refuted :
  exists m0 : bo Q, build 3 1 1 None 1%Q (Some 10%Q) None = Ok m0 /\
  forall NT : NumT Q, exists m1 m2 s1 s2,
  let edge v := Set_boundaries [(0%Z, ("pressure"%string, v))] in
  let step := Solve cramer3 oneQ 9 true symbolic in
  let with_first := [edge 20%Q; Compile; step; edge 40%Q; Compile; step] in
  let without := [edge 20%Q; Compile; edge 40%Q; Compile; step] in
  all_ok (m0, None) with_first /\ after (m0, None) with_first = (m1, Some s1) /\
  all_ok (m0, None) without /\ after (m0, None) without = (m2, Some s2) /\
  b_bdict m1 = b_bdict m2 /\ at2 (s_p s1) 1 1 = Ok (Some (140 # 9)%Q) /\ at2 (s_p s2) 1 1 = Ok (Some (80 # 3)%Q).
Proof.
  eexists. split; [vm_compute; reflexivity|]. intros NT. do 4 eexists. cbv zeta. split; [vm_compute; repeat split; reflexivity|].
  split; [vm_compute; reflexivity|]. split; [vm_compute; repeat split; reflexivity|]. split; [vm_compute; reflexivity|].
  split; [reflexivity|]. split; vm_compute; reflexivity.
Qed.
