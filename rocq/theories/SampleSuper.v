(** Samples for the superposition: wells in two cells, incompressible rates. *)
From Coq Require Import String ZArith Bool Arith List Lia Reals Lra.
From Verif Require Import Prelude PreludeFacts Num GridModel GridSpec GeoModel GeoSpec PropModel PropSpec
  UnitsModel BlackOilModel FdmModel MonadFacts HistSpec InvFacts AsmFacts ModelSpec ModelFacts Samples SampleFacts SampleWell SampleBal SolverSpec SolveSpec StepSpec StepFacts WellStepFacts
  BalanceSpec FdmSpec SetupFacts LocalSpec SampleLocal ClosedSpec TotalSpec CompareSpec SampleCompare BalanceThm AssemblyThm.
Import ListNotations.
Close Scope R_scope.
Open Scope nat_scope.

(** A well at the rate [q] in the last cell. *)
Definition far (q : R) : call R := Set_well (Some 3%Z) (Some q) None (Some (1 / 2)%R) None.
Lemma ok_app (l l' : list (call R)) : forall X, all_ok X l -> all_ok (after X l) l' -> all_ok X (l ++ l').
Proof. induction l as [|c l IH]; intros X H1 H2; cbn [app all_ok after fold_left] in *; auto. destruct H1 as (H & H1). split; auto. Qed.
Lemma wells_sim c cmp p bd l mb m1 steps m s : NoDup (map fst bd) -> (forall id, In id (map fst bd) -> id = 0%Z \/ id = 4%Z) -> Forall sets_well l ->
  exec (Set_boundaries bd) (line3 c cmp (Some p), None) = ((mb, None), Ok tt) -> all_ok (mb, None) l -> after (mb, None) l = (m1, None) -> (forall id w, dget id (b_wells m1) = Some w -> w_con w = Some (Some "q"%string)) ->
  all_ok (m1, Some (fdm_new m1)) steps /\ along balanced_step (m1, Some (fdm_new m1)) steps /\ after (m1, Some (fdm_new m1)) steps = (m, Some s) ->
  simulates (line3 c cmp (Some p)) [] (Some bd) l steps m s /\ prepared (line3 c cmp (Some p)) [] (Some bd) l = m1.
Proof.
  intros D Fc Fw E Ak Eq W (A & L & Ea). unfold simulates, prepared, plain, setup. cbn [app].
  assert (Es : after (line3 c cmp (Some p), None) (Set_boundaries bd :: l) = (m1, None)) by (cbn [after fold_left]; rewrite E; exact Eq).
  rewrite Es. split; [|reflexivity]. split; [|split; [|split]].
  - split; [split; [exact D|]|].
    + rewrite Forall_forall. intros e I. apply side_faces, Fc, in_map, I.
    + split; [constructor|]. split; [exact Fw|]. split; [left; apply line3_level|]. unfold controlled. cbn [fst]. intros id w' (Q & Q'). rewrite (W id w' Q) in Q'. discriminate.
  - assert (H1 : all_ok (line3 c cmp (Some p), None) (Set_boundaries bd :: l)) by (cbn [all_ok]; rewrite E; split; [reflexivity|exact Ak]).
    assert (H2 : all_ok (after (line3 c cmp (Some p), None) (Set_boundaries bd :: l)) (Compile :: steps)) by (rewrite Es; split; [reflexivity|exact A]).
    exact (ok_app _ _ _ H1 H2).
  - change (Set_boundaries bd :: l ++ [Compile]) with ((Set_boundaries bd :: l) ++ [Compile]). rewrite after_app, Es. exact L.
  - change (Set_boundaries bd :: l ++ Compile :: steps) with ((Set_boundaries bd :: l) ++ Compile :: steps). rewrite after_app, Es. exact Ea.
Qed.
(** The well in the last cell alone. *)
Lemma far_run p q a b c : (0 < c)%R -> (0 < c + 8 * q)%R -> (4 * a - b = 12 + p)%R -> (3 * b - a - c = p)%R -> (2 * c - b = p + q)%R ->
  exists m1 m s w, simulates (line3 (1 + 0) true (Some p)) [] (Some (sides 0)) [far q] [reply a b c] m s /\
    prepared (line3 (1 + 0) true (Some p)) [] (Some (sides 0)) [far q] = m1 /\ b_wells m1 = [(3%Z, w)] /\ at_rate w q /\ b_bdict m1 = sides 0 /\
    nth_error (s_p s) 1 = Some [Some 6; Some a; Some b; Some c; None]%R.
Proof.
  intros B0 B1 H1 H2 H3. pose proof well_G_low as HL.
  assert (HX : (0 < 2 * PI * (864 / 10000) * 1 * 1 / ln (14 / 100 * sqrt (1 * 1 + 1 * 1) / (1 / 2) * 12))%R).
  { pose proof (well_G_pos (864 / 10000) (1 / 2)) as HX. revert HX. rrun. intros HX. apply HX; lra. }
  assert (E : exists mb m1, exec (Set_boundaries (sides 0)) (line3 (1 + 0) true (Some p), None) = ((mb, None), Ok tt) /\ exec (far q) (mb, None) = ((m1, None), Ok tt) /\ exists m s w, b_wells m1 = [(3%Z, w)] /\ at_rate w q /\ b_bdict m1 = sides 0 /\
    (all_ok (m1, Some (fdm_new m1)) [reply a b c] /\ along balanced_step (m1, Some (fdm_new m1)) [reply a b c] /\ after (m1, Some (fdm_new m1)) [reply a b c] = (m, Some s)) /\
    nth_error (s_p s) 1 = Some [Some 6; Some a; Some b; Some c; None]%R).
  { do 2 eexists. split; [cbn [exec]; unfold sides; mrun|]. split; [unfold far; estep|].
    pose proof (Rinv_0_lt_compat _ HX) as HX'. revert HX HX' HL. generalize (2 * PI * (864 / 10000) * 1 * 1 / ln (14 / 100 * sqrt (1 * 1 + 1 * 1) / (1 / 2) * 12))%R. intros G HG HG' HL.
    assert (HB : (0 < c + q * 1 * 1 / G)%R) by (apply well_limit; lra). do 3 eexists.
    split; [reflexivity|]. split; [split; reflexivity|]. split; [reflexivity|]. split; [|shelve].
    unfold reply. eapply bal_step; [estep|apply trial_exact|reflexivity|reflexivity|reflexivity|reflexivity| |].
    - intros id w1 w2. cbn. destruct (Z.eqb id 3); [|discriminate]. intros [= <-] [= <-]. reflexivity.
    - split; [exact I|]. split; [exact I|]. reflexivity.
    Unshelve. reflexivity. }
  destruct E as (mb & m1 & E1 & E2 & m & s & w & W & Aw & Bd & E3 & N). exists m1, m, s, w.
  destruct (wells_sim (1 + 0) true p (sides 0) [far q] mb m1 [reply a b c] m s) as (Q1 & Q2); [unfold sides, tap; cbn; repeat constructor; cbn; intuition discriminate|cbn; intuition|repeat constructor|auto|cbn [all_ok]; now rewrite E2|cbn [after fold_left]; now rewrite E2| |auto|auto 8].
  intros id w'. rewrite W. cbn. destruct (Z.eqb id 3); [|discriminate]. intros [= <-]. apply Aw.
Qed.
(** Both wells. *)
Lemma both_run p q q' a b c : (0 < b)%R -> (0 < b + 8 * q)%R -> (0 < c)%R -> (0 < c + 8 * q')%R -> (4 * a - b = 12 + p)%R -> (3 * b - a - c = p + q)%R -> (2 * c - b = p + q')%R ->
  exists m1 m s, simulates (line3 (1 + 0) true (Some p)) [] (Some (sides 0)) [pump q; far q'] [reply a b c] m s /\
    prepared (line3 (1 + 0) true (Some p)) [] (Some (sides 0)) [pump q; far q'] = m1 /\ 
    nth_error (s_p s) 1 = Some [Some 6; Some a; Some b; Some c; None]%R.
Proof.
  intros B0 B1 B2 B3 H1 H2 H3. pose proof well_G_low as HL.
  assert (HX : (0 < 2 * PI * (864 / 10000) * 1 * 1 / ln (14 / 100 * sqrt (1 * 1 + 1 * 1) / (1 / 2) * 12))%R).
  { pose proof (well_G_pos (864 / 10000) (1 / 2)) as HX. revert HX. rrun. intros HX. apply HX; lra. }
  assert (E : exists mb mc m1, exec (Set_boundaries (sides 0)) (line3 (1 + 0) true (Some p), None) = ((mb, None), Ok tt) /\ exec (pump q) (mb, None) = ((mc, None), Ok tt) /\ exec (far q') (mc, None) = ((m1, None), Ok tt) /\ exists m s,
    (forall id w, dget id (b_wells m1) = Some w -> w_con w = Some (Some "q"%string)) /\
    (all_ok (m1, Some (fdm_new m1)) [reply a b c] /\ along balanced_step (m1, Some (fdm_new m1)) [reply a b c] /\ after (m1, Some (fdm_new m1)) [reply a b c] = (m, Some s)) /\
    nth_error (s_p s) 1 = Some [Some 6; Some a; Some b; Some c; None]%R).
  { do 3 eexists. split; [cbn [exec]; unfold sides; mrun|]. split; [unfold pump; estep|]. split; [unfold far; estep|].
    pose proof (Rinv_0_lt_compat _ HX) as HX'. revert HX HX' HL. generalize (2 * PI * (864 / 10000) * 1 * 1 / ln (14 / 100 * sqrt (1 * 1 + 1 * 1) / (1 / 2) * 12))%R. intros G HG HG' HL.
    assert (HB : (0 < b + q * 1 * 1 / G)%R) by (apply well_limit; lra). assert (HB' : (0 < c + q' * 1 * 1 / G)%R) by (apply well_limit; lra). do 2 eexists.
    split; [intros id w; cbn; destruct (Z.eqb id 2); [intros [= <-]; reflexivity|]; destruct (Z.eqb id 3); [intros [= <-]; reflexivity|discriminate]|]. split; [|shelve].
    unfold reply. eapply bal_step; [estep|apply trial_exact|reflexivity|reflexivity|reflexivity|reflexivity| |].
    - intros id w1 w2. cbn. destruct (Z.eqb id 2); [intros [= <-] [= <-]; reflexivity|]. destruct (Z.eqb id 3); [intros [= <-] [= <-]; reflexivity|discriminate].
    - split; [exact I|]. split; [exact I|]. reflexivity.
    Unshelve. reflexivity. }
  destruct E as (mb & mc & m1 & E1 & E2 & E3 & m & s & W & E4 & N). exists m1, m, s.
  destruct (wells_sim (1 + 0) true p (sides 0) [pump q; far q'] mb m1 [reply a b c] m s) as (Q1 & Q2); [unfold sides, tap; cbn; repeat constructor; cbn; intuition discriminate|cbn; intuition|repeat constructor|auto| | |auto|auto|auto].
  - cbn [all_ok]. rewrite E2. cbn [fst snd]. rewrite E3. auto.
  - cbn [after fold_left]. rewrite E2. cbn [fst snd]. now rewrite E3.
Qed.
(** Incompressible: the rate [r] on the right. *)
Lemma steady_any p r a b c : (3 * a - b = 12)%R -> (2 * b - a - c = 0)%R -> (c - b = r)%R -> exists m1 m s, simulates (line3 0 false (Some p)) [] (Some (sides r)) [] [reply a b c] m s /\
    prepared (line3 0 false (Some p)) [] (Some (sides r)) [] = m1 /\ b_wells m1 = [] /\ b_bdict m1 = sides r /\
    nth_error (s_p s) 1 = Some [Some 6; Some a; Some b; Some c; None]%R.
Proof.
  intros H1 H2 H3.
  assert (E : exists m1 m s, exec (Set_boundaries (sides r)) (line3 0 false (Some p), None) = ((m1, None), Ok tt) /\ b_wells m1 = [] /\ b_bdict m1 = sides r /\
    (all_ok (m1, Some (fdm_new m1)) [reply a b c] /\ along balanced_step (m1, Some (fdm_new m1)) [reply a b c] /\ after (m1, Some (fdm_new m1)) [reply a b c] = (m, Some s)) /\
    nth_error (s_p s) 1 = Some [Some 6; Some a; Some b; Some c; None]%R).
  { do 3 eexists. split; [cbn [exec]; unfold sides; mrun|]. split; [reflexivity|]. split; [reflexivity|]. split; [|shelve].
    unfold reply. eapply bal_step; [estep|apply trial_exact|reflexivity|reflexivity|reflexivity|reflexivity| |].
    - intros id w1 w2. cbn. discriminate.
    - split; [exact I|]. split; [exact I|]. reflexivity.
    Unshelve. reflexivity. }
  destruct E as (m1 & m & s & E1 & W & Bd & E3 & N). exists m1, m, s.
  destruct (bare_sim 0 false p (sides r) m1 [reply a b c] m s) as (Q1 & Q2); [unfold sides, tap; cbn; repeat constructor; cbn; intuition discriminate|cbn; intuition|auto..|]. auto 8.
Qed.
