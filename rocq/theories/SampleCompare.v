(** Sample simulations to compare: three cells in a line. *)
From Coq Require Import String ZArith Bool Arith List Lia Reals Lra.
From Verif Require Import Prelude PreludeFacts Num GridModel GridSpec GeoModel GeoSpec PropModel PropSpec
  UnitsModel BlackOilModel FdmModel MonadFacts HistSpec AsmFacts ModelSpec Samples SampleFacts AssemblyThm SampleWell SolverSpec SolveSpec BalanceSpec SampleBal CompareSpec.
Import ListNotations.
Close Scope R_scope.
Open Scope nat_scope.

(** One grid and fluid, any initial pressure. *)
Lemma line3_made : exists g f unit dt, forall p, bo_new g f unit (Some p) dt = Ok (line3 (1 + 0) true (Some p)).
Proof.
  assert (H : exists g f, forall pi : option R, build 3 1 1 None 1%R pi None = bo_new g f "metric" pi n1).
  { unfold build. destruct (gobj_new _ _ _ _ _ _ _ _ _ _ _ _ _ _) as [g|] eqn:Eg; [|exfalso; pose proof (line3_pos 1 (Some 1%R) ltac:(lra)) as Q; unfold build in Q; rewrite Eg in Q; discriminate].
    destruct (fluid_new _ _ _ _ _) as [f|] eqn:Ef; [|exfalso; pose proof (line3_pos 1 (Some 1%R) ltac:(lra)) as Q; unfold build in Q; rewrite Eg in Q; cbn [rbind] in Q; rewrite Ef in Q; discriminate].
    exists g, f. reflexivity. }
  destruct H as (g & f & H). exists g, f, "metric"%string, n1. intros p. rewrite <- H. apply line3_pos. lra.
Qed.
Lemma line3_made0 : exists g f unit dt, forall p, bo_new g f unit (Some p) dt = Ok (line3 0 false (Some p)).
Proof.
  assert (H : exists g f, forall pi : option R, build 3 1 1 None 0%R pi None = bo_new g f "metric" pi n1).
  { unfold build. destruct (gobj_new _ _ _ _ _ _ _ _ _ _ _ _ _ _) as [g|] eqn:Eg; [|exfalso; pose proof (line3_zero (Some 1%R)) as Q; unfold build in Q; rewrite Eg in Q; discriminate].
    destruct (fluid_new _ _ _ _ _) as [f|] eqn:Ef; [|exfalso; pose proof (line3_zero (Some 1%R)) as Q; unfold build in Q; rewrite Eg in Q; cbn [rbind] in Q; rewrite Ef in Q; discriminate].
    exists g, f. reflexivity. }
  destruct H as (g & f & H). exists g, f, "metric"%string, n1. intros p. rewrite <- H. apply line3_zero.
Qed.
Definition reply (a b c : R) : call R := Solve (trial [[a; b; c]]%R) SampleWell.one 9 true omb.
Definition pump (q : R) : call R := Set_well (Some 2%Z) (Some q) None (Some (1 / 2)%R) None.
Definition tap (r : R) : list (Z * (string * R)) := [(4%Z, ("rate"%string, r))].
Definition simulates (m0 : bo R) l1 ob l2 steps m s : Prop :=
  plain m0 l1 ob l2 /\ all_ok (m0, None) (setup l1 ob l2 ++ Compile :: steps) /\
  along balanced_step (after (m0, None) (setup l1 ob l2 ++ [Compile])) steps /\ after (m0, None) (setup l1 ob l2 ++ Compile :: steps) = (m, Some s).
Lemma bare_sim c cmp p bd m1 steps m s : NoDup (map fst bd) -> (forall id, In id (map fst bd) -> id = 0%Z \/ id = 4%Z) ->
  exec (Set_boundaries bd) (line3 c cmp (Some p), None) = ((m1, None), Ok tt) -> b_wells m1 = [] ->
  all_ok (m1, Some (fdm_new m1)) steps /\ along balanced_step (m1, Some (fdm_new m1)) steps /\ after (m1, Some (fdm_new m1)) steps = (m, Some s) ->
  simulates (line3 c cmp (Some p)) [] (Some bd) [] steps m s /\ prepared (line3 c cmp (Some p)) [] (Some bd) [] = m1.
Proof.
  intros D Fc E W (A & L & Ea). unfold simulates, prepared, plain, setup. cbn [app all_ok after fold_left]. rewrite E. unfold controlled. cbn [fst snd]. rewrite W. split; [|reflexivity].
  split; [|auto]. split; [split; [exact D|]|].
  - rewrite Forall_forall. intros e I. apply side_faces, Fc, in_map, I.
  - do 2 (split; [constructor|]). split; [left; apply line3_level|]. intros id w (Q & _). discriminate.
Qed.
Lemma pump_sim c cmp p bd q mb m1 w steps m s : NoDup (map fst bd) -> (forall id, In id (map fst bd) -> id = 0%Z \/ id = 4%Z) ->
  exec (Set_boundaries bd) (line3 c cmp (Some p), None) = ((mb, None), Ok tt) -> exec (pump q) (mb, None) = ((m1, None), Ok tt) -> b_wells m1 = [(2%Z, w)] -> at_rate w q ->
  all_ok (m1, Some (fdm_new m1)) steps /\ along balanced_step (m1, Some (fdm_new m1)) steps /\ after (m1, Some (fdm_new m1)) steps = (m, Some s) ->
  simulates (line3 c cmp (Some p)) [] (Some bd) [pump q] steps m s /\ prepared (line3 c cmp (Some p)) [] (Some bd) [pump q] = m1.
Proof.
  intros D Fc E Eq W Aw (A & L & Ea). unfold simulates, prepared, plain, setup. cbn [app all_ok after fold_left]. rewrite E. cbn [fst snd]. rewrite Eq. unfold controlled. cbn [fst snd]. rewrite W. split; [|reflexivity].
  split; [|auto]. split; [split; [exact D|]|].
  - rewrite Forall_forall. intros e I. apply side_faces, Fc, in_map, I.
  - split; [constructor|]. split; [repeat constructor|]. split; [left; apply line3_level|]. intros id w' (Q & Q'). cbn in Q. destruct (Z.eqb id 2); [|discriminate]. injection Q as <-. destruct Aw as (Aw & _). congruence.
Qed.
(** The productivity of the well is more than 1/8. *)
Lemma well_G_low : (1 / 8 < 2 * PI * (864 / 10000) * 1 * 1 / ln (14 / 100 * sqrt (1 * 1 + 1 * 1) / (1 / 2) * 12))%R.
Proof.
  assert (S1 : (1 <= sqrt (1 * 1 + 1 * 1))%R) by (rewrite <- sqrt_1 at 1; apply sqrt_le_1_alt; lra).
  assert (S2 : (sqrt (1 * 1 + 1 * 1) <= 1415 / 1000)%R) by (rewrite <- (sqrt_Rsqr (1415 / 1000)) by lra; apply sqrt_le_1_alt; unfold Rsqr; lra).
  set (X := (14 / 100 * sqrt (1 * 1 + 1 * 1) / (1 / 2) * 12)%R). assert (X1 : (3 <= X <= 4755 / 1000)%R) by (unfold X; lra).
  assert (L0 : (0 < ln X)%R) by (rewrite <- ln_1; apply ln_increasing; lra).
  assert (L1 : (ln X < 3755 / 1000 + 1 / 1000)%R).
  { destruct (Rlt_or_le (ln X) (3755 / 1000 + 1 / 1000)) as [|H]; auto. exfalso. pose proof (exp_ineq1 (ln X) ltac:(lra)) as E. rewrite exp_ln in E by lra. lra. }
  pose proof PI2_3_2 as P. apply (Rmult_lt_reg_r (ln X)); auto. unfold Rdiv at 2. rewrite Rmult_assoc, Rinv_l, Rmult_1_r by lra. lra.
Qed.
Lemma well_limit G b q : (1 / 8 < G)%R -> (0 < b)%R -> (0 < b + 8 * q)%R -> (0 < b + q * 1 * 1 / G)%R.
Proof.
  intros HG H1 H2. assert (H : (0 < / G < 8)%R).
  { split; [apply Rinv_0_lt_compat; lra|]. replace 8%R with (/ (1 / 8))%R by field. apply Rinv_lt_contravar; [apply Rmult_lt_0_compat; lra|lra]. }
  unfold Rdiv. rewrite !Rmult_1_r. destruct (Rle_or_lt 0 q) as [Hq|Hq]; [pose proof (Rmult_le_pos q (/ G) Hq ltac:(lra)); lra|]. assert (0 <= (- q) * (8 - / G))%R by (apply Rmult_le_pos; lra). lra.
Qed.
(** Conditions on both sides, a well in the middle. *)
Lemma pump_run p q a b c : (0 < b)%R -> (0 < b + 8 * q)%R -> (4 * a - b = 12 + p)%R -> (3 * b - a - c = p + q)%R -> (2 * c - b = p)%R ->
  exists m1 m s w, simulates (line3 (1 + 0) true (Some p)) [] (Some (sides 0)) [pump q] [reply a b c] m s /\
    prepared (line3 (1 + 0) true (Some p)) [] (Some (sides 0)) [pump q] = m1 /\ b_wells m1 = [(2%Z, w)] /\ at_rate w q /\ b_bdict m1 = sides 0 /\
    nth_error (s_p s) 1 = Some [Some 6; Some a; Some b; Some c; None]%R.
Proof.
  intros B0 B1 H1 H2 H3. pose proof well_G_low as HL.
  assert (HX : (0 < 2 * PI * (864 / 10000) * 1 * 1 / ln (14 / 100 * sqrt (1 * 1 + 1 * 1) / (1 / 2) * 12))%R).
  { pose proof (well_G_pos (864 / 10000) (1 / 2)) as HX. revert HX. rrun. intros HX. apply HX; lra. }
  assert (E : exists mb m1, exec (Set_boundaries (sides 0)) (line3 (1 + 0) true (Some p), None) = ((mb, None), Ok tt) /\ exec (pump q) (mb, None) = ((m1, None), Ok tt) /\ exists m s w, b_wells m1 = [(2%Z, w)] /\ at_rate w q /\ b_bdict m1 = sides 0 /\
    (all_ok (m1, Some (fdm_new m1)) [reply a b c] /\ along balanced_step (m1, Some (fdm_new m1)) [reply a b c] /\ after (m1, Some (fdm_new m1)) [reply a b c] = (m, Some s)) /\
    nth_error (s_p s) 1 = Some [Some 6; Some a; Some b; Some c; None]%R).
  { do 2 eexists. split; [cbn [exec]; unfold sides; mrun|]. split; [unfold pump; estep|].
    pose proof (Rinv_0_lt_compat _ HX) as HX'. revert HX HX' HL. generalize (2 * PI * (864 / 10000) * 1 * 1 / ln (14 / 100 * sqrt (1 * 1 + 1 * 1) / (1 / 2) * 12))%R. intros G HG HG' HL.
    assert (HB : (0 < b + q * 1 * 1 / G)%R) by (apply well_limit; lra). do 3 eexists.
    split; [reflexivity|]. split; [split; reflexivity|]. split; [reflexivity|]. split; [|shelve].
    unfold reply. eapply bal_step; [estep|apply trial_exact|reflexivity|reflexivity|reflexivity|reflexivity| |].
    - intros id w1 w2. cbn. destruct (Z.eqb id 2); [|discriminate]. intros [= <-] [= <-]. reflexivity.
    - split; [exact I|]. split; [exact I|]. reflexivity.
    Unshelve. reflexivity. }
  destruct E as (mb & m1 & E1 & E2 & m & s & w & W & Aw & Bd & E3 & N). exists m1, m, s, w.
  destruct (pump_sim (1 + 0) true p (sides 0) q mb m1 w [reply a b c] m s) as (Q1 & Q2); [unfold sides, tap; cbn; repeat constructor; cbn; intuition discriminate|cbn; intuition|auto..|]. auto 8.
Qed.
(** The same without the well. *)
Lemma bare_run p a b c : (4 * a - b = 12 + p)%R -> (3 * b - a - c = p)%R -> (2 * c - b = p)%R ->
  exists m1 m s, simulates (line3 (1 + 0) true (Some p)) [] (Some (sides 0)) [] [reply a b c] m s /\
    prepared (line3 (1 + 0) true (Some p)) [] (Some (sides 0)) [] = m1 /\ b_wells m1 = [] /\ b_bdict m1 = sides 0 /\
    nth_error (s_p s) 1 = Some [Some 6; Some a; Some b; Some c; None]%R.
Proof.
  intros H1 H2 H3.
  assert (E : exists m1 m s, exec (Set_boundaries (sides 0)) (line3 (1 + 0) true (Some p), None) = ((m1, None), Ok tt) /\ b_wells m1 = [] /\ b_bdict m1 = sides 0 /\
    (all_ok (m1, Some (fdm_new m1)) [reply a b c] /\ along balanced_step (m1, Some (fdm_new m1)) [reply a b c] /\ after (m1, Some (fdm_new m1)) [reply a b c] = (m, Some s)) /\
    nth_error (s_p s) 1 = Some [Some 6; Some a; Some b; Some c; None]%R).
  { do 3 eexists. split; [cbn [exec]; unfold sides; mrun|]. split; [reflexivity|]. split; [reflexivity|]. split; [|shelve].
    unfold reply. eapply bal_step; [estep|apply trial_exact|reflexivity|reflexivity|reflexivity|reflexivity| |].
    - intros id w1 w2. cbn. discriminate.
    - split; [exact I|]. split; [exact I|]. reflexivity.
    Unshelve. reflexivity. }
  destruct E as (m1 & m & s & E1 & W & Bd & E3 & N). exists m1, m, s.
  destruct (bare_sim (1 + 0) true p (sides 0) m1 [reply a b c] m s) as (Q1 & Q2); [unfold sides, tap; cbn; repeat constructor; cbn; intuition discriminate|cbn; intuition|auto..|]. auto 8.
Qed.
(** A rate on the right only. *)
Lemma tap_run p r a b c : (2 * a - b = p)%R -> (3 * b - a - c = p)%R -> (2 * c - b = p + r)%R ->
  exists m1 m s, simulates (line3 (1 + 0) true (Some p)) [] (Some (tap r)) [] [reply a b c] m s /\
    prepared (line3 (1 + 0) true (Some p)) [] (Some (tap r)) [] = m1 /\ b_wells m1 = [] /\ b_bdict m1 = tap r /\
    nth_error (s_p s) 1 = Some [None; Some a; Some b; Some c; None]%R.
Proof.
  intros H1 H2 H3.
  assert (E : exists m1 m s, exec (Set_boundaries (tap r)) (line3 (1 + 0) true (Some p), None) = ((m1, None), Ok tt) /\ b_wells m1 = [] /\ b_bdict m1 = tap r /\
    (all_ok (m1, Some (fdm_new m1)) [reply a b c] /\ along balanced_step (m1, Some (fdm_new m1)) [reply a b c] /\ after (m1, Some (fdm_new m1)) [reply a b c] = (m, Some s)) /\
    nth_error (s_p s) 1 = Some [None; Some a; Some b; Some c; None]%R).
  { do 3 eexists. split; [cbn [exec]; unfold tap; mrun|]. split; [reflexivity|]. split; [reflexivity|]. split; [|shelve].
    unfold reply. eapply bal_step; [estep|apply trial_exact|reflexivity|reflexivity|reflexivity|reflexivity| |].
    - intros id w1 w2. cbn. discriminate.
    - split; [exact I|]. split; [exact I|]. reflexivity.
    Unshelve. reflexivity. }
  destruct E as (m1 & m & s & E1 & W & Bd & E3 & N). exists m1, m, s.
  destruct (bare_sim (1 + 0) true p (tap r) m1 [reply a b c] m s) as (Q1 & Q2); [unfold sides, tap; cbn; repeat constructor; cbn; intuition discriminate|cbn; intuition|auto..|]. auto 8.
Qed.
(** Incompressible: the pressures 7, 9, 11 whatever the initial pressure. *)
Lemma steady_run p : exists m1 m s, simulates (line3 0 false (Some p)) [] (Some (sides 2)) [] [reply 7 9 11; reply 7 9 11] m s /\
    prepared (line3 0 false (Some p)) [] (Some (sides 2)) [] = m1 /\ b_wells m1 = [] /\ b_bdict m1 = sides 2 /\
    nth_error (s_p s) 1 = Some [Some 6; Some 7; Some 9; Some 11; None]%R /\ nth_error (s_p s) 2 = Some [Some 6; Some 7; Some 9; Some 11; None]%R.
Proof.
  assert (E : exists m1 m s, exec (Set_boundaries (sides 2)) (line3 0 false (Some p), None) = ((m1, None), Ok tt) /\ b_wells m1 = [] /\ b_bdict m1 = sides 2 /\
    (all_ok (m1, Some (fdm_new m1)) [reply 7 9 11; reply 7 9 11] /\ along balanced_step (m1, Some (fdm_new m1)) [reply 7 9 11; reply 7 9 11] /\ after (m1, Some (fdm_new m1)) [reply 7 9 11; reply 7 9 11] = (m, Some s)) /\
    nth_error (s_p s) 1 = Some [Some 6; Some 7; Some 9; Some 11; None]%R /\ nth_error (s_p s) 2 = Some [Some 6; Some 7; Some 9; Some 11; None]%R).
  { do 3 eexists. split; [cbn [exec]; unfold sides; mrun|]. split; [reflexivity|]. split; [reflexivity|]. split; [|shelve].
    unfold reply. eapply bal_step; [estep|apply trial_exact|reflexivity|reflexivity|reflexivity|reflexivity| |].
    - intros id w1 w2. cbn. discriminate.
    - eapply bal_step; [estep|apply trial_exact|reflexivity|reflexivity|reflexivity|reflexivity| |].
      + intros id w1 w2. cbn. discriminate.
      + split; [exact I|]. split; [exact I|]. reflexivity.
    Unshelve. split; reflexivity. }
  destruct E as (m1 & m & s & E1 & W & Bd & E3 & N). exists m1, m, s.
  destruct (bare_sim 0 false p (sides 2) m1 [reply 7 9 11; reply 7 9 11] m s) as (Q1 & Q2); [unfold sides, tap; cbn; repeat constructor; cbn; intuition discriminate|cbn; intuition|auto..|]. auto 8.
Qed.
(** Two steps of [bare_run] at initial pressure 10. *)
Lemma twice_run : exists m1 m s, simulates (line3 (1 + 0) true (Some 10%R)) [] (Some (sides 0)) [] [reply (70 / 9) (82 / 9) (86 / 9); reply (190 / 27) (226 / 27) (242 / 27)] m s /\
    prepared (line3 (1 + 0) true (Some 10%R)) [] (Some (sides 0)) [] = m1 /\ b_wells m1 = [] /\ b_bdict m1 = sides 0 /\
    nth_error (s_p s) 0 = Some [Some 6; Some 10; Some 10; Some 10; None]%R /\ nth_error (s_p s) 1 = Some [Some 6; Some (70 / 9); Some (82 / 9); Some (86 / 9); None]%R /\
    nth_error (s_p s) 2 = Some [Some 6; Some (190 / 27); Some (226 / 27); Some (242 / 27); None]%R.
Proof.
  assert (E : exists m1 m s, exec (Set_boundaries (sides 0)) (line3 (1 + 0) true (Some 10%R), None) = ((m1, None), Ok tt) /\ b_wells m1 = [] /\ b_bdict m1 = sides 0 /\
    (all_ok (m1, Some (fdm_new m1)) [reply (70 / 9) (82 / 9) (86 / 9); reply (190 / 27) (226 / 27) (242 / 27)] /\ along balanced_step (m1, Some (fdm_new m1)) [reply (70 / 9) (82 / 9) (86 / 9); reply (190 / 27) (226 / 27) (242 / 27)] /\
     after (m1, Some (fdm_new m1)) [reply (70 / 9) (82 / 9) (86 / 9); reply (190 / 27) (226 / 27) (242 / 27)] = (m, Some s)) /\
    nth_error (s_p s) 0 = Some [Some 6; Some 10; Some 10; Some 10; None]%R /\ nth_error (s_p s) 1 = Some [Some 6; Some (70 / 9); Some (82 / 9); Some (86 / 9); None]%R /\
    nth_error (s_p s) 2 = Some [Some 6; Some (190 / 27); Some (226 / 27); Some (242 / 27); None]%R).
  { do 3 eexists. split; [cbn [exec]; unfold sides; mrun|]. split; [reflexivity|]. split; [reflexivity|]. split; [|shelve].
    unfold reply. eapply bal_step; [estep|apply trial_exact|reflexivity|reflexivity|reflexivity|reflexivity| |].
    - intros id w1 w2. cbn. discriminate.
    - eapply bal_step; [estep|apply trial_exact|reflexivity|reflexivity|reflexivity|reflexivity| |].
      + intros id w1 w2. cbn. discriminate.
      + split; [exact I|]. split; [exact I|]. reflexivity.
    Unshelve. repeat split; reflexivity. }
  destruct E as (m1 & m & s & E1 & W & Bd & E3 & N). exists m1, m, s.
  destruct (bare_sim (1 + 0) true 10 (sides 0) m1 [reply (70 / 9) (82 / 9) (86 / 9); reply (190 / 27) (226 / 27) (242 / 27)] m s) as (Q1 & Q2); [unfold sides; cbn; repeat constructor; cbn; intuition discriminate|cbn; intuition|auto..|]. auto 8.
Qed.
