(** Sample simulations of three cells in a line, turned round. *)
From Coq Require Import String ZArith Bool Arith List Lia Reals Lra.
From Verif Require Import Prelude PreludeFacts Num GridModel GridSpec GeoModel GeoSpec PropModel PropSpec
  UnitsModel BlackOilModel FdmModel MonadFacts HistSpec AsmFacts ModelSpec Samples SampleFacts AssemblyThm SampleWell SolverSpec SolveSpec BalanceSpec SampleBal CompareSpec SampleCompare LocalSpec TurnSpec.
Import ListNotations.
Close Scope R_scope.
Open Scope nat_scope.

(** The conditions [sides 0] with the sides exchanged, and one pressure on both sides. *)
Definition swapped : list (Z * (string * R)) := [(4%Z, ("pressure"%string, 6%R)); (0%Z, ("rate"%string, 0%R))].
Definition both : list (Z * (string * R)) := [(0%Z, ("pressure"%string, 6%R)); (4%Z, ("pressure"%string, 6%R))].
Lemma swapped_run p q a b c : (0 < b)%R -> (0 < b + 8 * q)%R -> (4 * c - b = 12 + p)%R -> (3 * b - a - c = p + q)%R -> (2 * a - b = p)%R ->
  exists m1 m s w, simulates (line3 (1 + 0) true (Some p)) [] (Some swapped) [pump q] [reply a b c] m s /\
    prepared (line3 (1 + 0) true (Some p)) [] (Some swapped) [pump q] = m1 /\ b_wells m1 = [(2%Z, w)] /\ at_rate w q /\ b_bdict m1 = swapped /\
    nth_error (s_p s) 1 = Some [None; Some a; Some b; Some c; Some 6]%R.
Proof.
  intros B0 B1 H1 H2 H3. pose proof well_G_low as HL.
  assert (HX : (0 < 2 * PI * (864 / 10000) * 1 * 1 / ln (14 / 100 * sqrt (1 * 1 + 1 * 1) / (1 / 2) * 12))%R).
  { pose proof (well_G_pos (864 / 10000) (1 / 2)) as HX. revert HX. rrun. intros HX. apply HX; lra. }
  assert (E : exists mb m1, exec (Set_boundaries swapped) (line3 (1 + 0) true (Some p), None) = ((mb, None), Ok tt) /\ exec (pump q) (mb, None) = ((m1, None), Ok tt) /\ exists m s w, b_wells m1 = [(2%Z, w)] /\ at_rate w q /\ b_bdict m1 = swapped /\
    (all_ok (m1, Some (fdm_new m1)) [reply a b c] /\ along balanced_step (m1, Some (fdm_new m1)) [reply a b c] /\ after (m1, Some (fdm_new m1)) [reply a b c] = (m, Some s)) /\
    nth_error (s_p s) 1 = Some [None; Some a; Some b; Some c; Some 6]%R).
  { do 2 eexists. split; [cbn [exec]; unfold swapped; mrun|]. split; [unfold pump; estep|].
    pose proof (Rinv_0_lt_compat _ HX) as HX'. revert HX HX' HL. generalize (2 * PI * (864 / 10000) * 1 * 1 / ln (14 / 100 * sqrt (1 * 1 + 1 * 1) / (1 / 2) * 12))%R. intros G HG HG' HL.
    assert (HB : (0 < b + q * 1 * 1 / G)%R) by (apply well_limit; lra). do 3 eexists.
    split; [reflexivity|]. split; [split; reflexivity|]. split; [reflexivity|]. split; [|shelve].
    unfold reply. eapply bal_step; [estep|apply trial_exact|reflexivity|reflexivity|reflexivity|reflexivity| |].
    - intros id w1 w2. cbn. destruct (Z.eqb id 2); [|discriminate]. intros [= <-] [= <-]. reflexivity.
    - split; [exact I|]. split; [exact I|]. reflexivity.
    Unshelve. reflexivity. }
  destruct E as (mb & m1 & E1 & E2 & m & s & w & W & Aw & Bd & E3 & N). exists m1, m, s, w.
  destruct (pump_sim (1 + 0) true p swapped q mb m1 w [reply a b c] m s) as (Q1 & Q2); [unfold swapped; cbn; repeat constructor; cbn; intuition discriminate|cbn; intuition|auto..|]. auto 8.
Qed.
Lemma both_run p q a b c : (0 < b)%R -> (0 < b + 8 * q)%R -> (4 * a - b = 12 + p)%R -> (3 * b - a - c = p + q)%R -> (4 * c - b = 12 + p)%R ->
  exists m1 m s w, simulates (line3 (1 + 0) true (Some p)) [] (Some both) [pump q] [reply a b c] m s /\
    prepared (line3 (1 + 0) true (Some p)) [] (Some both) [pump q] = m1 /\ b_wells m1 = [(2%Z, w)] /\ at_rate w q /\ b_bdict m1 = both /\
    nth_error (s_p s) 1 = Some [Some 6; Some a; Some b; Some c; Some 6]%R.
Proof.
  intros B0 B1 H1 H2 H3. pose proof well_G_low as HL.
  assert (HX : (0 < 2 * PI * (864 / 10000) * 1 * 1 / ln (14 / 100 * sqrt (1 * 1 + 1 * 1) / (1 / 2) * 12))%R).
  { pose proof (well_G_pos (864 / 10000) (1 / 2)) as HX. revert HX. rrun. intros HX. apply HX; lra. }
  assert (E : exists mb m1, exec (Set_boundaries both) (line3 (1 + 0) true (Some p), None) = ((mb, None), Ok tt) /\ exec (pump q) (mb, None) = ((m1, None), Ok tt) /\ exists m s w, b_wells m1 = [(2%Z, w)] /\ at_rate w q /\ b_bdict m1 = both /\
    (all_ok (m1, Some (fdm_new m1)) [reply a b c] /\ along balanced_step (m1, Some (fdm_new m1)) [reply a b c] /\ after (m1, Some (fdm_new m1)) [reply a b c] = (m, Some s)) /\
    nth_error (s_p s) 1 = Some [Some 6; Some a; Some b; Some c; Some 6]%R).
  { do 2 eexists. split; [cbn [exec]; unfold both; mrun|]. split; [unfold pump; estep|].
    pose proof (Rinv_0_lt_compat _ HX) as HX'. revert HX HX' HL. generalize (2 * PI * (864 / 10000) * 1 * 1 / ln (14 / 100 * sqrt (1 * 1 + 1 * 1) / (1 / 2) * 12))%R. intros G HG HG' HL.
    assert (HB : (0 < b + q * 1 * 1 / G)%R) by (apply well_limit; lra). do 3 eexists.
    split; [reflexivity|]. split; [split; reflexivity|]. split; [reflexivity|]. split; [|shelve].
    unfold reply. eapply bal_step; [estep|apply trial_exact|reflexivity|reflexivity|reflexivity|reflexivity| |].
    - intros id w1 w2. cbn. destruct (Z.eqb id 2); [|discriminate]. intros [= <-] [= <-]. reflexivity.
    - split; [exact I|]. split; [exact I|]. reflexivity.
    Unshelve. reflexivity. }
  destruct E as (mb & m1 & E1 & E2 & m & s & w & W & Aw & Bd & E3 & N). exists m1, m, s, w.
  destruct (pump_sim (1 + 0) true p both q mb m1 w [reply a b c] m s) as (Q1 & Q2); [unfold both; cbn; repeat constructor; cbn; intuition discriminate|cbn; intuition|auto..|]. auto 8.
Qed.

(** ** The line turned round is the line *)
Definition along_x : bool * bool * bool := (true, false, false).
Lemma line_cells c : in_grid (gr (geom (gline3 : gobj R))) c -> In c [(0, 0, 0); (1, 0, 0); (2, 0, 0); (3, 0, 0); (4, 0, 0)]%Z.
Proof.
  destruct c as [[i j] k]. intros H. pose proof (H AX ltac:(discriminate)) as H1. pose proof (H AY ltac:(discriminate)) as H2. pose proof (H AZ ltac:(discriminate)) as H3.
  cbn in H1, H2, H3. clear H.
  assert (j = 0)%Z by lia. assert (k = 0)%Z by lia. subst. assert (i = 0 \/ i = 1 \/ i = 2 \/ i = 3 \/ i = 4)%Z as H by lia.
  cbn [In]. destruct H as [H|[H|[H|[H|H]]]]; subst; auto 8.
Qed.
Lemma line_turned : turned along_x (gline3 : gobj R) gline3.
Proof.
  constructor; auto.
  - intros a c _ H. apply line_cells in H. cbn [In] in H. destruct H as [<-|[<-|[<-|[<-|[<-|[]]]]]]; destruct a; reflexivity.
  - intros n c H. apply line_cells in H. cbn [In] in H. destruct H as [<-|[<-|[<-|[<-|[<-|[]]]]]]; destruct n; reflexivity.
  - intros n c H. apply line_cells in H. cbn [In] in H. destruct H as [<-|[<-|[<-|[<-|[<-|[]]]]]]; destruct n; reflexivity.
Qed.
(** Different rock, turned round. *)
Definition strip (k phi : list R) : res (gobj R) :=
  gobj_new 3 1 1 true (Scalar 1%R) (Scalar 1%R) (Scalar 1%R) (Some (Vec k)) (Some (Scalar 1%R)) (Some (Scalar 1%R)) (Some (Vec phi)) None None 1%R.
