(** Sample histories for the material balance. *)
From Coq Require Import String ZArith Bool Arith List Lia Reals Lra.
From Verif Require Import Prelude PreludeFacts Num GridModel GridSpec GeoModel GeoSpec PropModel PropSpec
  UnitsModel BlackOilModel FdmModel MonadFacts HistSpec AsmFacts ModelSpec Samples SampleFacts AssemblyThm SampleWell SolverSpec SolveSpec BalanceSpec.
Import ListNotations.
Close Scope R_scope.
Open Scope nat_scope.

Lemma build_new x y z rho comp pi zz (m : bo R) : build x y z rho comp pi zz = Ok m -> exists g f unit p dt, bo_new g f unit p dt = Ok m.
Proof.
  unfold build. intros H. repeat match type of H with rbind ?t _ = _ => destruct t; cbn [rbind] in H; [|discriminate] end. eauto 8.
Qed.
Lemma bal_step slv sc fuel sparse o m s m' s' (w' : ws R) l : exec (Solve slv sc fuel sparse o) (m, Some s) = ((m', Some s'), Ok tt) ->
  exact slv -> o_upd o = true -> o_vect o = true -> o_print o = false -> length (s_As s') = S (length (s_As s)) ->
  (forall id w1 w2, dget id (b_wells m) = Some w1 -> dget id (b_wells m') = Some w2 -> w_con w2 = w_con w1) ->
  all_ok (m', Some s') l /\ along balanced_step (m', Some s') l /\ after (m', Some s') l = w' ->
  all_ok (m, Some s) (Solve slv sc fuel sparse o :: l) /\ along balanced_step (m, Some s) (Solve slv sc fuel sparse o :: l) /\ after (m, Some s) (Solve slv sc fuel sparse o :: l) = w'.
Proof.
  intros E Ex U V Pr L SM (H1 & H2 & H3). cbn [all_ok along after fold_left]. rewrite E. cbn [fst snd]. split; [auto|]. split; [|exact H3]. split; [|exact H2].
  cbn [balanced_step]. rewrite E. cbn [fst snd]. do 3 (split; [assumption|]). split; [now left|]. intros s1 s2 [= <-] [= <-]. auto.
Qed.
(** Three cells at pressure 10, injection into the middle one, pressure 6 on the
    left, a rate on the right; two steps. *)
Definition injector : call R := Set_well (Some 2%Z) (Some 1%R) None (Some (1 / 2)%R) None.
Definition omb := mkOpts false true true true false None.
Definition sides (r : R) : list (Z * (string * R)) := [(0%Z, ("pressure"%string, 6%R)); (4%Z, ("rate"%string, r))].
Definition line3i (m : bo R) (G req : R) (p : fl R) : bo R := set_wp [(2%Z, [p])] (set_wells [(2%Z, mkWell (Some (Some 1%R)) (Some 1%R) (Some (Some 0%R)) (Some 0%R) (Some (Some "q"%string))
  (Some (1 / 2)%R) None (Some req) (Some G))] m).
Lemma line3i_built c cmp : exists G req, (0 < G)%R /\ exec injector (line3 c cmp (Some 10%R), None) = ((line3i (line3 c cmp (Some 10%R)) G req (Some 10%R), None), Ok tt).
Proof.
  do 2 eexists. split; [|rrun; reflexivity]. pose proof (well_G_pos (864 / 10000) (1 / 2)) as H. revert H. rrun. intros H. apply H; lra.
Qed.
Definition steps_c : list (call R) := [Solve (trial [[71 / 9; 86 / 9; 88 / 9]]%R) SampleWell.one 9 true omb; Solve (trial [[391 / 54; 245 / 27; 509 / 54]]%R) SampleWell.one 9 true omb].
Definition steps_i : list (call R) := [Solve (trial [[15 / 2; 21 / 2; 25 / 2]]%R) SampleWell.one 9 true omb; Solve (trial [[15 / 2; 21 / 2; 25 / 2]]%R) SampleWell.one 9 true omb].
Lemma side_faces c cmp pi id : id = 0%Z \/ id = 4%Z -> face_id (line3 c cmp pi) id.
Proof.
  intros H. exists (id, 0%Z, 0%Z). unfold boundary_cell, in_grid, interior, on_one_face, outer, flows. cbn -[Z.add].
  split; [|split].
  - split.
    + intros a Na. destruct a; cbn; destruct H; subst; try lia; congruence.
    + intros J. specialize (J AX ltac:(discriminate)). cbn in J. destruct H; subst; lia.
  - exists AX. split; [cbn; split; [lia|destruct H; subst; [now left|now right]]|]. intros b (Hb & _). destruct b; cbn in Hb; auto; lia.
  - destruct H; subst; reflexivity.
Qed.
Lemma line3_level c cmp pi : level (line3 c cmp pi).
Proof. exists (repeat 0%R 5), 0%R. split; [reflexivity|]. cbn. intros id [<-|[<-|[<-|[]]]]; reflexivity. Qed.
Lemma along_app {F} {NF : Num F} {NT : NumT F} (P : ws F -> call F -> Prop) (l l' : list (call F)) : forall X, along P X (l ++ l') <-> along P X l /\ along P (after X l) l'.
Proof. induction l as [|c l IH]; intros X; cbn [app along after fold_left]; [tauto|]. rewrite IH. unfold after. tauto. Qed.
Section sample.
Context (c : R) (cmp : bool) (r : R) (steps : list (call R)) (m0 m1 m : bo R) (s : fs R) (G req : R).
Hypothesis (H0 : m0 = line3 c cmp (Some 10%R)).
Hypothesis (E1 : exec injector (m0, None) = ((line3i m0 G req (Some 10%R), None), Ok tt)).
Hypothesis (E2 : exec (Set_boundaries (sides r)) (line3i m0 G req (Some 10%R), None) = ((m1, None), Ok tt)).
Hypothesis (W : b_wells m1 = b_wells (line3i m0 G req (Some 10%R))).
Hypothesis (E3 : all_ok (m1, Some (fdm_new m1)) steps /\ along balanced_step (m1, Some (fdm_new m1)) steps /\ after (m1, Some (fdm_new m1)) steps = (m, Some s)).
Lemma sample_plain : plain m0 [injector] (Some (sides r)) [].
Proof.
  unfold plain, setup. cbn [app after fold_left]. rewrite E1. cbn [fst]. rewrite E2. unfold controlled. cbn [fst]. rewrite W.
  split; [unfold sides; split; [repeat constructor; cbn; intuition discriminate|subst m0; repeat constructor; apply side_faces; cbn; auto]|].
  split; [repeat constructor|]. split; [constructor|]. split; [left; subst m0; apply line3_level|].
  intros id w (Hw & Hc). subst m0. cbn in Hw. destruct (Z.eqb id 2); [|discriminate]. inversion Hw; subst. discriminate.
Qed.
Lemma sample_run : all_ok (m0, None) (setup [injector] (Some (sides r)) [] ++ Compile :: steps) /\
  along balanced_step (after (m0, None) (setup [injector] (Some (sides r)) [] ++ [Compile])) steps /\
  after (m0, None) (setup [injector] (Some (sides r)) [] ++ Compile :: steps) = (m, Some s).
Proof.
  destruct E3 as (A & L & E). unfold setup. cbn [app all_ok after fold_left]. rewrite E1. cbn [fst snd]. rewrite E2. cbn [fst snd]. auto.
Qed.
End sample.
Lemma run_c : exists G req, (0 < G)%R /\ exists m s, 
  exec injector (line3 (1 + 0) true (Some 10%R), None) = ((line3i (line3 (1 + 0) true (Some 10%R)) G req (Some 10%R), None), Ok tt) /\
  exists m1, exec (Set_boundaries (sides 0)) (line3i (line3 (1 + 0) true (Some 10%R)) G req (Some 10%R), None) = ((m1, None), Ok tt) /\ b_wells m1 = b_wells (line3i (line3 (1 + 0) true (Some 10%R)) G req (Some 10%R)) /\
  (all_ok (m1, Some (fdm_new m1)) steps_c /\ along balanced_step (m1, Some (fdm_new m1)) steps_c /\ after (m1, Some (fdm_new m1)) steps_c = (m, Some s)) /\
  fsum (last (s_r s) []) = Some (- (40 / 27))%R /\ fsum (nth 0 (s_r s) []) = Some 0%R /\ fsum (concat (s_r s)) = Some (- (115 / 27))%R.
Proof.
  destruct (line3i_built (1 + 0) true) as (G & req & HG & E). exists G, req. split; auto. do 2 eexists. split; [exact E|]. eexists. split; [cbn [exec]; unfold sides; mrun|].
  assert (HG' : (0 < / G)%R) by now apply Rinv_0_lt_compat.
  split; [reflexivity|]. split.
  - unfold steps_c. eapply bal_step; [estep|apply trial_exact|reflexivity|reflexivity|reflexivity|reflexivity| |].
    + intros id w1 w2. cbn. destruct (Z.eqb id 2); [|discriminate]. intros [= <-] [= <-]. reflexivity.
    + eapply bal_step; [estep|apply trial_exact|reflexivity|reflexivity|reflexivity|reflexivity| |].
      * intros id w1 w2. cbn. destruct (Z.eqb id 2); [|discriminate]. intros [= <-] [= <-]. reflexivity.
      * split; [exact I|]. split; [exact I|]. reflexivity.
  - cbn [s_r last nth concat app]. rrun. rewrite ?T3_1. repeat split; f_equal; lra.
Qed.
Lemma run_i : exists G req, (0 < G)%R /\ exists m s, 
  exec injector (line3 0 false (Some 10%R), None) = ((line3i (line3 0 false (Some 10%R)) G req (Some 10%R), None), Ok tt) /\
  exists m1, exec (Set_boundaries (sides 2)) (line3i (line3 0 false (Some 10%R)) G req (Some 10%R), None) = ((m1, None), Ok tt) /\ b_wells m1 = b_wells (line3i (line3 0 false (Some 10%R)) G req (Some 10%R)) /\
  (all_ok (m1, Some (fdm_new m1)) steps_i /\ along balanced_step (m1, Some (fdm_new m1)) steps_i /\ after (m1, Some (fdm_new m1)) steps_i = (m, Some s)) /\
  nth_error (last (s_r s) []) 2 = Some (Some 1%R).
Proof.
  destruct (line3i_built 0 false) as (G & req & HG & E). exists G, req. split; auto. do 2 eexists. split; [exact E|]. eexists. split; [cbn [exec]; unfold sides; mrun|].
  assert (HG' : (0 < / G)%R) by now apply Rinv_0_lt_compat.
  split; [reflexivity|]. split.
  - unfold steps_i. eapply bal_step; [estep|apply trial_exact|reflexivity|reflexivity|reflexivity|reflexivity| |].
    + intros id w1 w2. cbn. destruct (Z.eqb id 2); [|discriminate]. intros [= <-] [= <-]. reflexivity.
    + eapply bal_step; [estep|apply trial_exact|reflexivity|reflexivity|reflexivity|reflexivity| |].
      * intros id w1 w2. cbn. destruct (Z.eqb id 2); [|discriminate]. intros [= <-] [= <-]. reflexivity.
      * split; [exact I|]. split; [exact I|]. reflexivity.
  - reflexivity.
Qed.
