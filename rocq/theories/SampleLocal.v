(** A history with a pressure and a gradient boundary. *)
From Coq Require Import String ZArith Bool Arith List Lia Reals Lra.
From Verif Require Import Prelude PreludeFacts Num GridModel GridSpec GeoModel GeoSpec PropModel PropSpec
  UnitsModel BlackOilModel FdmModel MonadFacts HistSpec AsmFacts ModelSpec Samples SampleFacts AssemblyThm SampleWell SolverSpec SolveSpec BalanceSpec SampleBal.
Import ListNotations.
Close Scope R_scope.
Open Scope nat_scope.

Section sample.
Context (c : R) (cmp : bool) (bd : list (Z * (string * R))) (steps : list (call R)) (m0 m1 m : bo R) (s : fs R) (G req : R).
Hypothesis (H0 : m0 = line3 c cmp (Some 10%R)).
Hypothesis (Hb : map fst bd = [0%Z; 4%Z]).
Hypothesis (E1 : exec injector (m0, None) = ((line3i m0 G req (Some 10%R), None), Ok tt)).
Hypothesis (E2 : exec (Set_boundaries bd) (line3i m0 G req (Some 10%R), None) = ((m1, None), Ok tt)).
Hypothesis (W : b_wells m1 = b_wells (line3i m0 G req (Some 10%R))).
Hypothesis (E3 : all_ok (m1, Some (fdm_new m1)) steps /\ along balanced_step (m1, Some (fdm_new m1)) steps /\ after (m1, Some (fdm_new m1)) steps = (m, Some s)).
Lemma plain_bd : plain m0 [injector] (Some bd) [].
Proof.
  unfold plain, setup. cbn [app after fold_left]. rewrite E1. cbn [fst]. rewrite E2. unfold controlled. cbn [fst]. rewrite W.
  split; [split; [rewrite Hb; repeat constructor; cbn; intuition discriminate|]|].
  { rewrite Forall_forall. intros e I. assert (J : In (fst e) (map fst bd)) by now apply in_map. rewrite Hb in J. subst m0. apply side_faces. cbn in J. intuition. }
  split; [repeat constructor|]. split; [constructor|]. split; [left; subst m0; apply line3_level|].
  intros id w (Hw & Hc). subst m0. cbn in Hw. destruct (Z.eqb id 2); [|discriminate]. inversion Hw; subst. discriminate.
Qed.
Lemma run_bd : all_ok (m0, None) (setup [injector] (Some bd) [] ++ Compile :: steps) /\
  along balanced_step (after (m0, None) (setup [injector] (Some bd) [] ++ [Compile])) steps /\
  after (m0, None) (setup [injector] (Some bd) [] ++ Compile :: steps) = (m, Some s).
Proof.
  destruct E3 as (A & L & E). unfold setup. cbn [app all_ok after fold_left]. rewrite E1. cbn [fst snd]. rewrite E2. cbn [fst snd]. auto.
Qed.
End sample.
Definition sides_g : list (Z * (string * R)) := [(0%Z, ("pressure"%string, 6%R)); (4%Z, ("gradient"%string, 2%R))].
Lemma run_g : exists G req, (0 < G)%R /\ exists m s, 
  exec injector (line3 0 false (Some 10%R), None) = ((line3i (line3 0 false (Some 10%R)) G req (Some 10%R), None), Ok tt) /\
  exists m1, exec (Set_boundaries sides_g) (line3i (line3 0 false (Some 10%R)) G req (Some 10%R), None) = ((m1, None), Ok tt) /\ b_wells m1 = b_wells (line3i (line3 0 false (Some 10%R)) G req (Some 10%R)) /\
  (all_ok (m1, Some (fdm_new m1)) steps_i /\ along balanced_step (m1, Some (fdm_new m1)) steps_i /\ after (m1, Some (fdm_new m1)) steps_i = (m, Some s)) /\
  b_bdict m = sides_g /\ dget 2 (b_wells m) <> None.
Proof.
  destruct (line3i_built 0 false) as (G & req & HG & E). exists G, req. split; auto. do 2 eexists. split; [exact E|]. eexists. split; [cbn [exec]; unfold sides_g; mrun|].
  assert (HG' : (0 < / G)%R) by now apply Rinv_0_lt_compat.
  split; [reflexivity|]. split.
  - unfold steps_i. eapply bal_step; [estep|apply trial_exact|reflexivity|reflexivity|reflexivity|reflexivity| |].
    + intros id w1 w2. cbn. destruct (Z.eqb id 2); [|discriminate]. intros [= <-] [= <-]. reflexivity.
    + eapply bal_step; [estep|apply trial_exact|reflexivity|reflexivity|reflexivity|reflexivity| |].
      * intros id w1 w2. cbn. destruct (Z.eqb id 2); [|discriminate]. intros [= <-] [= <-]. reflexivity.
      * split; [exact I|]. split; [exact I|]. reflexivity.
  - split; [reflexivity|cbn; discriminate].
Qed.
