(** A history with a well controlled by its bottom-hole pressure. *)
From Coq Require Import String ZArith Bool Arith List Lia Reals Lra.
From Verif Require Import Prelude PreludeFacts Num GridModel GridSpec GeoModel GeoSpec PropModel PropSpec
  UnitsModel BlackOilModel FdmModel MonadFacts HistSpec AsmFacts ModelSpec Samples SampleFacts AssemblyThm SampleWell SolverSpec SolveSpec BalanceSpec SampleBal.
Import ListNotations.
Close Scope R_scope.
Open Scope nat_scope.

Definition feeder : call R := Set_well (Some 2%Z) None (Some 12%R) (Some (1 / 2)%R) None.
Definition line3p (m : bo R) (G req : R) (p : fl R) : bo R := set_wp [(2%Z, [p])] (set_wells [(2%Z, mkWell None None (Some (Some 12%R)) (Some 12%R) (Some (Some "pwf"%string))
  (Some (1 / 2)%R) None (Some req) (Some G))] m).
Lemma line3p_built c cmp : exists G req, (0 < G)%R /\ exec feeder (line3 c cmp (Some 10%R), None) = ((line3p (line3 c cmp (Some 10%R)) G req (Some 10%R), None), Ok tt).
Proof.
  do 2 eexists. split; [|rrun; reflexivity]. pose proof (well_G_pos (864 / 10000) (1 / 2)) as H. revert H. rrun. intros H. apply H; lra.
Qed.
Definition sides_p (G : R) := sides (8 / 3 - 2 * G).
Definition steps_p (G : R) : list (call R) := [Solve (trial [[22 / 3; 10; 38 / 3 - 2 * G]]%R) SampleWell.one 9 true omb; Solve (trial [[22 / 3; 10; 38 / 3 - 2 * G]]%R) SampleWell.one 9 true omb].
Lemma run_p : exists G req, (0 < G)%R /\ exists m s, 
  exec feeder (line3 0 false (Some 10%R), None) = ((line3p (line3 0 false (Some 10%R)) G req (Some 10%R), None), Ok tt) /\
  exists m1, exec (Set_boundaries (sides_p G)) (line3p (line3 0 false (Some 10%R)) G req (Some 10%R), None) = ((m1, None), Ok tt) /\ b_wells m1 = b_wells (line3p (line3 0 false (Some 10%R)) G req (Some 10%R)) /\
  (all_ok (m1, Some (fdm_new m1)) (steps_p G) /\ along balanced_step (m1, Some (fdm_new m1)) (steps_p G) /\ after (m1, Some (fdm_new m1)) (steps_p G) = (m, Some s)) /\
  (exists w, dget 2%Z (b_wells m) = Some w /\ w_con w = Some (Some "pwf"%string) /\ w_pwfsp w = Some 12%R).
Proof.
  destruct (line3p_built 0 false) as (G & req & HG & E). exists G, req. split; auto. do 2 eexists. split; [exact E|]. eexists. split; [cbn [exec]; unfold sides_p, sides; mrun|].
  assert (HG' : (0 < / G)%R) by now apply Rinv_0_lt_compat.
  split; [reflexivity|]. split.
  - unfold steps_p. eapply bal_step; [estep|apply trial_exact|reflexivity|reflexivity|reflexivity|reflexivity| |].
    + intros id w1 w2. cbn. destruct (Z.eqb id 2); [|discriminate]. intros [= <-] [= <-]. reflexivity.
    + eapply bal_step; [estep|apply trial_exact|reflexivity|reflexivity|reflexivity|reflexivity| |].
      * intros id w1 w2. cbn. destruct (Z.eqb id 2); [|discriminate]. intros [= <-] [= <-]. reflexivity.
      * split; [exact I|]. split; [exact I|]. reflexivity.
  - cbn. eauto 6.
Qed.
