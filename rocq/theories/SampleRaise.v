(** A sample reservoir with twice the compressibility and twice the time step. *)
From Coq Require Import String ZArith Bool Arith List Lia Reals Lra.
From Verif Require Import Prelude PreludeFacts Num GridModel GridSpec GeoModel GeoSpec PropModel PropSpec PropProofs
  UnitsModel BlackOilModel FdmModel MonadFacts HistSpec AsmFacts ModelSpec Samples SampleFacts AssemblyThm SampleWell SolverSpec SolveSpec BalanceSpec SampleBal CompareSpec SampleCompare LocalSpec TurnSpec SampleTurn.
Import ListNotations.
Close Scope R_scope.
Open Scope nat_scope.

Definition slow (p : R) : bo R :=
  mkBo gline3 [1; 2; 3]%Z 1%R 1%R (1 / 1000 * 0 * (9806635 / 1000000))%R (864 / 10000)%R 1%R 2%R (2 + 0)%R true
    (repeat (1 * 1 * 1 * 1 * (2 + 0) / (1 * 1 * 2))%R 5)
    [None; Some p; Some p; Some p; None] (repeat (Some 0%R) 5) [] [] [] [] [].
(** The grid at height [h]. *)
Definition at_height (h : R) : res (gobj R) :=
  let one := Some (Scalar 1%R) in gobj_new 3 1 1 true (Scalar 1%R) (Scalar 1%R) (Scalar 1%R) one one one one (Some (Scalar h)) None 1%R.
Lemma fluid_made c : (0 < c)%R -> exists f, fluid_new (Some 1%R) (Some 1%R) None (Some c) "metric" = Ok f /\ f_mu f = Some 1%R /\ f_B f = Some 1%R /\ f_g f = Some (1 / 1000 * 0 * (9806635 / 1000000))%R /\ f_c f = mkCobj (Some c) (Some (Some "compressible"%string)).
Proof.
  intros Hc. assert (Q1 : Reqb c 0 = false) by (apply Reqb_ne; lra). assert (Q2 : Rltb 0 c = true) by (apply Rltb_true; lra).
  unfold fluid_new. cbn -[IZR]. unfold fset_props, fset_comp, cset. cbn -[IZR]. rewrite Q1, Q2. cbn -[IZR]. eexists. split; [reflexivity|]. cbn. auto.
Qed.
Lemma slow_made p : exists f f', flow_alike f f' /\ bo_new gline3 f "metric" (Some p) 1%R = Ok (line3 (1 + 0) true (Some p)) /\ bo_new gline3 f' "metric" (Some p) 2%R = Ok (slow p).
Proof.
  destruct (fluid_made 1 ltac:(lra)) as (f & _ & M1 & B1 & G1 & C1). destruct (fluid_made 2 ltac:(lra)) as (f' & _ & M2 & B2 & G2 & C2).
  exists f, f'. split; [unfold flow_alike; repeat split; congruence|].
  assert (Q3 : forall c, (0 < c)%R -> Reqb (c + 0) 0 = false) by (intros; apply Reqb_ne; lra).
  assert (Q4 : forall c, (0 < c)%R -> Rltb 0 (c + 0) = true) by (intros; apply Rltb_true; lra).
  split; unfold bo_new, calc_comp; rewrite ?M1, ?B1, ?G1, ?C1, ?M2, ?B2, ?G2, ?C2; cbn -[IZR]; unfold cset; cbn -[IZR]; rewrite Q3, Q4 by lra; unfold line3, slow;
    lazy -[IZR Rplus Rmult Rdiv Rinv Ropp]; reflexivity.
Qed.
Lemma slow_model p : model (slow p) 3 1 1 true (Scalar 1%R) (Scalar 1%R) (Scalar 1%R).
Proof.
  pose proof (line3_model (1 + 0) true (Some p) ltac:(intros; lra)) as K. destruct K. constructor; auto. cbn. repeat constructor; lra.
Qed.
Lemma slow_run : exists m1 m s, simulates (slow 10) [] (Some (sides 0)) [] [reply (70 / 9) (82 / 9) (86 / 9)] m s /\
    prepared (slow 10) [] (Some (sides 0)) [] = m1 /\ b_wells m1 = [] /\ b_bdict m1 = sides 0 /\
    nth_error (s_p s) 1 = Some [Some 6; Some (70 / 9); Some (82 / 9); Some (86 / 9); None]%R.
Proof.
  assert (E : exists m1 m s, exec (Set_boundaries (sides 0)) (slow 10, None) = ((m1, None), Ok tt) /\ b_wells m1 = [] /\ b_bdict m1 = sides 0 /\
    (all_ok (m1, Some (fdm_new m1)) [reply (70 / 9) (82 / 9) (86 / 9)] /\ along balanced_step (m1, Some (fdm_new m1)) [reply (70 / 9) (82 / 9) (86 / 9)] /\ after (m1, Some (fdm_new m1)) [reply (70 / 9) (82 / 9) (86 / 9)] = (m, Some s)) /\
    nth_error (s_p s) 1 = Some [Some 6; Some (70 / 9); Some (82 / 9); Some (86 / 9); None]%R).
  { do 3 eexists. split; [cbn [exec]; unfold sides; mrun|]. split; [reflexivity|]. split; [reflexivity|]. split; [|shelve].
    unfold reply. eapply bal_step; [estep|apply trial_exact|reflexivity|reflexivity|reflexivity|reflexivity| |].
    - intros id w1 w2. cbn. discriminate.
    - split; [exact I|]. split; [exact I|]. reflexivity.
    Unshelve. reflexivity. }
  destruct E as (m1 & m & s & E1 & W & Bd & (A & L & Ea) & N). exists m1, m, s.
  unfold simulates, prepared, plain, setup. cbn [app all_ok after fold_left]. rewrite E1. unfold controlled. cbn [fst snd]. rewrite W. split; [|auto].
  split; [|auto]. split; [split; [unfold sides; cbn; repeat constructor; cbn; intuition discriminate|]|].
  - rewrite Forall_forall. intros e I. apply (side_faces 1 true None). unfold sides in I. cbn in I. destruct I as [<-|[<-|[]]]; auto.
  - do 2 (split; [constructor|]). split; [left; apply (line3_level 1 true None)|]. intros id w (Q & _). discriminate.
Qed.
