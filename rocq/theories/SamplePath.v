(** A history with a symbolic and a vectorised step. *)
From Coq Require Import String ZArith Bool Arith List Lia Reals Lra.
From Verif Require Import Prelude PreludeFacts Num GridModel GridSpec GeoModel GeoSpec PropModel PropSpec
  UnitsModel BlackOilModel FdmModel MonadFacts HistSpec AsmFacts ModelSpec Samples SampleFacts AssemblyThm SampleWell SolverSpec SolveSpec BalanceSpec SampleBal.
Import ListNotations.
Close Scope R_scope.
Open Scope nat_scope.

Lemma bal_symb slv sc fuel sparse o m s m' s' (w' : ws R) l : exec (Solve slv sc fuel sparse o) (m, Some s) = ((m', Some s'), Ok tt) ->
  exact slv -> o_upd o = true -> o_thr o = false -> (forall id, sc id <> 0%R) -> canonical (b_bdict m) -> productive m -> o_print o = false -> length (s_As s') = S (length (s_As s)) ->
  (forall id w1 w2, dget id (b_wells m) = Some w1 -> dget id (b_wells m') = Some w2 -> w_con w2 = w_con w1) ->
  all_ok (m', Some s') l /\ along balanced_step (m', Some s') l /\ after (m', Some s') l = w' ->
  all_ok (m, Some s) (Solve slv sc fuel sparse o :: l) /\ along balanced_step (m, Some s) (Solve slv sc fuel sparse o :: l) /\ after (m, Some s) (Solve slv sc fuel sparse o :: l) = w'.
Proof.
  intros E Ex U V1 V2 V3 V4 Pr L SM (H1 & H2 & H3). cbn [all_ok along after fold_left]. rewrite E. cbn [fst snd]. split; [auto|]. split; [|exact H3]. split; [|exact H2].
  cbn [balanced_step]. rewrite E. cbn [fst snd]. do 3 (split; [assumption|]). split; [right; auto|]. intros s1 s2 [= <-] [= <-]. auto.
Qed.
Definition osb := mkOpts false false true true false None.
Definition steps_s : list (call R) := [Solve (trial [[71 / 9; 86 / 9; 88 / 9]]%R) SampleWell.one 9 true osb; Solve (trial [[391 / 54; 245 / 27; 509 / 54]]%R) SampleWell.one 9 true omb].
Lemma run_s : exists G req, (0 < G)%R /\ exists m s X A d X' A' d', 
  exec injector (line3 (1 + 0) true (Some 10%R), None) = ((line3i (line3 (1 + 0) true (Some 10%R)) G req (Some 10%R), None), Ok tt) /\
  exists m1, exec (Set_boundaries (sides 0)) (line3i (line3 (1 + 0) true (Some 10%R)) G req (Some 10%R), None) = ((m1, None), Ok tt) /\ b_wells m1 = b_wells (line3i (line3 (1 + 0) true (Some 10%R)) G req (Some 10%R)) /\
  (all_ok (m1, Some (fdm_new m1)) steps_s /\ along balanced_step (m1, Some (fdm_new m1)) steps_s /\ after (m1, Some (fdm_new m1)) steps_s = (m, Some s)) /\
  get_matrices_vect (m, s) = (X, Ok (A, d)) /\ get_matrices_symb SampleWell.one false (m, s) = (X', Ok (A', d')) /\
  canonical (b_bdict m) /\ productive m /\ (forall id w, dget id (b_wells m) = Some w -> w_con w = Some (Some "q"%string) \/ w_con w = Some (Some "pwf"%string)).
Proof.
  assert (S1 : forall id : Z, SampleWell.one id <> 0%R) by (intros; unfold SampleWell.one; lra).
  destruct (line3i_built (1 + 0) true) as (G & req & HG & E). exists G, req. split; auto. do 8 eexists. split; [exact E|]. eexists. split; [cbn [exec]; unfold sides; mrun|].
  assert (HG' : (0 < / G)%R) by now apply Rinv_0_lt_compat.
  split; [reflexivity|]. split.
  - unfold steps_s. eapply bal_symb; [estep|apply trial_exact|reflexivity|reflexivity|exact S1| | |reflexivity|reflexivity| |].
    + intros e [<-|[<-|[]]]; [left; reflexivity|right; reflexivity].
    + intros id w G'. cbn. destruct (Z.eqb id 2); [|discriminate]. intros [= <-]. cbn. intros [= <-]. lra.
    + intros id w1 w2. cbn. destruct (Z.eqb id 2); [|discriminate]. intros [= <-] [= <-]. reflexivity.
    + eapply bal_step; [estep|apply trial_exact|reflexivity|reflexivity|reflexivity|reflexivity| |].
      * intros id w1 w2. cbn. destruct (Z.eqb id 2); [|discriminate]. intros [= <-] [= <-]. reflexivity.
      * split; [exact I|]. split; [exact I|]. reflexivity.
  - split; [mrun|]. split; [mrun|]. split; [|split].
    + intros e [<-|[<-|[]]]; [left; reflexivity|right; reflexivity].
    + intros id w G'. cbn. destruct (Z.eqb id 2); [|discriminate]. intros [= <-]. cbn. intros [= <-]. lra.
    + intros id w. cbn. destruct (Z.eqb id 2); [|discriminate]. intros [= <-]. now left.
Qed.
