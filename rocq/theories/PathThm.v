(** The two ways of assembling the system. *)
From Coq Require Import String ZArith Bool Arith List Lia Reals Lra.
From Verif Require Import Prelude PreludeFacts Num GridModel GridSpec GeoModel GeoSpec GeoProofs PropModel PropSpec
  UnitsModel BlackOilModel FdmModel MonadFacts HistSpec InvFacts SumFacts ModelSpec ModelFacts VectFacts AsmFacts AssemblyThm
  Samples SampleFacts SampleWell SampleBal SamplePath SolverSpec SolveSpec StepSpec StepFacts WellStepFacts BalanceSpec FdmSpec CanonFacts NbrFacts SymbFacts BalFacts FormFacts StepBal SetupFacts BalanceThm.
Import ListNotations.
Close Scope R_scope.
Open Scope nat_scope.

(** C42: at any point of a history, in a level reservoir of one or two
    dimensions with pressures and rates as boundary conditions and wells
    controlled by rate or pressure, the vectorised and the symbolic system have
    the same solutions. *)
Lemma L_C42_paths_agree :
  forall (g : gobj R) f unit pi dt m0 x y z u dx dy dz l1 ob l2 steps m s sc X A d X' A' d',
  bo_new g f unit pi dt = Ok m0 -> model m0 x y z u dx dy dz -> plain m0 l1 ob l2 -> level m0 -> ~ three_d (gr (geom (b_grid m0))) ->
  all_ok (m0, None) (setup l1 ob l2 ++ Compile :: steps) ->
  along balanced_step (after (m0, None) (setup l1 ob l2 ++ [Compile])) steps ->
  after (m0, None) (setup l1 ob l2 ++ Compile :: steps) = (m, Some s) ->
  canonical (b_bdict m) -> productive m -> (forall id w, dget id (b_wells m) = Some w -> w_con w = Some (Some "q"%string) \/ w_con w = Some (Some "pwf"%string)) ->
  (forall id, sc id <> 0%R) ->
  get_matrices_vect (m, s) = (X, Ok (A, d)) -> get_matrices_symb sc false (m, s) = (X', Ok (A', d')) ->
  forall p, solves A d p <-> solves A' d' p.
Proof.
  intros g f unit pi dt m0 x y z u dx dy dz l1 ob l2 steps m s sc X A d X' A' d' Hn K P Lv N3 Ao Al E Cn Pd Wc Sc E1 E2.
  destruct (history _ _ _ _ _ _ _ _ _ _ _ _ _ _ _ _ _ _ _ Hn K P Ao Al E) as (C & [Rwk Rwi Rwg Rwp Rbk Rbf Rbu _ Rsh Rln Rq Rkp Rti Rrt] & _ & _).
  pose proof (model_core _ _ _ _ _ _ _ _ _ (eq_sym C) K) as K'. destruct (core_fields _ _ C) as (Cg & Ci & _).
  apply (paths_agree K' Rwk Rwi) with (sc := sc) (s := s) (X := X) (X' := X'); auto.
  - intros id w Ew. destruct (Rwg id w Ew) as (Gq & Gp). destruct (Wc id w Ew) as [Cw|Cw]; [left; split; auto; destruct (Gq Cw) as (q0 & Q1 & _); eauto|right; split; auto].
    destruct (Gp Cw) as (p0 & P1 & P2). exists p0. repeat split; auto. intros ->. exact (Rwp id w Ew Cw P2).
  - destruct Lv as (zs & h & L1 & L2). exists zs, h. rewrite (core_z _ _ C), Ci. auto.
  - now rewrite Cg.
  - intros e Ie. destruct (Cn e Ie) as [Ce|Ce]; [now left|right]. split; [now apply rate_press|].
    unfold at2. rewrite (proj2 (last_at s Rsh)). pose proof (face_facts K' _ (Rbf e Ie)) as (Fe & _). rewrite value_pyget by (rewrite ?Rln; lia). f_equal. apply Rrt; auto. now left.
Qed.
(** Three cells at pressure 10, injection into the middle one, pressure 6 on the
    left, no flow on the right; after a symbolic and a vectorised step. *)
Example ex_C42_case : exists m0 l1 ob l2 steps m s sc X A d X' A' d', build 3 1 1 None 1%R (Some 10%R) None = Ok m0 /\ (exists g f unit p dt, bo_new g f unit p dt = Ok m0) /\
  (exists x y z u dx dy dz, model m0 x y z u dx dy dz) /\ plain m0 l1 ob l2 /\ level m0 /\ ~ three_d (gr (geom (b_grid m0))) /\
  all_ok (m0, None) (setup l1 ob l2 ++ Compile :: steps) /\
  along balanced_step (after (m0, None) (setup l1 ob l2 ++ [Compile])) steps /\
  after (m0, None) (setup l1 ob l2 ++ Compile :: steps) = (m, Some s) /\ length steps = 2 /\
  canonical (b_bdict m) /\ productive m /\ (forall id w, dget id (b_wells m) = Some w -> w_con w = Some (Some "q"%string) \/ w_con w = Some (Some "pwf"%string)) /\
  (forall id : Z, sc id <> 0%R) /\ get_matrices_vect (m, s) = (X, Ok (A, d)) /\ get_matrices_symb sc false (m, s) = (X', Ok (A', d')).
Proof.
  destruct run_s as (G & req & HG & m & s & X & A & d & X' & A' & d' & E1 & m1 & E2 & W & E3 & E4 & E5 & H1 & H2 & H3).
  exists (line3 (1 + 0) true (Some 10%R)), [injector], (Some (sides 0)), [], steps_s, m, s, SampleWell.one, X, A, d, X', A', d'.
  split; [apply line3_pos; lra|]. split; [eapply build_new; apply (line3_pos 1); lra|]. split; [do 7 eexists; apply line3_model; intros; lra|].
  split; [eapply sample_plain; eauto|]. split; [apply line3_level|]. split; [intros (_ & F & _); unfold flows in F; cbn in F; lia|].
  destruct (sample_run 0 steps_s _ m1 m s G req E1 E2 E3) as (Ao & L & E). do 3 (split; [assumption|]). split; [reflexivity|].
  do 3 (split; [assumption|]). split; [intros; unfold SampleWell.one; lra|]. auto.
Qed.
