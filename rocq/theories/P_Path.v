(** Property theorems (each one a lemma proved in [PathThm.v]), the assumptions they
    rest on, and for each a concrete case meeting its hypotheses. *)
From Coq Require Import String ZArith Bool Arith List Lia Reals Lra.
From Verif Require Import Prelude PreludeFacts Num GridModel GridSpec GeoModel GeoSpec GeoProofs PropModel PropSpec
  UnitsModel BlackOilModel FdmModel MonadFacts HistSpec InvFacts SumFacts ModelSpec ModelFacts VectFacts AsmFacts AssemblyThm
  Samples SampleFacts SampleWell SampleBal SamplePath SolverSpec SolveSpec StepSpec StepFacts WellStepFacts BalanceSpec FdmSpec CanonFacts NbrFacts SymbFacts BalFacts FormFacts StepBal SetupFacts BalanceThm.
Import ListNotations.
Close Scope R_scope.
Open Scope nat_scope.
From Verif Require Import PathThm.
Close Scope R_scope.
Open Scope nat_scope.

(** C42: at any point of a history, in a level reservoir of one or two
    dimensions with pressures and rates as boundary conditions and wells
    controlled by rate or pressure, the vectorised and the symbolic system have
    the same solutions. *)
Theorem C42_paths_agree :
  forall (g : gobj R) f unit pi dt m0 x y z u dx dy dz l1 ob l2 steps m s sc X A d X' A' d',
  bo_new g f unit pi dt = Ok m0 -> model m0 x y z u dx dy dz -> plain m0 l1 ob l2 -> level m0 -> ~ three_d (gr (geom (b_grid m0))) ->
  all_ok (m0, None) (setup l1 ob l2 ++ Compile :: steps) ->
  along balanced_step (after (m0, None) (setup l1 ob l2 ++ [Compile])) steps ->
  after (m0, None) (setup l1 ob l2 ++ Compile :: steps) = (m, Some s) ->
  canonical (b_bdict m) -> productive m -> (forall id w, dget id (b_wells m) = Some w -> w_con w = Some (Some "q"%string) \/ w_con w = Some (Some "pwf"%string)) ->
  (forall id, sc id <> 0%R) ->
  get_matrices_vect (m, s) = (X, Ok (A, d)) -> get_matrices_symb sc false (m, s) = (X', Ok (A', d')) ->
  forall p, solves A d p <-> solves A' d' p.
Proof. exact L_C42_paths_agree. Qed.
Print Assumptions C42_paths_agree.

(** Three cells at pressure 10, injection into the middle one, pressure 6 on the
    left, no flow on the right; after a symbolic and a vectorised step. *)
Example C42_case : exists m0 l1 ob l2 steps m s sc X A d X' A' d', build 3 1 1 None 1%R (Some 10%R) None = Ok m0 /\ (exists g f unit p dt, bo_new g f unit p dt = Ok m0) /\
  (exists x y z u dx dy dz, model m0 x y z u dx dy dz) /\ plain m0 l1 ob l2 /\ level m0 /\ ~ three_d (gr (geom (b_grid m0))) /\
  all_ok (m0, None) (setup l1 ob l2 ++ Compile :: steps) /\
  along balanced_step (after (m0, None) (setup l1 ob l2 ++ [Compile])) steps /\
  after (m0, None) (setup l1 ob l2 ++ Compile :: steps) = (m, Some s) /\ length steps = 2 /\
  canonical (b_bdict m) /\ productive m /\ (forall id w, dget id (b_wells m) = Some w -> w_con w = Some (Some "q"%string) \/ w_con w = Some (Some "pwf"%string)) /\
  (forall id : Z, sc id <> 0%R) /\ get_matrices_vect (m, s) = (X, Ok (A, d)) /\ get_matrices_symb sc false (m, s) = (X', Ok (A', d')).
Proof. exact ex_C42_case. Qed.
