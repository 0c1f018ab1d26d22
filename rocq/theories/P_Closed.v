(** Property theorems (each one a lemma proved in [ClosedThm.v]), the assumptions they
    rest on, and for each a concrete case meeting its hypotheses. *)
From Coq Require Import String ZArith Bool Arith List Lia Reals Lra.
From Verif Require Import Prelude PreludeFacts Num GridModel GridSpec GridProofs GeoModel GeoSpec GeoProofs
  PropModel PropSpec MatrixProofs UnitsModel BlackOilModel FdmModel MonadFacts HistSpec InvFacts SumFacts ModelSpec ModelFacts VectFacts FaceFacts AsmFacts BalanceSpec
  StepSpec SolverSpec SolveSpec StepFacts WellStepFacts FdmSpec CanonFacts LinFacts NbrFacts SymbFacts BalFacts FormFacts StepBal SetupFacts Samples SampleFacts SampleWell SampleBal AssemblyThm BalanceThm ClosedSpec MixFacts ClosedFacts SampleClosed.
Import ListNotations.
Close Scope R_scope.
Open Scope nat_scope.
From Verif Require Import ClosedThm.
Close Scope R_scope.
Open Scope nat_scope.

(** C47: in a compressible reservoir without wells and open boundaries every new
    pressure lies between the smallest and the largest pressure before the step,
    whatever the sizes, the rock and the pressures: on the vectorised path always,
    on the symbolic path if the reservoir is level. *)
Theorem C47_maximum_principle :
  forall (m0 : bo R) x y z u dx dy dz l m s k r r' lo hi,
  model m0 x y z u dx dy dz -> fresh m0 -> b_cmp m0 = true ->
  Forall direct l -> level m0 \/ Forall (path true) l ->
  all_ok (m0, None) (Compile :: l) -> after (m0, None) (Compile :: l) = (m, Some s) ->
  nth_error (s_p s) k = Some r -> nth_error (s_p s) (S k) = Some r' ->
  within m0 lo hi r -> within m0 lo hi r'.
Proof. exact L_C47_maximum_principle. Qed.
Print Assumptions C47_maximum_principle.

(** C46: a compressible model built with initial pressure c, without wells and
    open boundaries, keeps exactly that pressure in all interior cells and all
    steps, by either path (symbolic: if level). *)
Theorem C46_uniform_pressure :
  forall (g : gobj R) f unit c dt m0 x y z u dx dy dz l m s,
  bo_new g f unit (Some c) dt = Ok m0 -> model m0 x y z u dx dy dz -> b_cmp m0 = true ->
  Forall direct l -> level m0 \/ Forall (path true) l ->
  all_ok (m0, None) (Compile :: l) -> after (m0, None) (Compile :: l) = (m, Some s) ->
  Forall (uniform m0 c) (s_p s).
Proof. exact L_C46_uniform_pressure. Qed.
Print Assumptions C46_uniform_pressure.

(** C48, symbolic path: a compressible reservoir at rest (pressures differing by
    the weight of the fluid between the heights) without wells and open boundaries
    keeps exactly its pressures in all steps, whatever the heights. *)
Theorem C48_hydrostatic_partial :
  forall (m0 : bo R) x y z u dx dy dz l m s k r id,
  model m0 x y z u dx dy dz -> fresh m0 -> b_cmp m0 = true ->
  hydrostatic m0 (b_ip m0) -> (forall id, In id (b_ids m0) -> value (b_ip m0) id <> None) ->
  Forall direct l -> Forall (path false) l ->
  all_ok (m0, None) (Compile :: l) -> after (m0, None) (Compile :: l) = (m, Some s) ->
  nth_error (s_p s) k = Some r -> In id (b_ids m0) -> value r id = value (b_ip m0) id.
Proof. exact L_C48_hydrostatic_partial. Qed.
Print Assumptions C48_hydrostatic_partial.

(** C40: an incompressible reservoir whose wells are all controlled by rate and
    that has no pressure boundary: at every step the assembled matrix maps constant
    vectors to zero, so shifting a solution gives a solution; and a solution exists
    only if the given rates sum to zero. *)
Theorem C40_closed_singular :
  forall (g : gobj R) f unit pi dt m0 x y z u dx dy dz l1 ob l2 steps m s X A d,
  bo_new g f unit pi dt = Ok m0 -> model m0 x y z u dx dy dz -> b_cmp m0 = false -> plain m0 l1 ob l2 ->
  all_ok (m0, None) (setup l1 ob l2 ++ Compile :: steps) ->
  along balanced_step (after (m0, None) (setup l1 ob l2 ++ [Compile])) steps ->
  after (m0, None) (setup l1 ob l2 ++ Compile :: steps) = (m, Some s) ->
  (forall id w, dget id (b_wells m) = Some w -> w_con w = Some (Some "q"%string)) ->
  (forall e, In e (b_bdict m) -> fst (snd e) <> "pressure"%string) ->
  get_matrices_vect (m, s) = (X, Ok (A, d)) ->
  (forall c p, p < msize A -> times A (repeat c (msize A)) p = 0%R) /\
  (forall c y, solves A d y -> solves A d (map (Rplus c) y)) /\
  (forall y, solves A d y -> given_rates m s = Some 0%R).
Proof. exact L_C40_closed_singular. Qed.
Print Assumptions C40_closed_singular.

Example C47_case : exists m0 l m s r r', (exists x y z u dx dy dz, model m0 x y z u dx dy dz) /\ fresh m0 /\ b_cmp m0 = true /\ Forall direct l /\ level m0 /\
  ~ Forall (path true) l /\ all_ok (m0, None) (Compile :: l) /\ after (m0, None) (Compile :: l) = (m, Some s) /\
  nth_error (s_p s) 1 = Some r /\ nth_error (s_p s) 2 = Some r' /\ within m0 1 3 r /\ ~ within m0 2 2 r'.
Proof. exact ex_C47_case. Qed.

Example C46_case : exists m0 l m s, (exists g f unit dt, bo_new g f unit (Some 10%R) dt = Ok m0) /\ (exists x y z u dx dy dz, model m0 x y z u dx dy dz) /\ b_cmp m0 = true /\
  Forall direct l /\ level m0 /\ ~ Forall (path true) l /\ all_ok (m0, None) (Compile :: l) /\ after (m0, None) (Compile :: l) = (m, Some s) /\ s_tstep s = 3.
Proof. exact ex_C46_case. Qed.

Example C48_case : exists m0 l m s, (exists x y z u dx dy dz, model m0 x y z u dx dy dz) /\ fresh m0 /\ b_cmp m0 = true /\
  hydrostatic m0 (b_ip m0) /\ ~ level m0 /\ (forall id, In id (b_ids m0) -> value (b_ip m0) id <> None) /\ Forall direct l /\ Forall (path false) l /\
  all_ok (m0, None) (Compile :: l) /\ after (m0, None) (Compile :: l) = (m, Some s) /\ s_tstep s = 3.
Proof. exact ex_C48_case. Qed.

Example C40_case : exists m0 l1 ob l2 m s X A d y,
  (exists g f unit pi dt, bo_new g f unit pi dt = Ok m0) /\ (exists x y z u dx dy dz, model m0 x y z u dx dy dz) /\ b_cmp m0 = false /\ plain m0 l1 ob l2 /\
  all_ok (m0, None) (setup l1 ob l2 ++ [Compile]) /\ along balanced_step (after (m0, None) (setup l1 ob l2 ++ [Compile])) [] /\
  after (m0, None) (setup l1 ob l2 ++ [Compile]) = (m, Some s) /\
  (forall id w, dget id (b_wells m) = Some w -> w_con w = Some (Some "q"%string)) /\
  (forall e, In e (b_bdict m) -> fst (snd e) <> "pressure"%string) /\ b_wells m <> [] /\ length (b_bdict m) = 2 /\
  get_matrices_vect (m, s) = (X, Ok (A, d)) /\ solves A d y.
Proof. exact ex_C40_case. Qed.
