(** Property theorems (each one a lemma proved in [EvolveThm.v]), the assumptions they
    rest on, and for each a concrete case meeting its hypotheses. *)
From Coq Require Import String ZArith Bool Arith List Lia Reals Lra.
From Verif Require Import Prelude PreludeFacts Num GridModel GridSpec GeoModel GeoSpec PropModel PropSpec
  UnitsModel BlackOilModel FdmModel MonadFacts HistSpec InvFacts AsmFacts ModelSpec ModelFacts VectFacts AssemblyThm Samples SampleFacts SampleWell SampleBal SolverSpec SolveSpec StepSpec StepFacts WellStepFacts
  BalanceSpec FdmSpec BalFacts CanonFacts StepBal SetupFacts BalanceThm ClosedSpec ClosedThm LocalSpec LocalThm SampleLocal TotalSpec TotalHist ChangeSpec ChangeFacts ChangeThm CompareSpec CompareFacts SampleCompare CompareThm EvolveSpec EvolveFacts.
Import ListNotations.
Close Scope R_scope.
Open Scope nat_scope.
From Verif Require Import EvolveThm.
Close Scope R_scope.
Open Scope nat_scope.

(** C108: changes die away. In a compressible reservoir under controls that stay, no
    cell's pressure ever changes by more in a step than some cell's did in the first. *)
Theorem C108_changes_shrink :
  forall (g : gobj R) f unit pi dt l1 ob l2 st m0 m s x y z u dx dy dz v d r0 r1,
  simulated g f unit pi dt l1 ob l2 st m0 m s -> model m0 x y z u dx dy dz -> b_cmp m0 = true -> Forall (path v) st ->
  let p := prepared m0 l1 ob l2 in conditioned p -> operated p ->
  nth_error (s_p s) 0 = Some r0 -> nth_error (s_p s) 1 = Some r1 -> near m0 d r0 r1 -> consecutive (near m0 d) (s_p s).
Proof. exact L_C108_changes_shrink. Qed.
Print Assumptions C108_changes_shrink.

(** C108: without compressibility and with a pressure held somewhere every step repeats
    the first. *)
Theorem C108_steps_repeat :
  forall (g : gobj R) f unit pi dt l1 ob l2 st m0 m s x y z u dx dy dz v k r r',
  simulated g f unit pi dt l1 ob l2 st m0 m s -> model m0 x y z u dx dy dz -> b_cmp m0 = false -> Forall (path v) st ->
  let p := prepared m0 l1 ob l2 in anchored p -> conditioned p -> operated p ->
  nth_error (s_p s) (S k) = Some r -> nth_error (s_p s) (S (S k)) = Some r' -> same_pressures m0 r r'.
Proof. exact L_C108_steps_repeat. Qed.
Print Assumptions C108_steps_repeat.

(** C109: drawdown. In a flat compressible reservoir that nothing pushes above its
    initial pressure, no cell's pressure ever rises. *)
Theorem C109_drawdown :
  forall (g : gobj R) f unit pi dt l1 ob l2 st m0 m s x y z u dx dy dz v,
  simulated g f unit (Some pi) dt l1 ob l2 st m0 m s -> model m0 x y z u dx dy dz -> flat m0 -> b_cmp m0 = true -> Forall (path v) st ->
  pushed_at_most pi (prepared m0 l1 ob l2) -> consecutive (fun r r' => below m0 0 r' r) (s_p s).
Proof. exact L_C109_drawdown. Qed.
Print Assumptions C109_drawdown.

(** C109: buildup, the other way. *)
Theorem C109_buildup :
  forall (g : gobj R) f unit pi dt l1 ob l2 st m0 m s x y z u dx dy dz v,
  simulated g f unit (Some pi) dt l1 ob l2 st m0 m s -> model m0 x y z u dx dy dz -> flat m0 -> b_cmp m0 = true -> Forall (path v) st ->
  drawn_at_least pi (prepared m0 l1 ob l2) -> consecutive (below m0 0) (s_p s).
Proof. exact L_C109_buildup. Qed.
Print Assumptions C109_buildup.

(** Pressure 6 on the left, nothing on the right, initial pressure 10, two steps. *)
Example C109_case : exists g f unit dt l1 ob l2 st m0 m s r0 r1 r2,
  simulated g f unit (Some 10%R) dt l1 ob l2 st m0 m s /\ (exists x y z u dx dy dz, model m0 x y z u dx dy dz) /\ flat m0 /\ b_cmp m0 = true /\ Forall (path true) st /\
  (let p := prepared m0 l1 ob l2 in pushed_at_most 10 p /\ conditioned p /\ operated p) /\
  nth_error (s_p s) 0 = Some r0 /\ nth_error (s_p s) 1 = Some r1 /\ nth_error (s_p s) 2 = Some r2 /\ near m0 (20 / 9) r0 r1 /\ r2 = [Some 6; Some (190 / 27); Some (226 / 27); Some (242 / 27); None]%R.
Proof. exact ex_C109_case. Qed.

(** Initial pressure 6, an injecting well. *)
Example C109_buildup_case : exists g f unit dt l1 ob l2 st m0 m s r1,
  simulated g f unit (Some 6%R) dt l1 ob l2 st m0 m s /\ (exists x y z u dx dy dz, model m0 x y z u dx dy dz) /\ flat m0 /\ b_cmp m0 = true /\ Forall (path true) st /\
  drawn_at_least 6 (prepared m0 l1 ob l2) /\ nth_error (s_p s) 1 = Some r1 /\ r1 = [Some 6; Some (55 / 9); Some (58 / 9); Some (56 / 9); None]%R.
Proof. exact ex_C109_buildup_case. Qed.

(** Without compressibility: two steps at pressures 7, 9, 11. *)
Example C108_repeat_case : exists g f unit dt l1 ob l2 st m0 m s r r',
  simulated g f unit (Some 10%R) dt l1 ob l2 st m0 m s /\ (exists x y z u dx dy dz, model m0 x y z u dx dy dz) /\ b_cmp m0 = false /\ Forall (path true) st /\
  (let p := prepared m0 l1 ob l2 in anchored p /\ conditioned p /\ operated p) /\ nth_error (s_p s) 1 = Some r /\ nth_error (s_p s) 2 = Some r' /\ r = [Some 6; Some 7; Some 9; Some 11; None]%R.
Proof. exact ex_C108_repeat_case. Qed.
