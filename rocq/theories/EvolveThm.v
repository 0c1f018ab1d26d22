(** How pressures evolve from step to step under controls that do not change. *)
From Coq Require Import String ZArith Bool Arith List Lia Reals Lra.
From Verif Require Import Prelude PreludeFacts Num GridModel GridSpec GeoModel GeoSpec PropModel PropSpec
  UnitsModel BlackOilModel FdmModel MonadFacts HistSpec InvFacts AsmFacts ModelSpec ModelFacts VectFacts AssemblyThm Samples SampleFacts SampleWell SampleBal SolverSpec SolveSpec StepSpec StepFacts WellStepFacts
  BalanceSpec FdmSpec BalFacts CanonFacts StepBal SetupFacts BalanceThm ClosedSpec ClosedThm LocalSpec LocalThm SampleLocal TotalSpec TotalHist ChangeSpec ChangeFacts ChangeThm CompareSpec CompareFacts SampleCompare CompareThm EvolveSpec EvolveFacts.
Import ListNotations.
Close Scope R_scope.
Open Scope nat_scope.

Lemma sim_evolve up v c (g : gobj R) f unit pi dt l1 ob l2 st m0 m s x y z u dx dy dz :
  simulated g f unit pi dt l1 ob l2 st m0 m s -> model m0 x y z u dx dy dz -> Forall (path v) st ->
  let p := prepared m0 l1 ob l2 in conditioned p -> operated p -> (c <= 0)%R \/ rates_only p ->
  (forall r0 r1, nth_error (s_p s) 0 = Some r0 -> nth_error (s_p s) 1 = Some r1 -> b_cmp m0 = true /\ ordered m0 up c r0 r1 \/ b_cmp m0 = false /\ anchored p) ->
  forall k r r', nth_error (s_p s) (S k) = Some r -> nth_error (s_p s) (S (S k)) = Some r' -> ordered m0 up c r r'.
Proof.
  intros Sm K F p Cn Op Hr H0 k r r' N1 N2. destruct (sim_start _ _ _ _ _ _ _ _ _ _ _ _ _ _ _ _ _ _ _ Sm K) as (C & R & A & L & E & I & _). fold p in C, R, A, L, E, I.
  destruct (rows_grow m0 x y z u dx dy dz K st p (fdm_new p) m s C R A L E) as (P0 & EP0).
  destruct (evolve_from m0 x y z u dx dy dz K up v c st p (fdm_new p) m s) as (P & EP & Lk); auto.
  - rewrite I. cbn [length last]. intros n Hn. apply H0; auto. rewrite EP0, I. reflexivity.
  - rewrite EP, I in N1, N2. cbn [app nth_error] in N1, N2. destruct P as [|n P]; [destruct k; discriminate|]. exact (linked_nth _ P n k r r' Lk N1 N2).
Qed.
(** C108: changes die away. In a compressible reservoir under controls that stay, no
    cell's pressure ever changes by more in a step than some cell's did in the first. *)
Lemma L_C108_changes_shrink :
  forall (g : gobj R) f unit pi dt l1 ob l2 st m0 m s x y z u dx dy dz v d r0 r1,
  simulated g f unit pi dt l1 ob l2 st m0 m s -> model m0 x y z u dx dy dz -> b_cmp m0 = true -> Forall (path v) st ->
  let p := prepared m0 l1 ob l2 in conditioned p -> operated p ->
  nth_error (s_p s) 0 = Some r0 -> nth_error (s_p s) 1 = Some r1 -> near m0 d r0 r1 -> consecutive (near m0 d) (s_p s).
Proof.
  intros g f unit pi dt l1 ob l2 st m0 m s x y z u dx dy dz v d r0 r1 Sm K Cm F p Cn Op N0 N1 Nr k r r' M1 M2.
  destruct k as [|k]; [rewrite N0 in M1; rewrite N1 in M2; injection M1 as <-; injection M2 as <-; exact Nr|].
  assert (Hd : b_ids m0 = [] \/ (- d <= 0)%R).
  { destruct (b_ids m0) as [|i l] eqn:Ei; [now left|right]. destruct (Nr i) as (v1 & v2 & _ & _ & Q); [rewrite Ei; now left|]. pose proof (Rabs_pos (v1 - v2)). lra. }
  destruct Hd as [Hd|Hd]; [intros id I; rewrite Hd in I; destruct I|].
  assert (O : forall up, ordered m0 up (- d) r r').
  { intros up. eapply (sim_evolve up v (- d)); eauto. intros q0 q1 E0 E1. left. split; auto. rewrite N0 in E0. rewrite N1 in E1. injection E0 as <-. injection E1 as <-.
    destruct up; intros id I; destruct (Nr id I) as (v1 & v2 & V1 & V2 & Q); [exists v1, v2|exists v2, v1]; repeat (split; [assumption|]); pose proof (Rle_abs (v1 - v2)); pose proof (Rle_abs (- (v1 - v2))) as Q'; rewrite Rabs_Ropp in Q'; lra. }
  intros id I. destruct (O true id I) as (v1 & v2 & V1 & V2 & Q). destruct (O false id I) as (v2' & v1' & V2' & V1' & Q'). rewrite V1 in V1'. rewrite V2 in V2'. injection V1' as <-. injection V2' as <-.
  exists v1, v2. repeat (split; [assumption|]). apply Rabs_le. lra.
Qed.
(** C108: without compressibility and with a pressure held somewhere every step repeats
    the first. *)
Lemma L_C108_steps_repeat :
  forall (g : gobj R) f unit pi dt l1 ob l2 st m0 m s x y z u dx dy dz v k r r',
  simulated g f unit pi dt l1 ob l2 st m0 m s -> model m0 x y z u dx dy dz -> b_cmp m0 = false -> Forall (path v) st ->
  let p := prepared m0 l1 ob l2 in anchored p -> conditioned p -> operated p ->
  nth_error (s_p s) (S k) = Some r -> nth_error (s_p s) (S (S k)) = Some r' -> same_pressures m0 r r'.
Proof.
  intros g f unit pi dt l1 ob l2 st m0 m s x y z u dx dy dz v k r r' Sm K Cm F p An Cn Op M1 M2.
  assert (O : forall up, ordered m0 up 0 r r') by (intros up; eapply (sim_evolve up v 0); eauto; left; lra).
  intros id I. destruct (O true id I) as (v1 & v2 & V1 & V2 & Q). destruct (O false id I) as (v2' & v1' & V2' & V1' & Q'). rewrite V1 in V1'. rewrite V2 in V2'. injection V1' as <-. injection V2' as <-.
  exists v1. split; auto. rewrite V2. f_equal. lra.
Qed.
Lemma pushed_known M m : pushed_at_most M m -> conditioned m /\ operated m.
Proof.
  intros (H1 & H2). split.
  - intros [idb e] I. destruct (H2 idb e I) as [(Q & _)|(r & [(Q & _)|(Q & _)] & _)]; auto.
  - intros id w E. destruct (H1 id w E) as [(q & A & _)|(G & p & A & L & _)]; eauto 6.
Qed.
Lemma drawn_known M m : drawn_at_least M m -> conditioned m /\ operated m.
Proof.
  intros (H1 & H2). split.
  - intros [idb e] I. destruct (H2 idb e I) as [(Q & _)|(r & [(Q & _)|(Q & _)] & _)]; auto.
  - intros id w E. destruct (H1 id w E) as [(q & A & _)|(G & p & A & L & _)]; eauto 6.
Qed.
(** C109: drawdown. In a flat compressible reservoir that nothing pushes above its
    initial pressure, no cell's pressure ever rises. *)
Lemma L_C109_drawdown :
  forall (g : gobj R) f unit pi dt l1 ob l2 st m0 m s x y z u dx dy dz v,
  simulated g f unit (Some pi) dt l1 ob l2 st m0 m s -> model m0 x y z u dx dy dz -> flat m0 -> b_cmp m0 = true -> Forall (path v) st ->
  pushed_at_most pi (prepared m0 l1 ob l2) -> consecutive (fun r r' => below m0 0 r' r) (s_p s).
Proof.
  intros g f unit pi dt l1 ob l2 st m0 m s x y z u dx dy dz v Sm K Ft Cm F B k r r' M1 M2. destruct (pushed_known _ _ B) as (Cn & Op).
  destruct (sim_start _ _ _ _ _ _ _ _ _ _ _ _ _ _ _ _ _ _ _ Sm K) as (C & R & A & L & E & I & U). destruct (rows_grow m0 x y z u dx dy dz K st _ _ m s C R A L E) as (P0 & EP0).
  assert (H0 : forall r0 r1, nth_error (s_p s) 0 = Some r0 -> nth_error (s_p s) 1 = Some r1 -> below m0 0 r1 r0).
  { intros r0 r1 E0 E1. pose proof (L_C107_upper_bound _ _ _ _ _ _ _ _ _ _ _ _ _ _ _ _ _ _ _ pi 1 r1 Sm K Ft Cm B (Rle_refl _) E1) as Q. rewrite EP0, I in E0. injection E0 as <-.
    intros id Iid. destruct (Q id Iid) as (v1 & V1 & Le). exists v1, pi. split; auto. split; [now apply (U pi)|lra]. }
  destruct k as [|k]; [now apply H0|]. change (ordered m0 false 0 r r'). eapply (sim_evolve false v 0); eauto; [left; lra|]. intros r0 r1 E0 E1. left. split; auto. now apply H0.
Qed.
(** C109: buildup, the other way. *)
Lemma L_C109_buildup :
  forall (g : gobj R) f unit pi dt l1 ob l2 st m0 m s x y z u dx dy dz v,
  simulated g f unit (Some pi) dt l1 ob l2 st m0 m s -> model m0 x y z u dx dy dz -> flat m0 -> b_cmp m0 = true -> Forall (path v) st ->
  drawn_at_least pi (prepared m0 l1 ob l2) -> consecutive (below m0 0) (s_p s).
Proof.
  intros g f unit pi dt l1 ob l2 st m0 m s x y z u dx dy dz v Sm K Ft Cm F B k r r' M1 M2. destruct (drawn_known _ _ B) as (Cn & Op).
  destruct (sim_start _ _ _ _ _ _ _ _ _ _ _ _ _ _ _ _ _ _ _ Sm K) as (C & R & A & L & E & I & U). destruct (rows_grow m0 x y z u dx dy dz K st _ _ m s C R A L E) as (P0 & EP0).
  assert (H0 : forall r0 r1, nth_error (s_p s) 0 = Some r0 -> nth_error (s_p s) 1 = Some r1 -> below m0 0 r0 r1).
  { intros r0 r1 E0 E1. pose proof (L_C107_lower_bound _ _ _ _ _ _ _ _ _ _ _ _ _ _ _ _ _ _ _ pi 1 r1 Sm K Ft Cm B (Rle_refl _) E1) as Q. rewrite EP0, I in E0. injection E0 as <-.
    intros id Iid. destruct (Q id Iid) as (v1 & V1 & Le). exists pi, v1. split; [now apply (U pi)|]. split; auto. lra. }
  destruct k as [|k]; [now apply H0|]. change (ordered m0 true 0 r r'). eapply (sim_evolve true v 0); eauto; [left; lra|]. intros r0 r1 E0 E1. left. split; auto. now apply H0.
Qed.

(** ** Cases *)
(** Pressure 6 on the left, nothing on the right, initial pressure 10, two steps. *)
Example ex_C109_case : exists g f unit dt l1 ob l2 st m0 m s r0 r1 r2,
  simulated g f unit (Some 10%R) dt l1 ob l2 st m0 m s /\ (exists x y z u dx dy dz, model m0 x y z u dx dy dz) /\ flat m0 /\ b_cmp m0 = true /\ Forall (path true) st /\
  (let p := prepared m0 l1 ob l2 in pushed_at_most 10 p /\ conditioned p /\ operated p) /\
  nth_error (s_p s) 0 = Some r0 /\ nth_error (s_p s) 1 = Some r1 /\ nth_error (s_p s) 2 = Some r2 /\ near m0 (20 / 9) r0 r1 /\ r2 = [Some 6; Some (190 / 27); Some (226 / 27); Some (242 / 27); None]%R.
Proof.
  destruct line3_made as (g & f & unit & dt & Hn). destruct twice_run as (p1 & m & s & S1 & P1 & W1 & B1 & R0 & R1 & R2).
  exists g, f, unit, dt, [], (Some (sides 0)), [], [reply (70 / 9) (82 / 9) (86 / 9); reply (190 / 27) (226 / 27) (242 / 27)], (line3 (1 + 0) true (Some 10%R)), m, s. do 3 eexists.
  split; [split; [apply Hn|exact S1]|]. split; [do 7 eexists; apply line3_model; intros; lra|]. split; [exists (repeat 0%R 5), 0%R; split; [reflexivity|repeat constructor]|]. split; [reflexivity|]. split; [repeat constructor|].
  cbv zeta. rewrite P1.
  assert (Pu : pushed_at_most 10 p1).
  { split; [intros id w; rewrite W1; discriminate|]. intros idb e. rewrite B1. unfold sides. intros [[= <- <-]|[[= <- <-]|[]]]; [left; cbn; split; [reflexivity|lra]|right; exists 0%R; split; [left; split; reflexivity|lra]]. }
  split; [split; [exact Pu|exact (pushed_known _ _ Pu)]|]. split; [exact R0|]. split; [exact R1|]. split; [exact R2|]. split; [|reflexivity].
  intros id. cbn. intros [<-|[<-|[<-|[]]]]; cbn; do 2 eexists; (split; [reflexivity|]); (split; [reflexivity|]); apply Rabs_le; lra.
Qed.
(** Initial pressure 6, an injecting well. *)
Example ex_C109_buildup_case : exists g f unit dt l1 ob l2 st m0 m s r1,
  simulated g f unit (Some 6%R) dt l1 ob l2 st m0 m s /\ (exists x y z u dx dy dz, model m0 x y z u dx dy dz) /\ flat m0 /\ b_cmp m0 = true /\ Forall (path true) st /\
  drawn_at_least 6 (prepared m0 l1 ob l2) /\ nth_error (s_p s) 1 = Some r1 /\ r1 = [Some 6; Some (55 / 9); Some (58 / 9); Some (56 / 9); None]%R.
Proof.
  destruct line3_made as (g & f & unit & dt & Hn). destruct (pump_run 6 1 (55 / 9) (58 / 9) (56 / 9)) as (p1 & m & s & w1 & S1 & P1 & W1 & A1 & B1 & R1); try lra.
  exists g, f, unit, dt, [], (Some (sides 0)), [pump 1], [reply (55 / 9) (58 / 9) (56 / 9)], (line3 (1 + 0) true (Some 6%R)), m, s. eexists.
  split; [split; [apply Hn|exact S1]|]. split; [do 7 eexists; apply line3_model; intros; lra|]. split; [exists (repeat 0%R 5), 0%R; split; [reflexivity|repeat constructor]|]. split; [reflexivity|]. split; [repeat constructor|].
  rewrite P1. split; [|split; [exact R1|reflexivity]]. split; [intros id w; rewrite W1; cbn; destruct (Z.eqb id 2); [|discriminate]; intros [= <-]; left; exists 1%R; split; [exact A1|lra]|].
  intros idb e. rewrite B1. unfold sides. intros [[= <- <-]|[[= <- <-]|[]]]; [left; cbn; split; [reflexivity|lra]|right; exists 0%R; split; [left; split; reflexivity|lra]].
Qed.
(** Without compressibility: two steps at pressures 7, 9, 11. *)
Example ex_C108_repeat_case : exists g f unit dt l1 ob l2 st m0 m s r r',
  simulated g f unit (Some 10%R) dt l1 ob l2 st m0 m s /\ (exists x y z u dx dy dz, model m0 x y z u dx dy dz) /\ b_cmp m0 = false /\ Forall (path true) st /\
  (let p := prepared m0 l1 ob l2 in anchored p /\ conditioned p /\ operated p) /\ nth_error (s_p s) 1 = Some r /\ nth_error (s_p s) 2 = Some r' /\ r = [Some 6; Some 7; Some 9; Some 11; None]%R.
Proof.
  destruct line3_made0 as (g & f & unit & dt & Hn). destruct (steady_run 10) as (p1 & m & s & S1 & P1 & W1 & B1 & R1 & R2).
  exists g, f, unit, dt, [], (Some (sides 2)), [], [reply 7 9 11; reply 7 9 11], (line3 0 false (Some 10%R)), m, s. do 2 eexists.
  split; [split; [apply Hn|exact S1]|]. split; [do 7 eexists; apply line3_model; discriminate|]. split; [reflexivity|]. split; [repeat constructor|].
  cbv zeta. rewrite P1. split; [split; [|split]|].
  - right. exists 0%Z, 6%R. rewrite B1. now left.
  - now apply (sides_conditioned _ 2).
  - intros id w. rewrite W1. discriminate.
  - split; [exact R1|]. split; [exact R2|]. reflexivity.
Qed.
