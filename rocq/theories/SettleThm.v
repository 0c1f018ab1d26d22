(** Pressures settle. *)
From Coq Require Import String ZArith Bool Arith List Lia Reals Lra.
From Verif Require Import Prelude PreludeFacts Num GridModel GridSpec GeoModel GeoSpec PropModel PropSpec
  PropProofs UnitsModel BlackOilModel FdmModel MonadFacts HistSpec InvFacts AsmFacts ModelSpec ModelFacts VectFacts AssemblyThm Samples SampleFacts SampleWell SampleBal SolverSpec SolveSpec StepSpec StepFacts WellStepFacts
  BalanceSpec FdmSpec BalFacts CanonFacts StepBal SetupFacts BalanceThm ClosedSpec ClosedThm LocalSpec LocalThm SampleLocal TotalSpec TotalHist ChangeSpec ChangeFacts ChangeThm CompareSpec CompareFacts SampleCompare CompareThm SuperSpec SuperFacts SampleSuper RecipSpec RecipFacts EvolveSpec EvolveFacts SettleSpec SettleFacts.
Import ListNotations.
Close Scope R_scope.
Open Scope nat_scope.

(** C118: a compressible reservoir where a pressure is held forgets how it began. There
    is a factor below 1, which depends on the reservoir, the controls and the path only,
    such that two simulations under these controls, from two initial pressures, differ
    after [k] steps by at most the [k]-th power of the factor times what they differed
    by at first. *)
Lemma L_C118_forgets :
  forall (g : gobj R) f unit pi dt l1 ob l2 st m0 m s x y z u dx dy dz v,
  simulated g f unit pi dt l1 ob l2 st m0 m s -> model m0 x y z u dx dy dz -> b_cmp m0 = true ->
  let p0 := prepared m0 l1 ob l2 in anchored p0 -> conditioned p0 -> operated p0 ->
  exists rho, (0 <= rho < 1)%R /\
    forall pi1 pi2 l1' ob' l2' l1'' ob'' l2'' st1 st2 m1 m2 ma mb s1 s2 k r1 r2,
    simulated g f unit (Some pi1) dt l1' ob' l2' st1 m1 ma s1 -> simulated g f unit (Some pi2) dt l1'' ob'' l2'' st2 m2 mb s2 ->
    Forall (path v) st1 -> Forall2 same_path st1 st2 -> same_controls p0 (prepared m1 l1' ob' l2') -> same_controls (prepared m1 l1' ob' l2') (prepared m2 l1'' ob'' l2'') ->
    nth_error (s_p s1) k = Some r1 -> nth_error (s_p s2) k = Some r2 -> near m0 (rho ^ k * Rabs (pi1 - pi2)) r1 r2.
Proof.
  intros g f unit pi dt l1 ob l2 st m0 m s x y z u dx dy dz v S0 K Cm p0 An Cn Op.
  destruct (sim_start _ _ _ _ _ _ _ _ _ _ _ _ _ _ _ _ _ _ _ S0 K) as (C0 & R0 & _). fold p0 in C0, R0.
  destruct (model_shrinks m0 x y z u dx dy dz K p0 C0 (fdm_new p0) R0 Op v Cm An) as (rho & Hr & H). exists rho. split; auto.
  intros pi1 pi2 l1' ob' l2' l1'' ob'' l2'' st1 st2 m1 m2 ma mb s1 s2 k r1 r2 S1 S2 F Sp Sc1 Sc2 N1 N2.
  assert (C1 : core m0 = core m1) by (eapply core_new; [apply S0|apply S1]). pose proof (model_core _ _ _ _ _ _ _ _ _ C1 K) as K1. assert (C2 : core m0 = core m2) by (eapply core_new; [apply S0|apply S2]). pose proof (model_core _ _ _ _ _ _ _ _ _ C2 K) as K2.
  destruct (sim_start _ _ _ _ _ _ _ _ _ _ _ _ _ _ _ _ _ _ _ S1 K1) as (D1 & R1 & A1 & L1 & E1 & I1 & U1). destruct (sim_start _ _ _ _ _ _ _ _ _ _ _ _ _ _ _ _ _ _ _ S2 K2) as (D2 & R2 & A2 & L2 & E2 & I2 & U2).
  set (p1 := prepared m1 l1' ob' l2') in *. set (p2 := prepared m2 l1'' ob'' l2'') in *.
  assert (Ad : rates_added (fun _ => 0%R) p1 p2).
  { apply (no_rates p1 p2 x y z u dx dy dz (fdm_new p1)); auto; [exact (model_core _ _ _ _ _ _ _ _ _ (eq_sym D1) K1)|apply core_flow; congruence|now apply (conditioned_kept p0)|now apply (operated_kept p0)]. }
  destruct (added_history m0 x y z u dx dy dz K (fun _ => 0%R) v (kap m0 p0) st1 st2 Sp F p1 (fdm_new p1) p2 (fdm_new p2) ma s1 mb s2) as (P1 & P2 & Q1 & Q2 & Ch); auto; try congruence.
  { intros q. now apply kap_kept. }
  rewrite I1 in Q1, Ch. rewrite I2 in Q2, Ch. cbn [app last] in Q1, Q2, Ch. rewrite Q1 in N1. rewrite Q2 in N2.
  apply (chain_shrink m0 v (kap m0 p0) rho (proj1 Hr) H P1 P2 (b_ip p1) (b_ip p2) (Rabs (pi1 - pi2))); auto using Rabs_pos.
  destruct (core_fields _ _ C1) as (_ & J1 & _). destruct (core_fields _ _ C2) as (_ & J2 & _).
  intros id I. exists pi1, pi2. split; [apply (U1 pi1 eq_refl); now rewrite <- J1|]. split; [apply (U2 pi2 eq_refl); now rewrite <- J2|]. lra.
Qed.
(** C118: so after enough steps the initial pressure is not seen any more, whatever the
    accuracy asked for: the number of steps does not depend on the simulations. *)
Lemma L_C118_eventually :
  forall (g : gobj R) f unit pi dt l1 ob l2 st m0 m s x y z u dx dy dz v,
  simulated g f unit pi dt l1 ob l2 st m0 m s -> model m0 x y z u dx dy dz -> b_cmp m0 = true ->
  let p0 := prepared m0 l1 ob l2 in anchored p0 -> conditioned p0 -> operated p0 ->
  forall far eps, (0 < eps)%R -> exists enough,
    forall pi1 pi2 l1' ob' l2' l1'' ob'' l2'' st1 st2 m1 m2 ma mb s1 s2 k r1 r2, (Rabs (pi1 - pi2) <= far)%R -> enough <= k ->
    simulated g f unit (Some pi1) dt l1' ob' l2' st1 m1 ma s1 -> simulated g f unit (Some pi2) dt l1'' ob'' l2'' st2 m2 mb s2 ->
    Forall (path v) st1 -> Forall2 same_path st1 st2 -> same_controls p0 (prepared m1 l1' ob' l2') -> same_controls (prepared m1 l1' ob' l2') (prepared m2 l1'' ob'' l2'') ->
    nth_error (s_p s1) k = Some r1 -> nth_error (s_p s2) k = Some r2 -> near m0 eps r1 r2.
Proof.
  intros g f unit pi dt l1 ob l2 st m0 m s x y z u dx dy dz v S0 K Cm p0 An Cn Op far eps He.
  destruct (L_C118_forgets g f unit pi dt l1 ob l2 st m0 m s x y z u dx dy dz v S0 K Cm An Cn Op) as (rho & Hr & H).
  set (b := (Rabs far + 1)%R). assert (Hb : (0 < b)%R) by (unfold b; pose proof (Rabs_pos far); lra).
  destruct (pow_lt_1_zero rho ltac:(rewrite Rabs_pos_eq; lra) (eps / b)%R ltac:(apply Rdiv_lt_0_compat; lra)) as (enough & He').
  exists enough. intros pi1 pi2 l1' ob' l2' l1'' ob'' l2'' st1 st2 m1 m2 ma mb s1 s2 k r1 r2 Hf Hk S1 S2 F Sp Sc1 Sc2 N1 N2.
  apply (near_more m0 (rho ^ k * Rabs (pi1 - pi2))); [|eapply H; eauto]. specialize (He' k Hk). rewrite Rabs_pos_eq in He' by (apply pow_le; lra).
  assert (L1 : (rho ^ k * b < eps)%R). { apply (Rmult_lt_compat_r b) in He'; auto. replace (eps / b * b)%R with eps in He' by (field; lra). exact He'. }
  assert (L2 : (Rabs (pi1 - pi2) <= b)%R) by (unfold b; pose proof (Rle_abs far); lra).
  apply Rle_trans with (rho ^ k * b)%R; [|lra]. apply Rmult_le_compat_l; auto. apply pow_le; lra.
Qed.
(** C118: and its pressures settle. If the first step of a simulation under these controls
    changes no pressure by more than [d], then from step [k] on the pressures stay within
    the [k]-th power of the factor times [d / (1 - rho)]. *)
Lemma L_C118_settles :
  forall (g : gobj R) f unit pi dt l1 ob l2 st m0 m s x y z u dx dy dz v,
  simulated g f unit pi dt l1 ob l2 st m0 m s -> model m0 x y z u dx dy dz -> b_cmp m0 = true ->
  let p0 := prepared m0 l1 ob l2 in anchored p0 -> conditioned p0 -> operated p0 ->
  exists rho, (0 <= rho < 1)%R /\
    forall pi1 l1' ob' l2' st1 m1 ma s1 d r0 r1,
    simulated g f unit pi1 dt l1' ob' l2' st1 m1 ma s1 -> Forall (path v) st1 -> same_controls p0 (prepared m1 l1' ob' l2') ->
    nth_error (s_p s1) 0 = Some r0 -> nth_error (s_p s1) 1 = Some r1 -> (0 <= d)%R -> near m0 d r0 r1 ->
    forall k n r r', k <= n -> nth_error (s_p s1) k = Some r -> nth_error (s_p s1) n = Some r' -> near m0 (rho ^ k * d / (1 - rho)) r r'.
Proof.
  intros g f unit pi dt l1 ob l2 st m0 m s x y z u dx dy dz v S0 K Cm p0 An Cn Op.
  destruct (sim_start _ _ _ _ _ _ _ _ _ _ _ _ _ _ _ _ _ _ _ S0 K) as (C0 & R0 & _). fold p0 in C0, R0.
  destruct (model_shrinks m0 x y z u dx dy dz K p0 C0 (fdm_new p0) R0 Op v Cm An) as (rho & Hr & H). exists rho. split; auto.
  intros pi1 l1' ob' l2' st1 m1 ma s1 d r0 r1 S1 F Sc1 N0 N1 D0 Nr k n r r' Le Nk Nn.
  assert (C1 : core m0 = core m1) by (eapply core_new; [apply S0|apply S1]). pose proof (model_core _ _ _ _ _ _ _ _ _ C1 K) as K1.
  destruct (sim_start _ _ _ _ _ _ _ _ _ _ _ _ _ _ _ _ _ _ _ S1 K1) as (D1 & R1 & A1 & L1 & E1 & I1 & U1). set (p1 := prepared m1 l1' ob' l2') in *.
  destruct (single_from m0 x y z u dx dy dz K v (kap m0 p0) st1 p1 (fdm_new p1) ma s1 (b_ip p1)) as (P & Q & Tr); auto; try congruence.
  { now apply (conditioned_kept p0). }
  { now apply (operated_kept p0). }
  { intros q. now apply kap_kept. }
  rewrite Q in N0, N1, Nk, Nn. injection N0 as E0. rewrite E0 in *. destruct P as [|b P]; [discriminate|]. injection N1 as ->. destruct Tr as (_ & Tr).
  apply (shrinking_tail m0 rho Hr (r1 :: P) r0 d k n r r'); auto; [|apply (near_valued _ _ _ _ Nr)]. exact (triples_shrink m0 v (kap m0 p0) rho (proj1 Hr) H P r0 r1 d D0 Nr Tr).
Qed.
(** C118: and they settle at the pressures of the same reservoir with a fluid that is not
    compressible: of these the simulation is after [k] steps no further away than the
    [k]-th power of the factor times the distance at first. Neither the time step nor the
    initial pressure nor the units of the incompressible simulation matter. *)
Lemma L_C118_towards :
  forall (g : gobj R) f unit pi dt l1 ob l2 st m0 m s x y z u dx dy dz v,
  simulated g f unit pi dt l1 ob l2 st m0 m s -> model m0 x y z u dx dy dz -> b_cmp m0 = true ->
  let p0 := prepared m0 l1 ob l2 in anchored p0 -> conditioned p0 -> operated p0 ->
  exists rho, (0 <= rho < 1)%R /\
    forall f' unit' dt' pi1 pi2 l1' ob' l2' l1'' ob'' l2'' st1 st2 m1 m2 ma mb s1 s2 d r0 j rs,
    but_comp f f' -> simulated g f unit pi1 dt l1' ob' l2' st1 m1 ma s1 -> simulated g f' unit' pi2 dt' l1'' ob'' l2'' st2 m2 mb s2 ->
    model m2 x y z u dx dy dz -> b_cmp m2 = false -> Forall (path v) st1 -> Forall (path v) st2 ->
    same_controls p0 (prepared m1 l1' ob' l2') -> same_controls (prepared m1 l1' ob' l2') (prepared m2 l1'' ob'' l2'') ->
    nth_error (s_p s2) (S j) = Some rs -> nth_error (s_p s1) 0 = Some r0 -> (0 <= d)%R -> near m0 d rs r0 ->
    forall k r, nth_error (s_p s1) k = Some r -> near m0 (rho ^ k * d) rs r.
Proof.
  intros g f unit pi dt l1 ob l2 st m0 m s x y z u dx dy dz v S0 K Cm p0 An Cn Op.
  destruct (sim_start _ _ _ _ _ _ _ _ _ _ _ _ _ _ _ _ _ _ _ S0 K) as (C0 & R0 & _). fold p0 in C0, R0.
  destruct (model_shrinks m0 x y z u dx dy dz K p0 C0 (fdm_new p0) R0 Op v Cm An) as (rho & Hr & H). exists rho. split; auto.
  intros f' unit' dt' pi1 pi2 l1' ob' l2' l1'' ob'' l2'' st1 st2 m1 m2 ma mb s1 s2 d r0 j rs Bc S1 S2 K2 C2 F1 F2 Sc1 Sc2 Ns N0 D0 Nr k r Nk.
  assert (C1 : core m0 = core m1) by (eapply core_new; [apply S0|apply S1]). pose proof (model_core _ _ _ _ _ _ _ _ _ C1 K) as K1.
  assert (Sf : same_flow m0 m2) by (eapply flow_new; [exact Bc|apply S0|apply S2]).
  destruct (sim_start _ _ _ _ _ _ _ _ _ _ _ _ _ _ _ _ _ _ _ S1 K1) as (D1 & R1 & A1 & L1 & E1 & I1 & U1). destruct (sim_start _ _ _ _ _ _ _ _ _ _ _ _ _ _ _ _ _ _ _ S2 K2) as (D2 & R2 & A2 & L2 & E2 & I2 & U2).
  set (p1 := prepared m1 l1' ob' l2') in *. set (p2 := prepared m2 l1'' ob'' l2'') in *.
  destruct (row_stepped m2 x y z u dx dy dz K2 v st2 p2 (fdm_new p2) mb s2 D2 R2 F2 A2 L2 E2 j rs) as (mas & mbs & sas & sbs & rr & Ss & Sc3); [rewrite I2; exact Ns|].
  assert (Sc : same_controls p1 mbs) by (eapply same_controls_trans; eauto). assert (Cs := sp_cb _ _ _ _ _ _ _ _ Ss).
  assert (Ad : rates_added (fun _ => 0%R) p1 mbs).
  { apply (no_rates p1 mbs x y z u dx dy dz (fdm_new p1)); auto; [exact (model_core _ _ _ _ _ _ _ _ _ (eq_sym D1) K1)| |now apply (conditioned_kept p0)|now apply (operated_kept p0)].
    pose proof (core_flow _ _ (eq_trans D1 (eq_sym C1))) as Q1. pose proof (core_flow _ _ Cs) as Q2. unfold same_flow in *. destruct Sf as (-> & -> & -> & -> & ->) in Q2. destruct Q1 as (-> & -> & -> & -> & ->). exact Q2. }
  destruct (towards_history m0 m2 x y z u dx dy dz K K2 Sf C2 v (kap m0 p0) mas mbs sas sbs rs rr Ss st1 F1 p1 (fdm_new p1) ma s1) as (P & Q & Lk); auto; try congruence.
  { intros q. now apply kap_kept. }
  rewrite I1 in Q, Lk. cbn [app last] in Q, Lk. rewrite Q in N0, Nk. injection N0 as E0. rewrite E0 in *.
  apply (towards_shrink m0 v (kap m0 p0) rs rho (proj1 Hr) (proj1 (near_valued _ _ _ _ Nr)) H P r0 d D0 Nr Lk k r Nk).
Qed.
(** C118: initial pressures 6 and 10, the left side held at 6; after one step the
    pressures differ by at most 8/9 of the 4 they differed by at first. *)
Example ex_C118_case : exists g f unit dt l1 ob l2 st1 st2 m1 m2 ma mb s1 s2 r0 r1 r2,
  simulated g f unit (Some 6%R) dt l1 ob l2 st1 m1 ma s1 /\ simulated g f unit (Some 10%R) dt l1 ob l2 st2 m2 mb s2 /\
  (exists x y z u dx dy dz, model m1 x y z u dx dy dz) /\ b_cmp m1 = true /\ ~ three_d (gr (geom (b_grid m1))) /\ Forall (path true) st1 /\ Forall (path true) st2 /\ Forall2 same_path st1 st2 /\
  (let p1 := prepared m1 l1 ob l2 in let p2 := prepared m2 l1 ob l2 in same_controls p1 p2 /\ same_controls p1 p1 /\ anchored p1 /\ conditioned p1 /\ operated p1) /\
  nth_error (s_p s1) 1 = Some r1 /\ nth_error (s_p s2) 0 = Some r0 /\ nth_error (s_p s2) 1 = Some r2 /\ near m1 (20 / 9) r0 r2 /\ near m1 (8 / 9 * Rabs (6 - 10)) r1 r2.
Proof.
  destruct line3_made as (g & f & unit & dt & Hn). destruct (bare_run 6 6 6 6) as (p1 & ma & s1 & S1 & P1 & W1 & B1 & R1); try lra. destruct (bare_run 10 (70 / 9) (82 / 9) (86 / 9)) as (p2 & mb & s2 & S2 & P2 & W2 & B2 & R2); try lra.
  assert (K2 : model (line3 (1 + 0) true (Some 10%R)) 3 1 1 true (Scalar 1%R) (Scalar 1%R) (Scalar 1%R)) by (apply line3_model; intros; lra).
  assert (S2' : simulated g f unit (Some 10%R) dt [] (Some (sides 0)) [] [reply (70 / 9) (82 / 9) (86 / 9)] (line3 (1 + 0) true (Some 10%R)) mb s2) by (split; [apply Hn|exact S2]).
  destruct (sim_start _ _ _ _ _ _ _ _ _ _ _ _ _ _ _ _ _ _ _ S2' K2) as (Cp0 & Rd & A & L & E & I0 & U).
  destruct (rows_grow _ _ _ _ _ _ _ _ K2 _ _ _ _ _ Cp0 Rd A L E) as (P & EP). rewrite I0 in EP.
  exists g, f, unit, dt, [], (Some (sides 0)), [], [reply 6 6 6], [reply (70 / 9) (82 / 9) (86 / 9)], (line3 (1 + 0) true (Some 6%R)), (line3 (1 + 0) true (Some 10%R)), ma, mb, s1, s2. do 3 eexists.
  split; [split; [apply Hn|exact S1]|]. split; [exact S2'|]. split; [do 7 eexists; apply line3_model; intros; lra|]. split; [reflexivity|]. split; [intros (_ & F & _); unfold flows in F; cbn in F; lia|]. do 3 (split; [repeat constructor|]).
  cbv zeta. rewrite P1, P2. split; [split; [|split; [|split; [|split]]]|].
  - split; [congruence|]. rewrite W1, W2. split; [auto|]. cbn. discriminate.
  - split; [reflexivity|]. rewrite W1. split; [auto|]. cbn. discriminate.
  - right. exists 0%Z, 6%R. rewrite B1. now left.
  - now apply (sides_conditioned _ 0).
  - intros id w. rewrite W1. discriminate.
  - split; [exact R1|]. split; [rewrite EP; reflexivity|]. split; [exact R2|]. split.
    + intros id I. pose proof (U 10%R eq_refl id I) as V. cbn in I. destruct I as [<-|[<-|[<-|[]]]]; do 2 eexists; (split; [exact V|split; [reflexivity|apply Rabs_le; lra]]).
    + intros id I. cbn in I. assert (Rabs (6 - 10) = 4)%R by (rewrite Rabs_left; lra). destruct I as [<-|[<-|[<-|[]]]]; do 2 eexists; (split; [reflexivity|split; [reflexivity|apply Rabs_le; lra]]).
Qed.
Lemma fluid_made c : (0 <= c)%R -> exists f, fluid_new (Some 1%R) (Some 1%R) None (Some c) "metric" = Ok f /\ f_mu f = Some 1%R /\ f_B f = Some 1%R /\ f_g f = f_g (match fluid_new (Some 1%R) (Some 1%R) None (Some 0%R) "metric" with Ok f => f | Err _ => f end).
Proof.
  intros Hc. assert (Q0 : Reqb 0 0 = true) by now apply Reqb_eq. assert (Q1 : c = 0%R \/ Reqb c 0 = false /\ Rltb 0 c = true).
  { destruct (Req_dec c 0); auto. right. split; [apply Reqb_ne; auto|apply PropProofs.Rltb_true; lra]. }
  unfold fluid_new, fset_props, fset_comp, cset. cbn -[IZR]. rewrite Q0. destruct Q1 as [->|(Q1 & Q2)]; [rewrite Q0|rewrite Q1, Q2]; cbn -[IZR]; eexists; (split; [reflexivity|]); cbn -[IZR]; auto.
Qed.
Lemma line3_both : exists g f f' unit dt, but_comp f f' /\ (forall p, bo_new g f unit (Some p) dt = Ok (line3 (1 + 0) true (Some p))) /\ (forall p, bo_new g f' unit (Some p) dt = Ok (line3 0 false (Some p))).
Proof.
  destruct (fluid_made 1 ltac:(lra)) as (f & Ef & F1 & F2 & F3). destruct (fluid_made 0 ltac:(lra)) as (f' & Ef' & G1 & G2 & G3). rewrite Ef' in F3.
  pose proof (fun p => line3_pos 1 (Some p) ltac:(lra)) as H1. pose proof (fun p => line3_zero (Some p)) as H2. unfold build in H1, H2.
  destruct (gobj_new _ _ _ _ _ _ _ _ _ _ _ _ _ _) as [g|] eqn:Eg; [|specialize (H2 1%R); discriminate]. cbn [rbind] in H1, H2. change n1 with 1%R in H1, H2. rewrite Ef in H1. rewrite Ef' in H2. cbn [rbind] in H1, H2.
  exists g, f, f', "metric"%string, 1%R. split; [|split; assumption]. unfold but_comp. repeat split; congruence.
Qed.
(** C118: initial pressure 10, the left side held at 6: the pressures go to 6, those of an
    incompressible fluid. *)
Example ex_C118_towards_case : exists g f f' unit dt l1 ob l2 st1 st2 m1 m2 ma mb s1 s2 r0 r1 rs,
  simulated g f unit (Some 10%R) dt l1 ob l2 st1 m1 ma s1 /\ simulated g f' unit (Some 3%R) dt l1 ob l2 st2 m2 mb s2 /\ but_comp f f' /\
  (exists x y z u dx dy dz, model m1 x y z u dx dy dz /\ model m2 x y z u dx dy dz) /\ b_cmp m1 = true /\ b_cmp m2 = false /\ Forall (path true) st1 /\ Forall (path true) st2 /\
  (let p1 := prepared m1 l1 ob l2 in let p2 := prepared m2 l1 ob l2 in same_controls p1 p1 /\ same_controls p1 p2 /\ anchored p1 /\ conditioned p1 /\ operated p1) /\
  nth_error (s_p s2) 1 = Some rs /\ nth_error (s_p s1) 0 = Some r0 /\ nth_error (s_p s1) 1 = Some r1 /\ near m1 4 rs r0 /\ near m1 (8 / 9 * 4) rs r1 /\ rs = [Some 6; Some 6; Some 6; Some 6; None]%R.
Proof.
  destruct line3_both as (g & f & f' & unit & dt & Bc & Hn & Hn'). destruct (steady_any 3 0 6 6 6) as (p2 & mb & s2 & S2 & P2 & W2 & B2 & R2); try lra. destruct (bare_run 10 (70 / 9) (82 / 9) (86 / 9)) as (p1 & ma & s1 & S1 & P1 & W1 & B1 & R1); try lra.
  assert (K1 : model (line3 (1 + 0) true (Some 10%R)) 3 1 1 true (Scalar 1%R) (Scalar 1%R) (Scalar 1%R)) by (apply line3_model; intros; lra).
  assert (S1' : simulated g f unit (Some 10%R) dt [] (Some (sides 0)) [] [reply (70 / 9) (82 / 9) (86 / 9)] (line3 (1 + 0) true (Some 10%R)) ma s1) by (split; [apply Hn|exact S1]).
  destruct (sim_start _ _ _ _ _ _ _ _ _ _ _ _ _ _ _ _ _ _ _ S1' K1) as (Cp0 & Rd & A & L & E & I0 & U).
  destruct (rows_grow _ _ _ _ _ _ _ _ K1 _ _ _ _ _ Cp0 Rd A L E) as (P & EP). rewrite I0 in EP.
  exists g, f, f', unit, dt, [], (Some (sides 0)), [], [reply (70 / 9) (82 / 9) (86 / 9)], [reply 6 6 6], (line3 (1 + 0) true (Some 10%R)), (line3 0 false (Some 3%R)), ma, mb, s1, s2. do 3 eexists.
  split; [exact S1'|]. split; [split; [apply Hn'|exact S2]|]. split; [exact Bc|]. split; [do 7 eexists; split; [exact K1|apply line3_model; discriminate]|]. do 2 (split; [reflexivity|]). do 2 (split; [repeat constructor|]).
  cbv zeta. rewrite P1, P2. split; [split; [|split; [|split; [|split]]]|].
  - split; [reflexivity|]. rewrite W1. split; [auto|]. cbn. discriminate.
  - split; [congruence|]. rewrite W1, W2. split; [auto|]. cbn. discriminate.
  - right. exists 0%Z, 6%R. rewrite B1. now left.
  - now apply (sides_conditioned _ 0).
  - intros id w. rewrite W1. discriminate.
  - split; [exact R2|]. split; [rewrite EP; reflexivity|]. split; [exact R1|]. split; [|split; [|reflexivity]].
    + intros id I. pose proof (U 10%R eq_refl id I) as V. cbn in I. destruct I as [<-|[<-|[<-|[]]]]; do 2 eexists; (split; [reflexivity|split; [exact V|apply Rabs_le; lra]]).
    + intros id I. cbn in I. destruct I as [<-|[<-|[<-|[]]]]; do 2 eexists; (split; [reflexivity|split; [reflexivity|apply Rabs_le; lra]]).
Qed.
