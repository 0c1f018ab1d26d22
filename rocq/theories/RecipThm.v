(** Reciprocity of wells. *)
From Coq Require Import String ZArith Bool Arith List Lia Reals Lra.
From Verif Require Import Prelude PreludeFacts Num GridModel GridSpec GeoModel GeoSpec PropModel PropSpec
  UnitsModel BlackOilModel FdmModel MonadFacts HistSpec InvFacts SumFacts AsmFacts ModelSpec ModelFacts VectFacts AssemblyThm Samples SampleFacts SampleWell SampleBal SolverSpec SolveSpec StepSpec StepFacts WellStepFacts
  MatrixProofs NbrFacts BalanceSpec FdmSpec BalFacts CanonFacts StepBal SetupFacts BalanceThm ClosedSpec ClosedThm LocalSpec LocalThm SampleLocal TotalSpec TotalHist ChangeSpec ChangeFacts ChangeThm CompareSpec CompareFacts SampleCompare CompareThm SuperSpec SuperFacts SampleSuper SuperThm RecipSpec RecipFacts.
Import ListNotations.
Close Scope R_scope.
Open Scope nat_scope.

Lemma sim_added (g : gobj R) f unit pi0 pi1 dt l0 ob0 l0' l1 ob1 l1' st0 st1 m0 m1 ma0 ma1 s0 s1 x y z u dx dy dz v d :
  simulated g f unit pi0 dt l0 ob0 l0' st0 m0 ma0 s0 -> simulated g f unit pi1 dt l1 ob1 l1' st1 m1 ma1 s1 ->
  model m0 x y z u dx dy dz -> Forall (path v) st0 -> Forall2 same_path st0 st1 -> rates_added d (prepared m0 l0 ob0 l0') (prepared m1 l1 ob1 l1') ->
  exists h0 h1 P0 P1, s_p s0 = h0 :: P0 /\ s_p s1 = h1 :: P1 /\ (b_cmp m0 = true -> pi0 = pi1 -> (exists p, pi0 = Some p) -> forall p, p < length (b_ids m0) -> ch (b_ids m0) h0 h1 p = 0%R) /\
  chain (fun h0 h1 n0 n1 => valued (b_ids m0) n0 /\ valued (b_ids m0) n1 /\ forall p, p < length (b_ids m0) ->
    oper (length (b_ids m0)) (Cp m0 v) (acc m0) (kap m0 (prepared m0 l0 ob0 l0')) (ch (b_ids m0) n0 n1) p = (acc m0 p * ch (b_ids m0) h0 h1 p + d (nth p (b_ids m0) 0%Z))%R) h0 h1 P0 P1.
Proof.
  intros S0 S1 K V Sp Cb. assert (C1 : core m0 = core m1) by (eapply core_new; [apply S0|apply S1]). pose proof (model_core _ _ _ _ _ _ _ _ _ C1 K) as K1.
  destruct (sim_start _ _ _ _ _ _ _ _ _ _ _ _ _ _ _ _ _ _ _ S0 K) as (D0 & R0 & A0 & L0 & E0 & I0 & U0). destruct (sim_start _ _ _ _ _ _ _ _ _ _ _ _ _ _ _ _ _ _ _ S1 K1) as (D1 & R1 & A1 & L1 & E1 & I1 & U1).
  set (p0 := prepared m0 l0 ob0 l0') in *. set (p1 := prepared m1 l1 ob1 l1') in *.
  destruct (added_history m0 x y z u dx dy dz K d v (kap m0 p0) st0 st1 Sp V p0 (fdm_new p0) p1 (fdm_new p1) ma0 s0 ma1 s1) as (P0 & P1 & Q0 & Q1 & Q2); auto; try congruence.
  exists (b_ip p0), (b_ip p1), P0, P1. rewrite I0 in Q0, Q2. rewrite I1 in Q1, Q2. cbn [app last] in Q0, Q1, Q2. split; [exact Q0|]. split; [exact Q1|]. split; [|exact Q2].
  intros Cm <- (pp & ->) p Hp. unfold ch, rv. destruct (core_fields _ _ C1) as (_ & J1 & _). assert (I : In (nth p (b_ids m0) 0%Z) (b_ids m0)) by now apply nth_In.
  rewrite (U0 pp eq_refl _ I). rewrite (U1 pp eq_refl) by (now rewrite <- J1). lra.
Qed.

(** C115: three simulations of one reservoir, all by one path. The second has rates
    [d1] on top of the first's, the third has rates [d2]. Then in every step the
    changes the second rates cause, weighed by the first rates, are together the
    changes the first cause, weighed by the second. A compressible reservoir must
    start at one and the same pressure. *)
Lemma L_C115_reciprocity :
  forall (g : gobj R) f unit pi0 pi1 pi2 dt l0 ob0 l0' l1 ob1 l1' l2 ob2 l2' st0 st1 st2 m0 m1 m2 ma0 ma1 ma2 s0 s1 s2 x y z u dx dy dz v d1 d2 k r0 r1 r2,
  simulated g f unit pi0 dt l0 ob0 l0' st0 m0 ma0 s0 -> simulated g f unit pi1 dt l1 ob1 l1' st1 m1 ma1 s1 -> simulated g f unit pi2 dt l2 ob2 l2' st2 m2 ma2 s2 ->
  model m0 x y z u dx dy dz -> (b_cmp m0 = true -> exists p, pi0 = Some p /\ pi1 = Some p /\ pi2 = Some p) ->
  Forall (path v) st0 -> Forall2 same_path st0 st1 -> Forall2 same_path st0 st2 ->
  rates_added d1 (prepared m0 l0 ob0 l0') (prepared m1 l1 ob1 l1') -> rates_added d2 (prepared m0 l0 ob0 l0') (prepared m2 l2 ob2 l2') ->
  nth_error (s_p s0) (S k) = Some r0 -> nth_error (s_p s1) (S k) = Some r1 -> nth_error (s_p s2) (S k) = Some r2 ->
  weighed d1 (b_ids m0) r0 r2 = weighed d2 (b_ids m0) r0 r1.
Proof.
  intros g f unit pi0 pi1 pi2 dt l0 ob0 l0' l1 ob1 l1' l2 ob2 l2' st0 st1 st2 m0 m1 m2 ma0 ma1 ma2 s0 s1 s2 x y z u dx dy dz v d1 d2 k r0 r1 r2 S0 S1 S2 K Hp V Sp1 Sp2 Ad1 Ad2 N0 N1 N2.
  destruct (sim_added _ _ _ _ _ _ _ _ _ _ _ _ _ _ _ _ _ _ _ _ _ _ _ _ _ _ _ v d1 S0 S1 K V Sp1 Ad1) as (h0 & h1 & P0 & P1 & Q0 & Q1 & Z1 & Ch1).
  destruct (sim_added _ _ _ _ _ _ _ _ _ _ _ _ _ _ _ _ _ _ _ _ _ _ _ _ _ _ _ v d2 S0 S2 K V Sp2 Ad2) as (h0' & h2 & P0' & P2 & Q0' & Q2 & Z2 & Ch2).
  rewrite Q0 in Q0'. injection Q0' as <- <-. rewrite Q0 in N0. rewrite Q1 in N1. rewrite Q2 in N2.
  destruct (chain_nth _ _ _ _ _ Ch1) as (_ & T1). destruct (chain_nth _ _ _ _ _ Ch2) as (_ & T2). clear Ch1 Ch2.
  assert (Hk : k < length P0) by (cbn [nth_error] in N0; apply nth_error_Some; congruence).
  set (N := length (b_ids m0)) in *. set (U := fun j => ch (b_ids m0) (nth j (h0 :: P0) []) (nth j (h1 :: P1) [])). set (W := fun j => ch (b_ids m0) (nth j (h0 :: P0) []) (nth j (h2 :: P2) [])).
  assert (Ts : forall p q, p < N -> q < N -> Cp m0 v p q = Cp m0 v q p) by (intros p q Hp' Hq; destruct v; cbn; [now apply (cp_sym K)|now apply (scoup_sym K)]).
  assert (E0 : nth (S k) (h0 :: P0) [] = r0) by now apply nth_error_nth. assert (E1 : nth (S k) (h1 :: P1) [] = r1) by now apply nth_error_nth. assert (E2 : nth (S k) (h2 :: P2) [] = r2) by now apply nth_error_nth.
  destruct (T1 k Hk) as (V0 & V1 & _). destruct (T2 k Hk) as (_ & V2 & _). rewrite E0 in V0. rewrite E1 in V1. rewrite E2 in V2.
  rewrite (weighed_dot d1 (b_ids m0) r0 r2 V0 V2), (weighed_dot d2 (b_ids m0) r0 r1 V0 V1). fold N.
  replace (ch (b_ids m0) r0 r2) with (W (S k)) by (unfold W; now rewrite E0, E2). replace (ch (b_ids m0) r0 r1) with (U (S k)) by (unfold U; now rewrite E0, E1).
  assert (HU : forall j p, j < length P0 -> p < N -> oper N (Cp m0 v) (acc m0) (kap m0 (prepared m0 l0 ob0 l0')) (U (S j)) p = (acc m0 p * U j p + d1 (nth p (b_ids m0) 0%Z))%R) by (intros j p Hj Hp'; now apply (T1 j Hj)).
  assert (HV : forall j p, j < length P0 -> p < N -> oper N (Cp m0 v) (acc m0) (kap m0 (prepared m0 l0 ob0 l0')) (W (S j)) p = (acc m0 p * W j p + d2 (nth p (b_ids m0) 0%Z))%R) by (intros j p Hj Hp'; now apply (T2 j Hj)).
  destruct (b_cmp m0) eqn:Cm.
  - destruct (Hp eq_refl) as (pp & -> & -> & ->). apply (reciprocal N (Cp m0 v) (acc m0) (kap m0 (prepared m0 l0 ob0 l0')) Ts U W (fun p => d1 (nth p (b_ids m0) 0%Z)) (fun p => d2 (nth p (b_ids m0) 0%Z)) (length P0) HU HV); [intros p Hp'; apply Z1; eauto|intros p Hp'; apply Z2; eauto|lia].
  - apply (reciprocal_steady N (Cp m0 v) (acc m0) (kap m0 (prepared m0 l0 ob0 l0')) Ts U W (fun p => d1 (nth p (b_ids m0) 0%Z)) (fun p => d2 (nth p (b_ids m0) 0%Z)) (length P0) HU HV); [|lia].
    intros p Hp'. pose proof (acc_sign K p Hp') as Q. now rewrite Cm in Q.
Qed.

Lemma weighed_one d ids r0 r1 i : NoDup ids -> In i ids -> (forall id, id <> i -> d id = 0%R) -> weighed d ids r0 r1 = (d i * change_at r0 r1 i)%R.
Proof.
  intros Nd I H. unfold weighed. induction Nd as [|a l Na Nd IH]; [destruct I|]. cbn [map fold_right]. destruct (Z.eq_dec a i) as [->|Ni].
  - assert (Q : fold_right Rplus 0%R (map (fun id => (d id * change_at r0 r1 id)%R) l) = 0%R).
    { clear -Na H. induction l as [|b l IH]; cbn [map fold_right]; auto. rewrite IH by (intros Q; apply Na; now right). rewrite (H b) by (intros ->; apply Na; now left). ring. }
    rewrite Q. ring.
  - destruct I as [->|I]; [contradiction|]. rewrite (IH I), (H a Ni). ring.
Qed.
Lemma one_added (p0 p1 : bo R) x y z u dx dy dz s i q : model p0 x y z u dx dy dz -> ready (m := p0) s -> conditioned p0 -> operated p0 -> core p1 = core p0 -> b_bdict p1 = b_bdict p0 ->
  dget i (b_wells p0) = None -> (exists w, dget i (b_wells p1) = Some w /\ at_rate w q) -> (forall id, id <> i -> dget id (b_wells p1) = dget id (b_wells p0)) -> rates_added (fun id => if Z.eqb id i then q else 0%R) p0 p1.
Proof.
  intros K Rd Cn Op C1 D1 Wi (w1 & G1 & A1) T1. split.
  - intros id. destruct (Z.eqb_spec id i) as [->|Ni].
    + left. exists 0%R. unfold well_gives. rewrite Wi, G1, Rplus_0_l. auto.
    + destruct (dget id (b_wells p0)) as [w|] eqn:E.
      * destruct (Op id w E) as [(q' & A)|(G & p & A & Gp)]; [left; exists q'; unfold well_gives; rewrite (T1 id Ni), E, Rplus_0_r; auto|right; split; auto; exists w, w, G, p; rewrite (T1 id Ni); auto].
      * left. exists 0%R. unfold well_gives. rewrite (T1 id Ni), E, Rplus_0_r. auto.
  - destruct (same_mixed p0 p1 p1 p1 x y z u dx dy dz K s Rd Cn Op C1 C1 C1 D1 D1 D1 1 0) as (_ & Bc).
    { intros id. destruct (Z.eq_dec id i) as [->|Ni]; [right; exists 0%R, q, q|left; auto]. unfold well_gives. rewrite Wi, G1. replace (mix 1 0 0 q q) with q by (unfold mix; ring). auto. }
    intros idb. destruct (Bc idb) as [(r0 & r1 & r2 & B0 & B1 & B2 & B3)|(q0 & q1 & q2 & B0 & B1 & _)].
    + left. exists r0. split; auto. unfold bound_gives in *. rewrite D1. destruct (dget idb (b_bdict p0)) as [e|]; auto. now apply (rate_given_core p1 p0).
    + right. exists q0. rewrite D1. auto.
Qed.
(** C115: a well of rate [qi] in one cell and a well of rate [qj] in another, each
    alone. What the second does to the first's cell, times the first's rate, is what
    the first does to the second's cell, times the second's rate. *)
Lemma L_C115_wells :
  forall (g : gobj R) f unit pi dt l1 ob l2 i qi pwfi ri ski j qj pwfj rj skj st0 st1 st2 m0 m1 m2 ma0 ma1 ma2 s0 s1 s2 x y z u dx dy dz v k r0 r1 r2 vi0 vj0 vj1 vi2,
  let wi := Set_well (Some i) (Some qi) pwfi ri ski in let wj := Set_well (Some j) (Some qj) pwfj rj skj in
  simulated g f unit (Some pi) dt l1 ob l2 st0 m0 ma0 s0 -> simulated g f unit (Some pi) dt l1 ob (l2 ++ [wi]) st1 m1 ma1 s1 -> simulated g f unit (Some pi) dt l1 ob (l2 ++ [wj]) st2 m2 ma2 s2 ->
  model m0 x y z u dx dy dz -> Forall (path v) st0 -> Forall2 same_path st0 st1 -> Forall2 same_path st0 st2 ->
  (let p := prepared m0 l1 ob l2 in conditioned p /\ operated p /\ dget i (b_wells p) = None /\ dget j (b_wells p) = None) ->
  nth_error (s_p s0) (S k) = Some r0 -> nth_error (s_p s1) (S k) = Some r1 -> nth_error (s_p s2) (S k) = Some r2 -> In i (b_ids m0) -> In j (b_ids m0) ->
  value r0 i = Some vi0 -> value r0 j = Some vj0 -> value r1 j = Some vj1 -> value r2 i = Some vi2 -> (qi * (vi2 - vi0) = qj * (vj1 - vj0))%R.
Proof.
  intros g f unit pi dt l1 ob l2 i qi pwfi ri ski j qj pwfj rj skj st0 st1 st2 m0 m1 m2 ma0 ma1 ma2 s0 s1 s2 x y z u dx dy dz v k r0 r1 r2 vi0 vj0 vj1 vi2 wi wj S0 S1 S2 K V Sp1 Sp2 H N0 N1 N2 Ii Ij A0 A1 A2 A3.
  assert (E1 : m1 = m0) by (destruct S0 as (A & _), S1 as (B & _); congruence). assert (E2 : m2 = m0) by (destruct S0 as (A & _), S2 as (B & _); congruence). subst m1 m2.
  destruct (sim_start _ _ _ _ _ _ _ _ _ _ _ _ _ _ _ _ _ _ _ S0 K) as (C0 & R0 & _). destruct (sim_start _ _ _ _ _ _ _ _ _ _ _ _ _ _ _ _ _ _ _ S1 K) as (C1 & _). destruct (sim_start _ _ _ _ _ _ _ _ _ _ _ _ _ _ _ _ _ _ _ S2 K) as (C2 & _).
  cbv zeta in H. destruct H as (Cn & Op & Wi & Wj).
  destruct (more_prepared m0 l1 ob l2 i qi pwfi ri ski (last_ok _ _ _ _ _ _ _ _ _ _ _ _ _ S1)) as (G1 & T1 & B1). fold wi in G1, T1, B1. destruct (more_prepared m0 l1 ob l2 j qj pwfj rj skj (last_ok _ _ _ _ _ _ _ _ _ _ _ _ _ S2)) as (G2 & T2 & B2). fold wj in G2, T2, B2.
  set (p0 := prepared m0 l1 ob l2) in *. set (p1 := prepared m0 l1 ob (l2 ++ [wi])) in *. set (p2 := prepared m0 l1 ob (l2 ++ [wj])) in *.
  pose proof (model_core _ _ _ _ _ _ _ _ _ (eq_sym C0) K) as K0.
  assert (X1 : rates_added (fun id => if Z.eqb id i then qi else 0%R) p0 p1) by (apply (one_added p0 p1 x y z u dx dy dz (fdm_new p0)); auto; congruence).
  assert (X2 : rates_added (fun id => if Z.eqb id j then qj else 0%R) p0 p2) by (apply (one_added p0 p2 x y z u dx dy dz (fdm_new p0)); auto; congruence).
  pose proof (L_C115_reciprocity g f unit (Some pi) (Some pi) (Some pi) dt l1 ob l2 l1 ob (l2 ++ [wi])%list l1 ob (l2 ++ [wj])%list st0 st1 st2 m0 m0 m0 ma0 ma1 ma2 s0 s1 s2 x y z u dx dy dz v _ _ k r0 r1 r2 S0 S1 S2 K (fun _ => ex_intro _ pi (conj eq_refl (conj eq_refl eq_refl))) V Sp1 Sp2 X1 X2 N0 N1 N2) as Q.
  assert (Nd : NoDup (b_ids m0)) by apply (ids_facts K).
  rewrite (weighed_one _ _ r0 r2 i Nd Ii) in Q by (intros id Ni; cbv beta; destruct (Z.eqb_spec id i); congruence). rewrite (weighed_one _ _ r0 r1 j Nd Ij) in Q by (intros id Ni; cbv beta; destruct (Z.eqb_spec id j); congruence).
  rewrite !Z.eqb_refl in Q. unfold change_at in Q. rewrite A0, A1, A2, A3 in Q. exact Q.
Qed.
(** C115: the case of equal rates. *)
Lemma L_C115_equal :
  forall (g : gobj R) f unit pi dt l1 ob l2 q i pwfi ri ski j pwfj rj skj st0 st1 st2 m0 m1 m2 ma0 ma1 ma2 s0 s1 s2 x y z u dx dy dz v k r0 r1 r2 vi0 vj0 vj1 vi2,
  let wi := Set_well (Some i) (Some q) pwfi ri ski in let wj := Set_well (Some j) (Some q) pwfj rj skj in
  simulated g f unit (Some pi) dt l1 ob l2 st0 m0 ma0 s0 -> simulated g f unit (Some pi) dt l1 ob (l2 ++ [wi]) st1 m1 ma1 s1 -> simulated g f unit (Some pi) dt l1 ob (l2 ++ [wj]) st2 m2 ma2 s2 ->
  model m0 x y z u dx dy dz -> Forall (path v) st0 -> Forall2 same_path st0 st1 -> Forall2 same_path st0 st2 ->
  (let p := prepared m0 l1 ob l2 in conditioned p /\ operated p /\ dget i (b_wells p) = None /\ dget j (b_wells p) = None) -> q <> 0%R ->
  nth_error (s_p s0) (S k) = Some r0 -> nth_error (s_p s1) (S k) = Some r1 -> nth_error (s_p s2) (S k) = Some r2 -> In i (b_ids m0) -> In j (b_ids m0) ->
  value r0 i = Some vi0 -> value r0 j = Some vj0 -> value r1 j = Some vj1 -> value r2 i = Some vi2 -> (vi2 - vi0 = vj1 - vj0)%R.
Proof.
  intros g f unit pi dt l1 ob l2 q i pwfi ri ski j pwfj rj skj st0 st1 st2 m0 m1 m2 ma0 ma1 ma2 s0 s1 s2 x y z u dx dy dz v k r0 r1 r2 vi0 vj0 vj1 vi2 wi wj S0 S1 S2 K V Sp1 Sp2 H Hq N0 N1 N2 Ii Ij A0 A1 A2 A3.
  apply (Rmult_eq_reg_l q); auto. exact (L_C115_wells g f unit pi dt l1 ob l2 i q pwfi ri ski j q pwfj rj skj st0 st1 st2 m0 m1 m2 ma0 ma1 ma2 s0 s1 s2 x y z u dx dy dz v k r0 r1 r2 vi0 vj0 vj1 vi2 S0 S1 S2 K V Sp1 Sp2 H N0 N1 N2 Ii Ij A0 A1 A2 A3).
Qed.
(** C115: rates -1/2 and 1 in the cells 2 and 3, next to a side held at 6. *)
Example ex_C115_case : exists g f unit dt l1 ob i qi ri j qj rj st0 st1 st2 m0 ma0 ma1 ma2 s0 s1 s2 r0 r1 r2,
  let wi := Set_well (Some i) (Some qi) None ri None in let wj := Set_well (Some j) (Some qj) None rj None in
  simulated g f unit (Some 6%R) dt l1 ob [] st0 m0 ma0 s0 /\ simulated g f unit (Some 6%R) dt l1 ob ([] ++ [wi]) st1 m0 ma1 s1 /\ simulated g f unit (Some 6%R) dt l1 ob ([] ++ [wj]) st2 m0 ma2 s2 /\
  (exists x y z u dx dy dz, model m0 x y z u dx dy dz) /\ Forall (path true) st0 /\ Forall2 same_path st0 st1 /\ Forall2 same_path st0 st2 /\
  (let p := prepared m0 l1 ob [] in conditioned p /\ operated p /\ dget i (b_wells p) = None /\ dget j (b_wells p) = None) /\ i <> j /\
  nth_error (s_p s0) 1 = Some r0 /\ nth_error (s_p s1) 1 = Some r1 /\ nth_error (s_p s2) 1 = Some r2 /\ In i (b_ids m0) /\ In j (b_ids m0) /\
  value r0 i = Some 6%R /\ value r0 j = Some 6%R /\ value r1 j = Some (6 - 1 / 9)%R /\ value r2 i = Some (6 + 2 / 9)%R /\ qi = (-1 / 2)%R /\ qj = 1%R.
Proof.
  destruct line3_made as (g & f & unit & dt & Hn).
  destruct (bare_run 6 6 6 6) as (p0 & ma0 & s0 & S0 & P0 & W0 & B0 & R0); try lra. destruct (pump_run 6 (-1 / 2) (107 / 18) (52 / 9) (6 - 1 / 9)) as (p1 & ma1 & s1 & w1 & S1 & _ & _ & _ & _ & R1); try lra.
  destruct (far_run 6 1 (109 / 18) (6 + 2 / 9) (119 / 18)) as (p2 & ma2 & s2 & w2 & S2 & _ & _ & _ & _ & R2); try lra.
  exists g, f, unit, dt, [], (Some (sides 0)), 2%Z, (-1 / 2)%R, (Some (1 / 2)%R), 3%Z, 1%R, (Some (1 / 2)%R), [reply 6 6 6], [reply (107 / 18) (52 / 9) (6 - 1 / 9)], [reply (109 / 18) (6 + 2 / 9) (119 / 18)].
  exists (line3 (1 + 0) true (Some 6%R)), ma0, ma1, ma2, s0, s1, s2. do 3 eexists. cbv zeta. cbn [app]. fold (pump (-1 / 2)) (far 1).
  split; [split; [apply Hn|exact S0]|]. split; [split; [apply Hn|exact S1]|]. split; [split; [apply Hn|exact S2]|].
  split; [do 7 eexists; apply line3_model; intros; lra|]. split; [repeat constructor|]. do 2 (split; [repeat constructor|]). rewrite P0, W0. split; [|split; [lia|split; [exact R0|split; [exact R1|split; [exact R2|split; [cbn; auto|split; [cbn; auto|auto 8]]]]]]].
  split; [now apply (sides_conditioned _ 0)|]. split; [intros id w; rewrite W0; discriminate|]. auto.
Qed.
