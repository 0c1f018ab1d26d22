(** The flow equation of each cell and the recorded rates, over histories. *)
From Coq Require Import String ZArith Bool Arith List Lia Reals Lra.
From Verif Require Import Prelude PreludeFacts Num GridModel GridSpec GeoModel GeoSpec GeoProofs GeoThm PropProofs PropModel PropSpec MatrixProofs GridProofs TransProofs
  UnitsModel BlackOilModel FdmModel MonadFacts HistSpec InvFacts SumFacts ModelSpec ModelFacts VectFacts AsmFacts AssemblyThm
  Samples SampleFacts SampleWell SampleBal SamplePath SolverSpec SolveSpec StepSpec StepFacts WellStepFacts BalanceSpec FdmSpec CanonFacts LinFacts NbrFacts SymbFacts BalFacts FormFacts StepBal SetupFacts BalanceThm ClosedThm LocalSpec SampleLocal.
Import ListNotations.
Close Scope R_scope.
Open Scope nat_scope.

Section local.
Context {m : bo R} {x y z : nat} {u : bool} {dx dy dz : dinput R} (K : model m x y z u dx dy dz).
Notation g := (gr (geom (b_grid m))).
Notation N := (length (b_ids m)).
Context (s : fs R) (RD : ready (m := m) s).

Lemma wells_at p id (f : Z -> R) : nth_error (b_ids m) p = Some id ->
  over (dkeys (b_wells m)) (pos (m := m)) f p = if zmem id (dkeys (b_wells m)) then f id else 0%R.
Proof.
  intros E. assert (Ep : pos (m := m) id = p) by (unfold pos; now rewrite (cell_i_ok K p id E)).
  pose proof (r_wk _ RD) as Wk. pose proof (r_wi _ RD) as Wi. destruct (zmem id (dkeys (b_wells m))) eqn:M.
  - apply zmem_In in M. rewrite <- Ep. apply over_hit; auto. apply NoDup_map_in; auto. intros a b Ha Hb Q.
    pose proof (pos_nth K a (Wi a Ha)) as P1. pose proof (pos_nth K b (Wi b Hb)) as P2. rewrite Q in P1. congruence.
  - apply zmem_false in M. apply over_miss. intros j J Q. pose proof (pos_nth K j (Wi j J)) as P1. rewrite Q, E in P1. inversion P1; subst j. contradiction.
Qed.
Lemma bounds_at p id (f : Z * (string * R) -> R) : nth_error (b_ids m) p = Some id ->
  over (b_bdict m) (fun e => bpos (m := m) (fst e)) f p =
  sumR (map (fun j => match dget j (b_bdict m) with Some cv => f (j, cv) | None => 0%R end) (bns m id)).
Proof.
  intros E. assert (I : In id (b_ids m)) by (eapply nth_error_In; eauto). assert (Ep : pos (m := m) id = p) by (unfold pos; now rewrite (cell_i_ok K p id E)).
  pose proof (r_bk _ RD) as Bk. pose proof (r_bf _ RD) as Bf.
  set (D' := map (fun e => (fst e, e)) (b_bdict m)).
  assert (Dk : dkeys D' = dkeys (b_bdict m)) by (unfold D', dkeys; rewrite map_map; reflexivity).
  rewrite (sumR_ext _ (fun j => match dget j D' with Some e => f e | None => 0%R end)).
  2:{ intros j J. unfold D'. clear. induction (b_bdict m) as [|[k cv] l IH]; cbn [map dget fst snd]; auto. destruct (Z.eqb_spec j k) as [->|]; auto. }
  rewrite (sum_dget f D' (bns m id)) by (rewrite ?Dk; auto; now apply (nodup_bns K)).
  unfold D', over. rewrite map_map. cbn [fst snd]. apply sumR_ext. intros e Ie. pose proof (Bf e Ie) as Fc. destruct (edge_bns K (fst e) id Fc I) as (Q1 & Q2).
  assert (Ei : In (fst (edge (m := m) (fst e))) (b_ids m)) by now apply (edge_face K).
  unfold one, bpos. destruct (zmem (fst e) (bns m id)) eqn:M.
  - apply zmem_In in M. apply Q1 in M as Ee. now rewrite Ee, Ep, Nat.eqb_refl.
  - apply zmem_false in M. destruct (Nat.eqb_spec (pos (m := m) (fst (edge (m := m) (fst e)))) p) as [Q|]; auto. exfalso. apply M, Q1.
    pose proof (pos_nth K _ Ei) as P1. rewrite Q, E in P1. congruence.
Qed.
Lemma entry_height id : (0 <= id < Z.of_nat (get_n g true))%Z -> exists zs, gz m = Ok zs /\ entry_of zs id = Some (height (m := m) id).
Proof.
  intros P. destruct (md_z _ _ _ _ _ _ _ _ K) as (zs & Ez & Lz). exists zs. split; auto. unfold entry_of, height. rewrite Ez.
  rewrite <- (Z2Nat.id id) by lia. rewrite (pyget_nth zs (Z.to_nat id) 0%R) by lia. reflexivity.
Qed.

Lemma cell_trans_ok id : In id (b_ids m) -> exists T, get_cell_trans m id true = Ok T.
Proof.
  intros I. destruct (cell_of K id I) as (c & Ic & ->).
  destruct (cell_G_spec _ _ _ _ _ _ _ _ (md_rock _ _ _ _ _ _ _ _ K) c true (md_flow _ _ _ _ _ _ _ _ K) (interior_in_grid _ _ (md_wf K) Ic) (fun _ => Ic)) as (iso & L & _ & EL & _).
  unfold get_cell_trans. change (bgrid m) with g in *. rewrite EL. cbn [rbind]. eauto.
Qed.
Lemma cell_local mx o prow rrow id : step_rows m mx o s prow rrow -> (o_vect o = true -> level m /\ ~ three_d g) -> In id (b_ids m) ->
  cell_balance m (last (s_p s) []) prow rrow id.
Proof.
  intros (_ & yy & Cp & wt & Ly & Cpw & Yv & Wv & Bv & Ov & Old & Eqs) Lv I.
  destruct (In_nth_error _ _ I) as (p & E). assert (Hp : p < N) by (apply nth_error_Some; congruence).
  specialize (Eqs p Hp). rewrite (wells_at p id _ E), (bounds_at p id _ E) in Eqs.
  pose proof (r_bf _ RD) as Bf. pose proof (r_wi _ RD) as Wi.
  pose proof (proj1 (proj2 (ids_facts K)) id I) as Pid.
  (* neighbours *)
  destruct (cell_of K id I) as (c & Ic & Eid). destruct (nbs_ok K c Ic) as (nb & Enb & Nb & _). destruct (bns_ok K c Ic) as (bn & Ebn & Bn & _). rewrite <- Eid in *.
  assert (ET : exists T, get_cell_trans m id true = Ok T /\ forall j, In j (nbs m id ++ bns m id)%list -> dget j T = Some (tr m id j)).
  { destruct (cell_trans_ok id I) as (T & ET). exists T. split; auto. intros j J. destruct (tr_get K id j I J) as (T' & E1 & E2). congruence. }
  destruct ET as (T & ET & EV). destruct (md_z _ _ _ _ _ _ _ _ K) as (zs & Ez & Lz).
  exists nb, bn, T, zs.
  assert (EH : forall j, (0 <= j < Z.of_nat (get_n g true))%Z -> entry_of zs j = Some (height (m := m) j)).
  { intros j P. destruct (entry_height j P) as (zs' & E1 & E2). congruence. }
  assert (S1 : from_cells (b_g m) T zs prow id (dirs_list nb) =
    Some (sumR (map (fun j => tr m id j * ((nth (pos (m := m) j) yy 0 - nth p yy 0) - b_g m * (height (m := m) j - height (m := m) id)))%R (nbs m id)))).
  { unfold from_cells. rewrite <- Nb. apply fsum_sumR. intros j J. destruct (nbs_in K id j I J) as (Ij & _).
    rewrite (EV j) by (apply in_or_app; now left). rewrite (Yv p id E). rewrite (Yv _ j (pos_nth K j Ij)). rewrite (EH id Pid), (EH j (proj1 (proj2 (ids_facts K)) j Ij)). reflexivity. }
  assert (S2 : value rrow id = Some (if zmem id (dkeys (b_wells m)) then hw (m := m) yy id else 0%R)).
  { destruct (zmem id (dkeys (b_wells m))) eqn:M.
    - apply zmem_In in M. destruct (Wv id M) as (w' & _ & W & _). exact W.
    - apply zmem_false in M. apply Ov; auto; try lia. intros J. apply in_map_iff in J as (e & Ee & Ie). apply (face_facts K _ (Bf e Ie)). now rewrite Ee. }
  assert (S3 : fsum (map (value rrow) (dirs_list bn)) = Some (sumR (map (fun j => match dget j (b_bdict m) with Some cv => hb (m := m) s yy (j, cv) | None => 0%R end) (bns m id)))).
  { rewrite <- Bn. apply fsum_sumR. intros j J. pose proof (bns_face K id j I J) as Fj. pose proof (face_facts K j Fj) as (Pj & Nj). destruct (dget j (b_bdict m)) as [cv|] eqn:Ed.
    - apply (Bv (j, cv)). now apply dget_In.
    - apply Ov; try lia; [intros Q; apply Nj; now apply Wi|]. intros Q. apply dget_keys in Q. congruence. }
  eexists. split; [exact Enb|]. split; [exact Ebn|]. split; [exact ET|]. split; [exact Ez|]. rewrite S1, S2, S3. split; [reflexivity|].
  rewrite (nbs_sum K p id (fun j => (nth (pos (m := m) j) yy 0 - nth p yy 0) - b_g m * (height (m := m) j - height (m := m) id))%R E).
  assert (Fl : rsum (fun q => scoup m p q * ((nth (pos (m := m) (nth q (b_ids m) 0%Z)) yy 0 - nth p yy 0) - b_g m * (height (m := m) (nth q (b_ids m) 0%Z) - height (m := m) id)))%R 0 N
    = flux N Cp (fun q => nth q yy 0 - wt q)%R p).
  { unfold flux. apply rsum_ext. intros q Hq. assert (Hq' : q < N) by lia. destruct (nth_id q Hq') as (j & Eq & J). rewrite (nth_error_nth _ _ _ Eq).
    assert (Pj : pos (m := m) j = q) by (unfold pos; now rewrite (cell_i_ok K q j Eq)). rewrite Pj. destruct (o_vect o).
    - destruct Cpw as (-> & ->). destruct (Lv eq_refl) as (L1 & L2). rewrite (scoup_coupling K p q) by auto. rewrite (level_height id j L1 I J). ring.
    - destruct Cpw as (-> & ->). unfold weight. rewrite (nth_error_nth _ _ _ Eq), (nth_error_nth _ _ _ E). ring. }
  rewrite Fl. clear Fl S1 S2 S3. cbn [nadd Num_R]. rewrite Eqs. rewrite (acc_ok K p id E). destruct (b_cmp m) eqn:Cm.
  - rewrite (Yv p id E), (Old eq_refl p id E). reflexivity.
  - pose proof (acc_sign K p Hp) as Q. rewrite Cm, (acc_ok K p id E) in Q. rewrite Q. lra.
Qed.
Lemma cd_length a : a <> ADash -> length (gd m a) = get_n g true.
Proof.
  intros Na. exact (proj1 (proj1 (GeoThm.lens _ _ _ _ _ _ _ _ (PropProofs.rk_built _ _ _ _ _ _ _ _ (md_rock _ _ _ _ _ _ _ _ K))) a Na)).
Qed.
Lemma gradient_ok idb v : face_id m idb -> exists r, gradient_rate m idb v r /\ grad_rate m idb v = Ok r.
Proof.
  intros Fb. destruct (edge_face K idb Fb) as (E1 & _ & Ie & nb & En & Ed). set (id := fst (edge (m := m) idb)) in *.
  destruct (get_cell_trans m idb false) as [T|] eqn:ET; cbn [rbind] in E1; [|discriminate]. destruct T as [|e0 [|? ?]]; try discriminate. cbn [the_only] in E1. injection E1 as E1.
  assert (Ha : exists a, a <> ADash /\ In id (dirs_get a nb) /\ forall b, zmem id (dirs_get b nb) = axis_eqb b a).
  { destruct nb as [l1' l2' l3']. cbn in Ed. destruct l1' as [|q1 [|? ?]], l2' as [|q2 [|? ?]], l3' as [|q3 [|? ?]]; cbn in Ed; try discriminate; injection Ed as ->;
      [exists AZ|exists AY|exists AX]; (split; [discriminate|]); (split; [cbn; auto|]); intros []; cbn; rewrite ?Z.eqb_refl; reflexivity. }
  destruct Ha as (a & Na & Ia & Ha).
  assert (Pid : (0 <= id < Z.of_nat (get_n g true))%Z) by now apply (ids_facts K).
  assert (Ld : length (gd m a) = get_n g true) by (now apply cd_length).
  assert (Pg : exists d, pyget (gd m a) id = Ok d).
  { exists (nth (Z.to_nat id) (gd m a) 0%R). rewrite <- (Z2Nat.id id) at 1 by lia. apply pyget_nth. lia. }
  destruct Pg as (d & Pg). exists (snd e0 * d * v)%R. split.
  - exists id, (snd e0), a, nb, d. unfold id. rewrite <- E1. split; [now destruct e0|]. split; [exact En|]. split; [rewrite E1; exact Ia|]. split; [rewrite E1; exact Pg|reflexivity].
  - unfold grad_rate. rewrite ET. cbn [rbind the_only]. destruct e0 as [i0 T0]. assert (Ei : i0 = id) by (unfold id; now rewrite <- E1). rewrite Ei. cbn [rbind snd].
    change (bgrid m) with g. rewrite En. cbn [rbind]. replace (filter (fun a0 => zmem id (dirs_get a0 nb)) [AX; AY; AZ]) with [a].
    + rewrite Pg. reflexivity.
    + cbn [filter]. rewrite !Ha. now destruct a.
Qed.
End local.

Lemma balance_core m m' old new rates id : core m = core m' -> cell_balance m old new rates id -> cell_balance m' old new rates id.
Proof.
  intros C (nb & bn & T & zs & v & H). exists nb, bn, T, zs, v. rewrite <- (core_trans m m' _ _ C), <- (core_z m m' C).
  destruct (core_fields _ _ C) as (C1 & C2 & C3 & C4 & C5 & _ & _ & _ & _ & C6 & C7). unfold bgrid in *. rewrite <- C1, <- C5, <- C6, <- C7. exact H.
Qed.

Section steps.
Context (m0 : bo R) x y z u dx dy dz (K : model m0 x y z u dx dy dz).
Lemma rows_later l : forall m s, core m = core m0 -> ready (m := m) s -> all_ok (m, Some s) l -> along balanced_step (m, Some s) l ->
  exists m' s', after (m, Some s) l = (m', Some s') /\ (exists P R, s_p s' = (s_p s ++ P)%list /\ s_r s' = (s_r s ++ R)%list) /\ core m' = core m0 /\ ready (m := m') s' /\ s_tstep s' = s_tstep s + length l.
Proof.
  induction l as [|c l IH]; intros m s C Rd A L.
  - exists m, s. split; auto. split; [exists [], []; now rewrite !app_nil_r|]. cbn [length]. auto with arith.
  - cbn [all_ok along after fold_left] in *. destruct A as (A1 & A2). destruct L as (L1 & L2). destruct c; try contradiction.
    cbn [balanced_step] in L1. destruct L1 as (Ex & U & Pr & V & L1). specialize (L1 s).
    remember (exec (Solve slv sc fuel sparse o) (m, Some s)) as Y eqn:EY. cbn [exec] in EY. unfold of_solution in EY. cbn [fst snd] in EY.
    destruct (solve slv sc fuel sparse o (m, s)) as [[m1 s1] r] eqn:Es. cbn [fst snd] in EY. subst Y. cbn [fst snd] in *. subst r.
    specialize (L1 s1 eq_refl eq_refl) as (One & SM).
    destruct (step_ok (model_core _ _ _ _ _ _ _ _ _ (eq_sym C) K) slv sc fuel sparse o s (m1, s1) Rd Ex U Pr V Es One SM) as ((C1 & _ & T1) & Rd1 & prow & rrow & P1 & P2 & _).
    cbn [fst snd] in *. destruct (IH m1 s1) as (m' & s' & Q1 & (P & R' & Q2 & Q3) & Q4 & Q5 & Q6); auto; [congruence|].
    exists m', s'. split; auto. split; [exists (prow :: P), (rrow :: R'); rewrite Q2, Q3, P1, P2, <- !app_assoc; auto|]. cbn [length]. split; auto. split; auto. lia.
Qed.
Lemma one_step c m s : core m = core m0 -> ready (m := m) s -> all_ok (m, Some s) [c] -> along balanced_step (m, Some s) [c] ->
  exists slv sc fuel sparse o m' s' prow rrow, c = Solve slv sc fuel sparse o /\ after (m, Some s) [c] = (m', Some s') /\ core m' = core m0 /\ b_bdict m' = b_bdict m /\ ready (m := m') s' /\
    s_p s' = (s_p s ++ [prow])%list /\ s_r s' = (s_r s ++ [rrow])%list /\ step_rows m m' o s prow rrow.
Proof.
  intros C Rd A L. cbn [all_ok along after fold_left] in *. destruct A as (A1 & _). destruct L as (L1 & _). destruct c; try contradiction.
  cbn [balanced_step] in L1. destruct L1 as (Ex & U & Pr & V & L1). specialize (L1 s).
  remember (exec (Solve slv sc fuel sparse o) (m, Some s)) as Y eqn:EY. cbn [exec] in EY. unfold of_solution in EY. cbn [fst snd] in EY.
  destruct (solve slv sc fuel sparse o (m, s)) as [[m1 s1] r] eqn:Es. cbn [fst snd] in EY. subst Y. cbn [fst snd] in *. subst r.
  specialize (L1 s1 eq_refl eq_refl) as (One & SM).
  destruct (step_ok (model_core _ _ _ _ _ _ _ _ _ (eq_sym C) K) slv sc fuel sparse o s (m1, s1) Rd Ex U Pr V Es One SM) as ((C1 & C2 & T1) & Rd1 & prow & rrow & P1 & P2 & P3 & _).
  exists slv, sc, fuel, sparse, o, m1, s1, prow, rrow. cbn [fst snd] in *. do 2 (split; auto). split; [congruence|]. auto 6.
Qed.
End steps.
Lemma along_app (P : ws R -> call R -> Prop) l l' : forall X, along P X (l ++ l') -> along P X l /\ along P (after X l) l'.
Proof.
  induction l as [|c l IH]; intros X H; cbn [app along after fold_left] in *; [split; auto; exact I|]. destruct H as (H1 & H2). apply IH in H2 as (H2 & H3). auto.
Qed.
Lemma step_in (g : gobj R) f unit pi dt m0 x y z u dx dy dz l1 ob l2 st1 c st2 m s :
  bo_new g f unit pi dt = Ok m0 -> model m0 x y z u dx dy dz -> plain m0 l1 ob l2 ->
  all_ok (m0, None) (setup l1 ob l2 ++ Compile :: st1 ++ c :: st2) ->
  along balanced_step (after (m0, None) (setup l1 ob l2 ++ [Compile])) (st1 ++ c :: st2) ->
  after (m0, None) (setup l1 ob l2 ++ Compile :: st1 ++ c :: st2) = (m, Some s) ->
  exists slv sc fuel sparse o ma sa mb sb prow rrow, c = Solve slv sc fuel sparse o /\ core ma = core m0 /\ core mb = core m0 /\ b_bdict mb = b_bdict ma /\
    ready (m := ma) sa /\ ready (m := mb) sb /\ s_tstep sa = length st1 /\
    after (m0, None) (setup l1 ob l2 ++ Compile :: st1 ++ [c]) = (mb, Some sb) /\
    s_p sb = (s_p sa ++ [prow])%list /\ s_r sb = (s_r sa ++ [rrow])%list /\ step_rows ma mb o sa prow rrow /\
    (exists P R, s_p s = (s_p sb ++ P)%list /\ s_r s = (s_r sb ++ R)%list) /\ s_tstep s = length (st1 ++ c :: st2) /\ shaped s.
Proof.
  intros Hn K P A L E. apply all_ok_app in A as (A1 & A2). pose proof (setup_ready _ _ _ _ _ _ _ _ _ _ _ _ _ _ _ _ Hn K P A1) as H. cbn zeta in H.
  rewrite after_app in L, E. rewrite after_app. cbn [all_ok after fold_left] in A2, L, E |- *. destruct A2 as (_ & A2). destruct (after (m0, None) (setup l1 ob l2)) as [m1 o1]. cbn in A2, L, E, H |- *. destruct H as (C & R).
  apply all_ok_app in A2 as (A2 & A3). apply along_app in L as (L2 & L3). fold (after (m1, Some (fdm_new m1)) (st1 ++ c :: st2)) in E. fold (after (m1, Some (fdm_new m1)) (st1 ++ [c])).
  rewrite after_app in E |- *.
  destruct (rows_later m0 x y z u dx dy dz K st1 m1 (fdm_new m1) C R A2 L2) as (ma & sa & Q1 & _ & Q3 & Q4 & Q5). rewrite Q1 in *.
  change (c :: st2) with ([c] ++ st2)%list in A3, L3, E. apply all_ok_app in A3 as (A3 & A4). apply along_app in L3 as (L3 & L4). rewrite after_app in E.
  destruct (one_step m0 x y z u dx dy dz K c ma sa Q3 Q4 A3 L3) as (slv & sc & fuel & sparse & o & mb & sb & prow & rrow & Ec & S1 & S2 & S3 & S4 & S5 & S6 & S7). rewrite S1 in *.
  destruct (rows_later m0 x y z u dx dy dz K st2 mb sb S2 S4 A4 L4) as (mc & scc & W1 & W2 & W3 & W4 & W5). rewrite W1 in E. inversion E; subst mc scc.
  assert (Sh : shaped sa) by apply Q4. assert (Sb : shaped sb) by apply S4. assert (Ss : shaped s) by apply W4.
  exists slv, sc, fuel, sparse, o, ma, sa, mb, sb, prow, rrow. do 6 (split; [assumption|]). split; [exact Q5|]. split; [reflexivity|]. do 3 (split; [assumption|]). split; [assumption|]. split; [|exact Ss].
  destruct Sh as (Sh & _), Sb as (Sb & _). rewrite S5, app_length, Sh in Sb. cbn in Sb. rewrite app_length. cbn [length]. cbn in Q5. lia.
Qed.

(** C92: in every step of a history, and for every interior cell, inflow from the
    neighbours, well and boundaries make up what the cell takes up. *)
Lemma L_C92_cell_equation :
  forall (g : gobj R) f unit pi dt m0 x y z u dx dy dz l1 ob l2 st1 slv sc fuel sparse o st2 m s,
  bo_new g f unit pi dt = Ok m0 -> model m0 x y z u dx dy dz -> plain m0 l1 ob l2 ->
  all_ok (m0, None) (setup l1 ob l2 ++ Compile :: st1 ++ Solve slv sc fuel sparse o :: st2) ->
  along balanced_step (after (m0, None) (setup l1 ob l2 ++ [Compile])) (st1 ++ Solve slv sc fuel sparse o :: st2) ->
  after (m0, None) (setup l1 ob l2 ++ Compile :: st1 ++ Solve slv sc fuel sparse o :: st2) = (m, Some s) ->
  (o_vect o = true -> level m0 /\ ~ three_d (gr (geom (b_grid m0)))) ->
  exists old new rates, nth_error (s_p s) (length st1) = Some old /\ nth_error (s_p s) (S (length st1)) = Some new /\ nth_error (s_r s) (S (length st1)) = Some rates /\
  forall id, In id (b_ids m0) -> cell_balance m0 old new rates id.
Proof.
  intros g f unit pi dt m0 x y z u dx dy dz l1 ob l2 st1 slv sc fuel sparse o st2 m s Hn K P A L E Lv.
  destruct (step_in _ _ _ _ _ _ _ _ _ _ _ _ _ _ _ _ _ _ _ _ _ Hn K P A L E) as (slv' & sc' & fuel' & sparse' & o' & ma & sa & mb & sb & prow & rrow & Ec & Ca & Cb & Eb & Ra & Rb & Ts & Ef & P1 & P2 & SR & (Pp & Rr & Q1 & Q2) & Ls).
  injection Ec as <- <- <- <- <-. assert (Sh : shaped sa) by apply Ra. destruct Sh as (S1 & S2).
  exists (last (s_p sa) []), prow, rrow. rewrite Q1, Q2, P1, P2. rewrite <- !app_assoc. split; [|split; [|split]].
  - rewrite nth_error_app1 by lia. rewrite last_nth, S1, Ts. replace (S (length st1) - 1) with (length st1) by lia. apply nth_error_nth'. lia.
  - rewrite nth_error_app2 by lia. replace (S (length st1) - length (s_p sa)) with 0 by lia. reflexivity.
  - rewrite nth_error_app2 by lia. replace (S (length st1) - length (s_r sa)) with 0 by lia. reflexivity.
  - intros id I. destruct (core_fields _ _ Ca) as (Cg & Ci & _). apply (balance_core ma); auto.
    apply (cell_local (model_core _ _ _ _ _ _ _ _ _ (eq_sym Ca) K) sa Ra mb o); auto; [|now rewrite Ci].
    intros V. destruct (Lv V) as ((zs & h & L1 & L2) & N3). rewrite Cg. split; auto. exists zs, h. rewrite (core_z _ _ Ca), Ci. auto.
Qed.

(** C93: the rates recorded in a step: the wells by their mode, the boundaries by
    their condition, 0 elsewhere. *)
Lemma L_C93_recorded_rates :
  forall (g : gobj R) f unit pi dt m0 x y z u dx dy dz l1 ob l2 steps c m s,
  bo_new g f unit pi dt = Ok m0 -> model m0 x y z u dx dy dz -> plain m0 l1 ob l2 ->
  all_ok (m0, None) (setup l1 ob l2 ++ Compile :: steps ++ [c]) ->
  along balanced_step (after (m0, None) (setup l1 ob l2 ++ [Compile])) (steps ++ [c]) ->
  after (m0, None) (setup l1 ob l2 ++ Compile :: steps ++ [c]) = (m, Some s) ->
  exists new rates, nth_error (s_p s) (S (length steps)) = Some new /\ nth_error (s_r s) (S (length steps)) = Some rates /\
  (forall id w, dget id (b_wells m) = Some w -> well_obeys m w (value new id) (value rates id)) /\
  (forall idb v, In (idb, ("pressure"%string, v)) (b_bdict m) -> pressure_rate m new idb v (value rates idb)) /\
  (forall idb cond v, In (idb, (cond, v)) (b_bdict m) -> smem (lower cond) RATE = true -> value rates idb = Some v) /\
  (forall idb cond v, In (idb, (cond, v)) (b_bdict m) -> smem (lower cond) GRAD = true -> exists r, gradient_rate m idb v r /\ value rates idb = Some r) /\
  (forall id, (0 <= id < Z.of_nat (get_n (bgrid m) true))%Z -> dget id (b_wells m) = None -> dget id (b_bdict m) = None -> value rates id = Some 0%R).
Proof.
  intros g f unit pi dt m0 x y z u dx dy dz l1 ob l2 steps c m s Hn K P A L E.
  destruct (step_in _ _ _ _ _ _ _ _ _ _ _ _ _ _ _ _ _ _ _ _ _ Hn K P A L E) as (slv & sc & fuel & sparse & o & ma & sa & mb & sb & prow & rrow & Ec & Ca & Cb & Eb & Ra & Rb & Ts & Ef & P1 & P2 & SR & _).
  rewrite E in Ef. inversion Ef; subst mb sb. clear Ef. subst c.
  assert (Sh : shaped sa) by apply Ra. destruct Sh as (S1 & S2). exists prow, rrow. rewrite P1, P2.
  split; [rewrite nth_error_app2 by lia; replace (S (length steps) - length (s_p sa)) with 0 by lia; reflexivity|].
  split; [rewrite nth_error_app2 by lia; replace (S (length steps) - length (s_r sa)) with 0 by lia; reflexivity|].
  destruct SR as (Kw & yy & Cp & wt & Ly & Cpw & Yv & Wv & Bv & Ov & Old & Eqs).
  pose proof (model_core _ _ _ _ _ _ _ _ _ (eq_sym Ca) K) as Ka. pose proof (model_core _ _ _ _ _ _ _ _ _ (eq_sym Cb) K) as Kb.
  assert (Cab : core ma = core m) by congruence. destruct (core_fields _ _ Cab) as (Cg & Ci & Cm & CB & CG & _).
  split; [|split; [|split; [|split]]].
  - intros id w Ew. assert (I : In id (dkeys (b_wells ma))) by (rewrite <- Kw; apply dget_keys; congruence).
    destruct (Wv id I) as (w' & Ew' & _ & Wr). rewrite Ew in Ew'. inversion Ew'; subst w'. pose proof (r_wi _ Ra id I) as Ii.
    destruct Wr as [(W1 & q & _ & W2 & W3)|(W1 & G & pw & W2 & _ & W3 & W4)]; [left; eauto|right].
    split; auto. exists G, pw, (nth (pos (m := ma) id) yy 0%R). rewrite <- CB, <- Cm. split; auto. split; auto. split; auto. exact (Yv _ _ (pos_nth Ka id Ii)).
  - intros idb v I. rewrite Eb in I. pose proof (r_bf _ Ra _ I) as Fb. cbn [fst] in Fb. destruct (edge_face Ka idb Fb) as (E1 & _ & Ie & _).
    destruct (get_cell_trans ma idb false) as [T|] eqn:ET; cbn [rbind] in E1; [|discriminate]. destruct T as [|e0 [|? ?]]; try discriminate. cbn [the_only] in E1. injection E1 as E1.
    destruct (entry_height Ka idb) as (zs & Ez & Hz); [apply (face_facts Ka _ Fb)|]. destruct (entry_height Ka (fst (edge (m := ma) idb))) as (zs' & Ez' & Hz'); [apply (ids_facts Ka); auto|].
    replace zs' with zs in * by congruence. exists (fst (edge (m := ma) idb)), (snd (edge (m := ma) idb)), zs.
    split; [rewrite <- (core_trans _ _ _ _ Cab), ET, E1; now destruct (edge (m := ma) idb)|]. split; [rewrite <- (core_z _ _ Cab); auto|].
    pose proof (Bv _ I) as Bi. cbn [fst] in Bi. rewrite Bi, Hz, Hz', (Yv _ _ (pos_nth Ka _ Ie)), <- CG. split; [|discriminate]. cbn [fmul fsub lift2]. f_equal.
    unfold hb, bk1. cbn [fst snd]. rewrite String.eqb_refl. unfold bconst, bT, bval, bpos. rewrite (dget_In_nodup _ _ _ (r_bk _ Ra) I).
    rewrite (dz_id Ka _ idb Ie); [cbn; ring|]. apply in_or_app. right. now apply (edge_bns Ka idb _ Fb Ie).
  - intros idb cond v I R. pose proof (r_rt _ Rb (idb, (cond, v)) v I (or_introl (conj R eq_refl))) as Q. rewrite P2, last_last in Q. exact Q.
  - intros idb cond v I R. pose proof (r_bf _ Rb _ I) as Fb. cbn [fst] in Fb. destruct (gradient_ok Kb idb v Fb) as (r & G1 & G2). exists r. split; auto.
    assert (Q := r_rt _ Rb (idb, (cond, v)) r I). rewrite P2, last_last in Q. apply Q. right. auto.
  - intros id Pd Nw Nb. change (bgrid m) with (gr (geom (b_grid m))) in Pd. apply Ov; try lia; [rewrite Cg; lia| |].
    + rewrite <- Kw. intros Q. apply dget_keys in Q. contradiction.
    + rewrite <- Eb. intros Q. apply dget_keys in Q. contradiction.
Qed.

(** C37, what holds: on the vectorised path a gradient boundary contributes the
    rate transmissibility * spacing * gradient to its cell, in every step. *)
Lemma L_C37_gradient_partial :
  forall (g : gobj R) f unit pi dt m0 x y z u dx dy dz l1 ob l2 steps slv sc fuel sparse o m s idb cond v,
  bo_new g f unit pi dt = Ok m0 -> model m0 x y z u dx dy dz -> plain m0 l1 ob l2 -> level m0 -> ~ three_d (gr (geom (b_grid m0))) ->
  all_ok (m0, None) (setup l1 ob l2 ++ Compile :: steps ++ [Solve slv sc fuel sparse o]) ->
  along balanced_step (after (m0, None) (setup l1 ob l2 ++ [Compile])) (steps ++ [Solve slv sc fuel sparse o]) -> o_vect o = true ->
  after (m0, None) (setup l1 ob l2 ++ Compile :: steps ++ [Solve slv sc fuel sparse o]) = (m, Some s) ->
  In (idb, (cond, v)) (b_bdict m) -> smem (lower cond) GRAD = true ->
  exists old new rates r, nth_error (s_p s) (length steps) = Some old /\ nth_error (s_p s) (S (length steps)) = Some new /\ nth_error (s_r s) (S (length steps)) = Some rates /\
  gradient_rate m idb v r /\ value rates idb = Some r /\ forall id, In id (b_ids m0) -> cell_balance m0 old new rates id.
Proof.
  intros g f unit pi dt m0 x y z u dx dy dz l1 ob l2 steps slv sc fuel sparse o m s idb cond v Hn K P Lv N3 A L V E I C.
  destruct (L_C92_cell_equation _ _ _ _ _ _ _ _ _ _ _ _ _ _ _ _ _ _ _ _ _ _ _ _ _ Hn K P A L E (fun _ => conj Lv N3)) as (old & new & rates & R1 & R2 & R3 & B).
  destruct (L_C93_recorded_rates _ _ _ _ _ _ _ _ _ _ _ _ _ _ _ _ _ _ _ _ Hn K P A L E) as (new' & rates' & R4 & R5 & _ & _ & _ & Gr & _).
  destruct (Gr _ _ _ I C) as (r & G1 & G2). exists old, new, rates, r. replace rates' with rates in G2 by congruence. do 5 (split; [assumption|]). exact B.
Qed.
(** Three cells at pressure 10, injection into the middle one, pressure 6 on the
    left, gradient 2 on the right; two steps. *)
Example ex_C92_gradient : exists m0 l1 ob l2 steps slv sc fuel sparse o m s, build 3 1 1 None 0%R (Some 10%R) None = Ok m0 /\ (exists g f unit p dt, bo_new g f unit p dt = Ok m0) /\
  (exists x y z u dx dy dz, model m0 x y z u dx dy dz) /\ plain m0 l1 ob l2 /\ level m0 /\ ~ three_d (gr (geom (b_grid m0))) /\
  all_ok (m0, None) (setup l1 ob l2 ++ Compile :: steps ++ [Solve slv sc fuel sparse o]) /\
  along balanced_step (after (m0, None) (setup l1 ob l2 ++ [Compile])) (steps ++ [Solve slv sc fuel sparse o]) /\ o_vect o = true /\
  after (m0, None) (setup l1 ob l2 ++ Compile :: steps ++ [Solve slv sc fuel sparse o]) = (m, Some s) /\ length steps = 1 /\
  In (0%Z, ("pressure"%string, 6%R)) (b_bdict m) /\ In (4%Z, ("gradient"%string, 2%R)) (b_bdict m) /\ smem (lower "gradient") GRAD = true /\ dget 2 (b_wells m) <> None.
Proof.
  destruct run_g as (G & req & HG & m & s & E1 & m1 & E2 & W & E3 & H1 & H2).
  exists (line3 0 false (Some 10%R)), [injector], (Some sides_g), [], [Solve (trial [[15 / 2; 21 / 2; 25 / 2]]%R) SampleWell.one 9 true omb],
    (trial [[15 / 2; 21 / 2; 25 / 2]]%R), SampleWell.one, 9, true, omb, m, s.
  split; [apply line3_zero|]. split; [eapply build_new; apply line3_zero|]. split; [do 7 eexists; apply line3_model; discriminate|].
  split; [eapply plain_bd; eauto|]. split; [apply line3_level|]. split; [intros (_ & F & _); unfold flows in F; cbn in F; lia|].
  destruct (run_bd sides_g steps_i _ m1 m s G req E1 E2 E3) as (A & L & E).
  split; [exact A|]. split; [exact L|]. split; [reflexivity|]. split; [exact E|]. split; [reflexivity|]. rewrite H1. unfold sides_g. cbn [In]. auto 8.
Qed.
