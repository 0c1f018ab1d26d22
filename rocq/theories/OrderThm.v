(** The order of the calls that set a model up does not matter. *)
From Coq Require Import String ZArith Bool Arith List Lia Permutation Reals Lra.
From Verif Require Import Prelude PreludeFacts Num GridModel GridSpec GeoModel GeoSpec PropModel PropSpec
  UnitsModel BlackOilModel FdmModel MonadFacts HistSpec FrameFacts WellThm KeptFacts InvFacts AsmFacts ModelSpec ModelFacts VectFacts AssemblyThm Samples SampleFacts SampleWell SampleBal SolverSpec SolveSpec StepSpec StepFacts WellStepFacts
  MemoThm BalanceSpec FdmSpec BalFacts CanonFacts StepBal SetupFacts BalanceThm ClosedSpec ClosedThm LocalSpec LocalThm SampleLocal TotalSpec TotalHist ChangeSpec ChangeFacts ChangeThm CompareSpec CompareFacts SampleCompare CompareThm SuperSpec SuperFacts SampleSuper SuperThm OrderSpec OrderFacts.
Import ListNotations.
Close Scope R_scope.
Open Scope nat_scope.

Lemma wells_bdict l : Forall sets_well l -> forall x : ws R, b_bdict (fst (after x l)) = b_bdict (fst x).
Proof.
  induction 1 as [|c l Hc Hl IH]; intros x; [reflexivity|]. cbn [after fold_left]. refine (eq_trans (IH _) _). apply exec_bdict. now destruct c.
Qed.
Lemma boundaries_bdict bd (x : ws R) : b_bdict (fst (fst (set_boundaries bd x))) = bd.
Proof.
  unfold set_boundaries. unfold mbind at 1. unfold mset at 1. cbv beta iota.
  set (y := (set_bdict bd (fst x), snd x)). assert (Ey : b_bdict (fst y) = bd) by (unfold y; destruct (fst x); reflexivity). clearbody y.
  match goal with |- b_bdict (fst (fst (?c y))) = _ => assert (Q : inv (fun x : ws R => b_bdict (fst x) = bd) c) end; [|exact (Q y Ey)].
  isplit.
  - match goal with a : (Z * (string * R))%type |- _ => destruct a as [id [c w]] end. isplit. apply (c_boundary (fun m => b_bdict m = bd)); intros v []; exact (fun H => H).
  - apply i_set. intros [[] o] z H E. inversion E; subst. exact H.
Qed.
Lemma prepared_bdict (m0 : bo R) l1 ob l2 : b_bdict m0 = [] -> Forall sets_well l1 -> Forall sets_well l2 -> b_bdict (prepared m0 l1 ob l2) = match ob with Some bd => bd | None => [] end.
Proof.
  intros B F1 F2. unfold prepared, setup. rewrite !after_app, (wells_bdict l2 F2). destruct ob as [bd|]; cbn [after fold_left exec]; [apply boundaries_bdict|]. now rewrite (wells_bdict l1 F1).
Qed.
(** C116: two simulations of one reservoir that differ only in the order in which
    wells and boundary conditions were set have the same pressures in every step. *)
Lemma L_C116_order :
  forall (g : gobj R) f unit pi dt l1 ob l2 l1' ob' l2' st st' m m' ma ma' s s' x y z u dx dy dz k r r',
  simulated g f unit pi dt l1 ob l2 st m ma s -> simulated g f unit pi dt l1' ob' l2' st' m' ma' s' -> model m x y z u dx dy dz ->
  rearranged l1 ob l2 l1' ob' l2' -> conditioned (prepared m l1 ob l2) -> operated (prepared m l1 ob l2) -> Forall2 same_path st st' ->
  (b_cmp m = true /\ (exists v, pi = Some v) \/ b_cmp m = false /\ anchored (prepared m l1 ob l2)) ->
  nth_error (s_p s) (S k) = Some r -> nth_error (s_p s') (S k) = Some r' -> same_pressures m r r'.
Proof.
  intros g f unit pi dt l1 ob l2 l1' ob' l2' st st' m m' ma ma' s s' x y z u dx dy dz k r r' S0 S1 K (Hw & Hb) Cn Op Sp Hc N0 N1.
  assert (E1 : m' = m) by (destruct S0 as (A & _), S1 as (B & _); congruence). subst m'.
  destruct (sim_start _ _ _ _ _ _ _ _ _ _ _ _ _ _ _ _ _ _ _ S0 K) as (C0 & R0 & _). destruct (sim_start _ _ _ _ _ _ _ _ _ _ _ _ _ _ _ _ _ _ _ S1 K) as (C1 & R1 & _).
  pose proof S0 as (Hn & (P1 & F1 & F2 & _) & _). pose proof S1 as (_ & (P1' & F1' & F2' & _) & _).
  destruct (bo_new_wide _ _ _ _ _ _ Hn) as (Wd & _ & _).
  assert (Bm : b_bdict m = []) by exact (proj1 (proj2 (proj2 (new_empty _ _ _ _ _ _ Hn)))).
  assert (Ew : forall id, dget id (b_wells (prepared m l1' ob' l2')) = dget id (b_wells (prepared m l1 ob l2))).
  { intros id. unfold prepared. rewrite (setup_cell m _ id l1' ob' l2' Wd F1' F2'), (setup_cell m _ id l1 ob l2 Wd F1 F2). now rewrite (Hw id). }
  assert (Eb : forall id, dget id (b_bdict (prepared m l1' ob' l2')) = dget id (b_bdict (prepared m l1 ob l2))).
  { intros id. rewrite !prepared_bdict by auto. destruct ob as [bd|], ob' as [bd'|]; try contradiction; auto. symmetry. apply dget_perm; [apply P1|exact Hb]. }
  set (p0 := prepared m l1 ob l2) in *. set (p1 := prepared m l1' ob' l2') in *.
  assert (Mx : controls_mixed 0 0 p0 p0 p0 p0) by (apply (same_mixed p0 p0 p0 p0 x y z u dx dy dz (model_core _ _ _ _ _ _ _ _ _ (eq_sym C0) K) _ R0 Cn Op); auto).
  assert (Mx' : controls_mixed 0 0 p0 p0 p0 p1).
  { destruct Mx as (Mw & Mb). split.
    - intros id. specialize (Mw id). unfold well_gives in *. rewrite (Ew id). exact Mw.
    - intros idb. specialize (Mb idb). unfold bound_gives in *. rewrite (Eb idb). destruct Mb as [(q0 & q1 & q2 & A0 & A1 & A2 & A3)|A]; [left|right; exact A]. exists q0, q1, q2. repeat split; auto.
      destruct (dget idb (b_bdict p0)); auto. apply (rate_given_core p1 p0); auto; congruence. }
  assert (Sp0 : Forall2 same_path st st).
  { clear -Sp. induction Sp as [|c c' st st' Q Qs IH]; constructor; auto. destruct c, c'; try contradiction. reflexivity. }
  assert (Hc' : b_cmp m = true /\ (exists v0 v1 v2, pi = Some v0 /\ pi = Some v1 /\ pi = Some v2 /\ pi = Some (mix 0 0 v0 v1 v2)) \/ b_cmp m = false /\ anchored p0).
  { destruct Hc as [(Cm & v & Ev)|Hc]; [left; split; auto; exists v, v, v; rewrite mix_same; auto|right; exact Hc]. }
  destruct (sim_mix _ _ _ _ _ _ _ _ _ _ _ _ _ _ _ _ _ _ _ _ _ _ _ _ _ _ _ _ _ _ _ _ _ _ _ _ _ _ _ _ _ _ _ 0%R 0%R S0 S0 S0 S1 K Sp0 Sp0 Sp Mx' Hc') as (h0 & h1 & h2 & h3 & P0 & Pa & Pb & P3 & Q0 & Q1 & Q2 & Q3 & Q4 & Q5).
  rewrite Q0 in Q1, Q2. injection Q1 as <- <-. injection Q2 as <- <-. rewrite Q0 in N0. rewrite Q3 in N1. cbn [nth_error] in N0, N1.
  intros id I. destruct (rows4_after _ _ _ _ _ Q4 k r r r r' N0 N0 N0 N1 id I) as (v0 & v1 & v2 & A0 & A1 & A2 & A3). exists v0. split; auto. rewrite A3. f_equal. unfold mix. ring.
Qed.

(** The same two wells and boundary conditions, each set in the other order. *)
Lemma swapped_run p q q' a b c : (0 < b)%R -> (0 < b + 8 * q)%R -> (0 < c)%R -> (0 < c + 8 * q')%R -> (4 * a - b = 12 + p)%R -> (3 * b - a - c = p + q)%R -> (2 * c - b = p + q')%R ->
  exists m s, simulates (line3 (1 + 0) true (Some p)) [] (Some (rev (sides 0))) [far q'; pump q] [reply a b c] m s /\ operated (prepared (line3 (1 + 0) true (Some p)) [] (Some (rev (sides 0))) [far q'; pump q]) /\
    nth_error (s_p s) 1 = Some [Some 6; Some a; Some b; Some c; None]%R.
Proof.
  intros B0 B1 B2 B3 H1 H2 H3. pose proof well_G_low as HL.
  assert (HX : (0 < 2 * PI * (864 / 10000) * 1 * 1 / ln (14 / 100 * sqrt (1 * 1 + 1 * 1) / (1 / 2) * 12))%R).
  { pose proof (well_G_pos (864 / 10000) (1 / 2)) as HX. revert HX. rrun. intros HX. apply HX; lra. }
  assert (E : exists mb mc m1, exec (Set_boundaries (rev (sides 0))) (line3 (1 + 0) true (Some p), None) = ((mb, None), Ok tt) /\ exec (far q') (mb, None) = ((mc, None), Ok tt) /\ exec (pump q) (mc, None) = ((m1, None), Ok tt) /\ exists m s,
    (forall id w, dget id (b_wells m1) = Some w -> w_con w = Some (Some "q"%string)) /\ operated m1 /\
    (all_ok (m1, Some (fdm_new m1)) [reply a b c] /\ along balanced_step (m1, Some (fdm_new m1)) [reply a b c] /\ after (m1, Some (fdm_new m1)) [reply a b c] = (m, Some s)) /\
    nth_error (s_p s) 1 = Some [Some 6; Some a; Some b; Some c; None]%R).
  { do 3 eexists. split; [cbn [exec]; unfold sides; mrun|]. split; [unfold far; estep|]. split; [unfold pump; estep|].
    pose proof (Rinv_0_lt_compat _ HX) as HX'. revert HX HX' HL. generalize (2 * PI * (864 / 10000) * 1 * 1 / ln (14 / 100 * sqrt (1 * 1 + 1 * 1) / (1 / 2) * 12))%R. intros G HG HG' HL.
    assert (HB : (0 < b + q * 1 * 1 / G)%R) by (apply well_limit; lra). assert (HB' : (0 < c + q' * 1 * 1 / G)%R) by (apply well_limit; lra). do 2 eexists.
    split; [intros id w; cbn; destruct (Z.eqb id 3); [intros [= <-]; reflexivity|]; destruct (Z.eqb id 2); [intros [= <-]; reflexivity|discriminate]|]. split; [intros id w; cbn; destruct (Z.eqb id 3); [intros [= <-]; left; eexists; split; reflexivity|]; destruct (Z.eqb id 2); [intros [= <-]; left; eexists; split; reflexivity|discriminate]|]. split; [|shelve].
    unfold reply. eapply bal_step; [estep|apply trial_exact|reflexivity|reflexivity|reflexivity|reflexivity| |].
    - intros id w1 w2. cbn. destruct (Z.eqb id 3); [intros [= <-] [= <-]; reflexivity|]. destruct (Z.eqb id 2); [intros [= <-] [= <-]; reflexivity|discriminate].
    - split; [exact I|]. split; [exact I|]. reflexivity.
    Unshelve. reflexivity. }
  destruct E as (mb & mc & m1 & E1 & E2 & E3 & m & s & W & Op & E4 & N). exists m, s.
  destruct (wells_sim (1 + 0) true p (rev (sides 0)) [far q'; pump q] mb m1 [reply a b c] m s) as (Q1 & Q2); [unfold sides, tap; cbn; repeat constructor; cbn; intuition discriminate|cbn; intuition|repeat constructor|auto| | |auto|auto|].
  - cbn [all_ok]. rewrite E2. cbn [fst snd]. rewrite E3. auto.
  - cbn [after fold_left]. rewrite E2. cbn [fst snd]. now rewrite E3.
  - rewrite Q2. auto.
Qed.
(** C116: two wells and two boundary conditions, each in either order. *)
Example ex_C116_case : exists g f unit dt l1 ob l2 ob' l2' st st' m ma ma' s s' r r',
  simulated g f unit (Some 6%R) dt l1 ob l2 st m ma s /\ simulated g f unit (Some 6%R) dt l1 ob' l2' st' m ma' s' /\ (exists x y z u dx dy dz, model m x y z u dx dy dz) /\
  rearranged l1 ob l2 l1 ob' l2' /\ ob <> ob' /\ l2 <> l2' /\ length l2 = 2 /\ conditioned (prepared m l1 ob l2) /\ operated (prepared m l1 ob l2) /\ Forall2 same_path st st' /\ b_cmp m = true /\
  nth_error (s_p s) 1 = Some r /\ nth_error (s_p s') 1 = Some r' /\ value r 3 = Some (13 / 2)%R.
Proof.
  destruct line3_made as (g & f & unit & dt & Hn).
  destruct (both_run 6 (-1 / 2) 1 6 6 (13 / 2)) as (p3 & ma3 & s3 & S3 & P3 & R3); try lra. destruct (swapped_run 6 (-1 / 2) 1 6 6 (13 / 2)) as (ma4 & s4 & S4 & Op & R4); try lra.
  exists g, f, unit, dt, [], (Some (rev (sides 0))), [far 1; pump (-1 / 2)], (Some (sides 0)), [pump (-1 / 2); far 1], [reply 6 6 (13 / 2)], [reply 6 6 (13 / 2)], (line3 (1 + 0) true (Some 6%R)), ma4, ma3, s4, s3. do 2 eexists.
  split; [split; [apply Hn|exact S4]|]. split; [split; [apply Hn|exact S3]|]. split; [do 7 eexists; apply line3_model; intros; lra|]. split.
  { split; [|apply Permutation_sym, Permutation_rev]. intros i. unfold pump, far. cbn [app filter on_cell]. destruct (Z.eqb_spec 2 i), (Z.eqb_spec 3 i); try reflexivity. lia. }
  split; [discriminate|]. split; [discriminate|]. split; [reflexivity|]. split.
  { intros e. rewrite prepared_bdict; [|reflexivity|constructor|repeat constructor]. unfold sides. intros [<-|[<-|[]]]; cbn; auto. }
  split; [exact Op|]. split; [repeat constructor|]. split; [reflexivity|]. split; [exact R4|]. split; [exact R3|reflexivity].
Qed.
