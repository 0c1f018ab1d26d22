(** A sample reservoir with twice the permeability and twice the viscosity. *)
From Coq Require Import String ZArith Bool Arith List Lia Reals Lra FunctionalExtensionality.
From Verif Require Import Prelude PreludeFacts Num GridModel GridSpec GeoModel GeoSpec PropModel PropSpec PropProofs
  UnitsModel BlackOilModel FdmModel MonadFacts HistSpec AsmFacts ModelSpec ModelFacts Samples SampleFacts AssemblyThm SampleWell SolverSpec SolveSpec BalanceSpec SampleBal CompareSpec SampleCompare LocalSpec TurnSpec SampleTurn SampleRaise.
Import ListNotations.
Close Scope R_scope.
Open Scope nat_scope.

Definition gthick : gobj R :=
  let u := repeat 1%R 5 in let k := repeat 2%R 5 in let z := repeat 0%R 5 in
  mkGobj (mkGeo (mkGrid 3 1 1 true) u u u u u u)
    (mkProps (mkProp (Some k) (Some k) true) (mkProp (Some k) (Some k) true) (mkProp (Some k) (Some k) true)
             (mkProp (Some u) (Some u) true) (mkProp (Some z) (Some z) true) (Some 0%R) (Some "incompressible"%string)) 1%R.
Lemma gthick_made : gobj_new 3 1 1 true (Scalar 1%R) (Scalar 1%R) (Scalar 1%R) (Some (Scalar 2%R)) (Some (Scalar 2%R)) (Some (Scalar 2%R)) (Some (Scalar 1%R)) None None 1%R = Ok gthick.
Proof. unfold gobj_new, geo_new. cbn -[IZR Rdiv]. unfold set_comp, comp_class. cbn -[IZR Rdiv]. rewrite (Reqb_eq 0 0 eq_refl). unfold gthick. cbn -[IZR]. repeat f_equal; lra. Qed.
Definition thick (p : R) : bo R :=
  mkBo gthick [1; 2; 3]%Z 2%R 1%R (1 / 1000 * 0 * (9806635 / 1000000))%R (864 / 10000)%R 1%R 1%R (1 + 0)%R true
    (repeat (1 * 1 * 1 * 1 * (1 + 0) / (1 * 1 * 1))%R 5)
    [None; Some p; Some p; Some p; None] (repeat (Some 0%R) 5) [] [] [] [] [].
Lemma thick_made p : exists f f', thicker 2 f f' /\ bo_new gline3 f "metric" (Some p) 1%R = Ok (line3 (1 + 0) true (Some p)) /\ bo_new gthick f' "metric" (Some p) 1%R = Ok (thick p).
Proof.
  assert (Q1 : Reqb 1 0 = false) by (apply Reqb_ne; lra). assert (Q2 : Rltb 0 1 = true) by (apply Rltb_true; lra).
  assert (H : forall mu, exists f, fluid_new (Some mu) (Some 1%R) None (Some 1%R) "metric" = Ok f /\ f_mu f = Some mu /\ f_B f = Some 1%R /\ f_g f = Some (1 / 1000 * 0 * (9806635 / 1000000))%R /\ f_c f = mkCobj (Some 1%R) (Some (Some "compressible"%string))).
  { intros mu. unfold fluid_new. cbn -[IZR]. unfold fset_props, fset_comp, cset. cbn -[IZR]. rewrite Q1, Q2. cbn -[IZR]. eexists. split; [reflexivity|]. cbn. auto. }
  destruct (H 1%R) as (f & _ & M1 & B1 & G1 & C1). destruct (H 2%R) as (f' & _ & M2 & B2 & G2 & C2). exists f, f'.
  split; [exists 1%R, 1%R, 2%R, 1%R; repeat (split; [assumption|]); split; [lra|congruence]|].
  assert (Q3 : Reqb (1 + 0) 0 = false) by (apply Reqb_ne; lra). assert (Q4 : Rltb 0 (1 + 0) = true) by (apply Rltb_true; lra).
  split; unfold bo_new, calc_comp; rewrite ?M1, ?B1, ?G1, ?C1, ?M2, ?B2, ?G2, ?C2; cbn -[IZR]; unfold cset; cbn -[IZR]; rewrite Q3, Q4; unfold line3, thick;
    lazy -[IZR Rplus Rmult Rdiv Rinv Ropp]; reflexivity.
Qed.
Lemma thick_model p : model (thick p) 3 1 1 true (Scalar 1%R) (Scalar 1%R) (Scalar 1%R).
Proof.
  constructor.
  - constructor; cbn [positive_input]; try lra.
    + reflexivity.
    + cbn. lra.
    + intros a Fa. exists (repeat 2%R 5). destruct a; cbn; repeat split; try (repeat constructor; lra). unfold flows in Fa. cbn in Fa. lia.
    + intros n l E. destruct n; cbn in E; inversion E; reflexivity.
  - left. unfold flows. cbn. lia.
  - reflexivity.
  - cbn. lra.
  - cbn. lra.
  - reflexivity.
  - cbn. repeat constructor; lra.
  - exists (repeat 0%R 5). split; reflexivity.
Qed.
Section runs.
Variable (m : bo R).
Hypothesis (Hg : b_grid m = gthick) (Hmu : b_mu m = 2%R) (HB : b_B m = 1%R).
Ltac cellt := unfold get_cell_trans, muB; rewrite Hg, Hmu, HB; unfold get_cell_G;
  lazy -[Reqb Rltb IZR Rplus Rmult Rdiv Rinv Ropp Rminus]; rewrite !(Reqb_eq 2 2 eq_refl);
  lazy -[Reqb Rltb IZR Rplus Rmult Rdiv Rinv Ropp Rminus].
Lemma T3_thick : (1 * ((2 + 2) / 2) * ((1 * 1 + 1 * 1) / 2) / ((1 + 1) / 2) / (2 * 1) = T3)%R. Proof. rewrite T3_1. field. Qed.
Lemma thick_edge0 : get_cell_trans m 0 false = Ok [(1%Z, T3)]. Proof. cellt. rewrite T3_thick. reflexivity. Qed.
Lemma thick_edge4 : get_cell_trans m 4 false = Ok [(3%Z, T3)]. Proof. cellt. rewrite T3_thick. reflexivity. Qed.
Lemma thick_trans : get_cells_trans m false = Ok M3.
Proof.
  assert (E0 : get_cells_trans m false = get_cells_trans (thick 0) false) by (unfold get_cells_trans, muB; now rewrite Hg, Hmu, HB). rewrite E0. clear.
  destruct (trans_ok (thick_model 0)) as (M & E & _). rewrite E. f_equal.
  assert (E' : M = match get_cells_trans (thick 0) false with Ok M => M | Err _ => mat0 0 end) by now rewrite E.
  assert (E1 : msize M = 3).
  { rewrite E'. lazy -[Reqb Rltb IZR Rplus Rmult Rdiv Rinv Ropp Rminus]. rewrite ?(Reqb_eq 2 2 eq_refl), ?(Reqb_eq 1 1 eq_refl). reflexivity. }
  assert (E2 : ment M = ment M3).
  { extensionality p. extensionality q. rewrite E'. unfold M3, T3.
    lazy -[Reqb Rltb IZR Rplus Rmult Rdiv Rinv Ropp Rminus]. rewrite ?(Reqb_eq 2 2 eq_refl), ?(Reqb_eq 1 1 eq_refl).
    destruct p as [|[|[|p]]], q as [|[|[|q]]]; lazy -[Reqb Rltb IZR Rplus Rmult Rdiv Rinv Ropp Rminus]; try reflexivity; try field;
    try (destruct p as [|[|p]]; lazy -[Reqb Rltb IZR Rplus Rmult Rdiv Rinv Ropp Rminus]; field);
    try (destruct q as [|[|q]]; lazy -[Reqb Rltb IZR Rplus Rmult Rdiv Rinv Ropp Rminus]; field).
    repeat match goal with |- context[if ?b then _ else _] => destruct b end; field. }
  destruct M. cbn in *. subst. reflexivity.
Qed.
End runs.
Ltac rtrans ::= rewrite ?thick_trans, ?thick_edge0, ?thick_edge4 by reflexivity.
Lemma thick_run : exists m1 m s, simulates (thick 10) [] (Some (sides 0)) [] [reply (70 / 9) (82 / 9) (86 / 9)] m s /\
    prepared (thick 10) [] (Some (sides 0)) [] = m1 /\ b_wells m1 = [] /\ b_bdict m1 = sides 0 /\
    nth_error (s_p s) 1 = Some [Some 6; Some (70 / 9); Some (82 / 9); Some (86 / 9); None]%R.
Proof.
  assert (E : exists m1 m s, exec (Set_boundaries (sides 0)) (thick 10, None) = ((m1, None), Ok tt) /\ b_wells m1 = [] /\ b_bdict m1 = sides 0 /\
    (all_ok (m1, Some (fdm_new m1)) [reply (70 / 9) (82 / 9) (86 / 9)] /\ along balanced_step (m1, Some (fdm_new m1)) [reply (70 / 9) (82 / 9) (86 / 9)] /\ after (m1, Some (fdm_new m1)) [reply (70 / 9) (82 / 9) (86 / 9)] = (m, Some s)) /\
    nth_error (s_p s) 1 = Some [Some 6; Some (70 / 9); Some (82 / 9); Some (86 / 9); None]%R).
  { do 3 eexists. split; [cbn [exec]; unfold sides; mrun|]. split; [reflexivity|]. split; [reflexivity|]. split; [|shelve].
    unfold reply. eapply bal_step; [estep|apply trial_exact|reflexivity|reflexivity|reflexivity|reflexivity| |].
    - intros id w1 w2. cbn. discriminate.
    - split; [exact I|]. split; [exact I|]. reflexivity.
    Unshelve. reflexivity. }
  destruct E as (m1 & m & s & E1 & W & Bd & (A & L & Ea) & N). exists m1, m, s.
  unfold simulates, prepared, plain, setup. cbn [app all_ok after fold_left]. rewrite E1. unfold controlled. cbn [fst snd]. rewrite W. split; [|auto].
  split; [|auto]. split; [split; [unfold sides; cbn; repeat constructor; cbn; intuition discriminate|]|].
  - rewrite Forall_forall. intros e I. apply (side_faces 1 true None). unfold sides in I. cbn in I. destruct I as [<-|[<-|[]]]; auto.
  - do 2 (split; [constructor|]). split; [left; apply (line3_level 1 true None)|]. intros id w (Q & _). discriminate.
Qed.
