(** How pressures evolve from step to step under controls that do not change. *)
From Coq Require Import String ZArith Bool Arith List Lia Reals Lra.
From Verif Require Import Prelude PreludeFacts Num GridModel GridSpec GeoModel GeoSpec PropModel PropSpec
  UnitsModel BlackOilModel FdmModel MonadFacts HistSpec InvFacts AsmFacts ModelSpec ModelFacts VectFacts SolverSpec SolveSpec StepSpec StepFacts WellStepFacts
  BalanceSpec FdmSpec BalFacts CanonFacts StepBal SetupFacts BalanceThm ClosedSpec LocalSpec LocalThm TotalSpec TotalHist ChangeSpec ChangeFacts ChangeThm CompareSpec CompareFacts CompareThm EvolveSpec.
Import ListNotations.
Close Scope R_scope.
Open Scope nat_scope.

Fixpoint linked (Q : list (fl R) -> list (fl R) -> Prop) (a : list (fl R)) (P : list (list (fl R))) : Prop :=
  match P with [] => True | b :: P => Q a b /\ linked Q b P end.
Lemma linked_nth Q : forall P a k r r', linked Q a P -> nth_error (a :: P) k = Some r -> nth_error (a :: P) (S k) = Some r' -> Q r r'.
Proof.
  induction P as [|b P IH]; intros a k r r' L N1 N2; cbn in N2; [destruct k; discriminate|]. destruct L as (L1 & L2).
  destruct k as [|k]; cbn in N1, N2; [congruence|]. exact (IH b k r r' L2 N1 N2).
Qed.
Lemma conditioned_kept m m' : same_controls m m' -> conditioned m -> conditioned m'.
Proof. intros (E & _) H e I. apply H. congruence. Qed.
Lemma operated_kept m m' : same_controls m m' -> operated m -> operated m'.
Proof.
  intros S H id w' E. pose proof (controls_get m m' id S) as Q. rewrite E in Q. destruct (dget id (b_wells m)) as [w|] eqn:Ew; [|contradiction]. destruct Q as (Q1 & Q2).
  destruct (H id w Ew) as [(q & A)|(G & p & A & L)]; [left; exists q; now apply Q1|right; exists G, p; split; auto; now apply Q2].
Qed.
Lemma rates_kept m m' : same_controls m m' -> rates_only m -> rates_only m'.
Proof.
  intros S (H & B). split; [|intros e I; destruct S as (E & _); apply B; congruence].
  intros id w' E. pose proof (controls_get m m' id S) as Q. rewrite E in Q. destruct (dget id (b_wells m)) as [w|] eqn:Ew; [|contradiction]. destruct Q as (Q1 & Q2).
  destruct (H id w Ew) as (q & A). exists q. now apply Q1.
Qed.
Section evolve.
Context (m0 : bo R) (x y z : nat) (u : bool) (dx dy dz : dinput R) (K : model m0 x y z u dx dy dz).
Notation g := (gr (geom (b_grid m0))).
Definition ordered (up : bool) (c : R) (r r' : list (fl R)) : Prop := if up then below m0 c r r' else below m0 c r' r.
Lemma evolve up v c : forall st pm ps m s mb sb prow rrow,
  stepped m0 v pm m ps s prow rrow -> conditioned m -> operated m -> (c <= 0)%R \/ rates_only m ->
  (b_cmp m0 = true /\ ordered up c (last (s_p ps) []) prow \/ b_cmp m0 = false /\ anchored m) -> Forall (path v) st ->
  all_ok (m, Some s) st -> along balanced_step (m, Some s) st -> after (m, Some s) st = (mb, Some sb) ->
  exists P, s_p sb = (s_p s ++ P)%list /\ linked (ordered up c) prow P.
Proof.
  induction st as [|call st IH]; intros pm ps m s mb sb prow rrow S Cn Op Hr Hc F A L E.
  - injection E as <- <-. exists []. rewrite app_nil_r. split; [auto|exact I].
  - cbn [all_ok along after fold_left] in *. destruct A as (A & A'), L as (L & L'). inversion F as [|? ? Fp F']; subst.
    destruct (solve_stepped m0 x y z u dx dy dz K call m s (sp_cb _ _ _ _ _ _ _ _ S) (sp_rb _ _ _ _ _ _ _ _ S) A L) as (slv & sc & fu & spr & o & mc & sc' & n & r & Ec & Fx & S' & SC). rewrite Fx in *. subst call. cbn [path] in Fp. rewrite Fp in S'.
    assert (Rb := sp_rb _ _ _ _ _ _ _ _ S). assert (Cb := sp_cb _ _ _ _ _ _ _ _ S). assert (Cb' := sp_cb _ _ _ _ _ _ _ _ S').
    destruct (controls_refl c m mc x y z u dx dy dz s (model_core _ _ _ _ _ _ _ _ _ (eq_sym Cb) K) ltac:(congruence) Rb SC Cn Op Hr) as (B1 & B2).
    assert (El : last (s_p s) [] = prow) by now rewrite (sp_p _ _ _ _ _ _ _ _ S), last_last.
    assert (O : ordered up c prow n).
    { destruct up; cbn [ordered] in *.
      - apply (compare_step m0 x y z u dx dy dz K c v pm m ps s prow rrow m mc s sc' n r S S' B1). destruct Hc as [(Cm & Hc)|Hc]; [left|right; auto]. rewrite El. auto.
      - apply (compare_step m0 x y z u dx dy dz K c v m mc s sc' n r pm m ps s prow rrow S' S B2). destruct Hc as [(Cm & Hc)|(Cm & An)]; [left; rewrite El; auto|right]. split; auto. now apply (anchored_kept m). }
    destruct (IH m s mc sc' mb sb n r S') as (P & Q1 & Q2); auto.
    + now apply (conditioned_kept m).
    + now apply (operated_kept m).
    + destruct Hr; auto. right. now apply (rates_kept m).
    + rewrite El. destruct Hc as [(Cm & Hc)|(Cm & An)]; [left; auto|right]. split; auto. now apply (anchored_kept m).
    + exists (n :: P). rewrite Q1, (sp_p _ _ _ _ _ _ _ _ S'), <- app_assoc. split; [reflexivity|]. split; auto.
Qed.
Lemma rows_grow : forall st m s mb sb, core m = core m0 -> ready (m := m) s -> all_ok (m, Some s) st -> along balanced_step (m, Some s) st -> after (m, Some s) st = (mb, Some sb) -> exists P, s_p sb = (s_p s ++ P)%list.
Proof.
  induction st as [|call st IH]; intros m s mb sb C R A L E; [injection E as <- <-; exists []; now rewrite app_nil_r|].
  cbn [all_ok along after fold_left] in *. destruct A as (A & A'), L as (L & L').
  destruct (solve_stepped m0 x y z u dx dy dz K call m s C R A L) as (slv & sc & fu & spr & o & mc & sc' & n & r & Ec & Fx & S' & SC). rewrite Fx in *.
  destruct (IH mc sc' mb sb) as (P & ->); auto; [apply S'|apply S'|]. rewrite (sp_p _ _ _ _ _ _ _ _ S'), <- app_assoc. eauto.
Qed.
(** From the start: once the first step goes one way, all do. *)
Lemma evolve_from up v c st m s mb sb : core m = core m0 -> ready (m := m) s -> conditioned m -> operated m -> (c <= 0)%R \/ rates_only m -> Forall (path v) st ->
  all_ok (m, Some s) st -> along balanced_step (m, Some s) st -> after (m, Some s) st = (mb, Some sb) ->
  (forall n, nth_error (s_p sb) (length (s_p s)) = Some n -> b_cmp m0 = true /\ ordered up c (last (s_p s) []) n \/ b_cmp m0 = false /\ anchored m) ->
  exists P, s_p sb = (s_p s ++ P)%list /\ match P with [] => True | n :: P => linked (ordered up c) n P end.
Proof.
  intros C R Cn Op Hr F A L E H0. destruct st as [|call st]; [injection E as <- <-; exists []; rewrite app_nil_r; auto|].
  cbn [all_ok along after fold_left] in *. destruct A as (A & A'), L as (L & L'). inversion F as [|? ? Fp F']; subst.
  destruct (solve_stepped m0 x y z u dx dy dz K call m s C R A L) as (slv & sc & fu & spr & o & mc & sc' & n & r & Ec & Fx & S' & SC). rewrite Fx in *. subst call. cbn [path] in Fp. rewrite Fp in S'.
  assert (Cb := sp_cb _ _ _ _ _ _ _ _ S'). assert (Rb := sp_rb _ _ _ _ _ _ _ _ S').
  destruct (rows_grow st mc sc' mb sb Cb Rb A' L' E) as (P & EP).
  assert (Hn : nth_error (s_p sb) (length (s_p s)) = Some n) by (rewrite EP, (sp_p _ _ _ _ _ _ _ _ S'), <- app_assoc, nth_error_app2, Nat.sub_diag by lia; reflexivity).
  destruct (evolve up v c st m s mc sc' mb sb n r S') as (P' & E1 & E2); auto.
  - now apply (conditioned_kept m).
  - now apply (operated_kept m).
  - destruct Hr; auto. right. now apply (rates_kept m).
  - destruct (H0 n Hn) as [Q|(Cm & An)]; [left; auto|right]. split; auto. now apply (anchored_kept m).
  - exists (n :: P'). rewrite E1, (sp_p _ _ _ _ _ _ _ _ S'), <- app_assoc. auto.
Qed.
End evolve.
