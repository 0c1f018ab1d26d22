(** The sample models are models of positive rock and fluid. *)
From Coq Require Import String ZArith Bool Arith List Lia Reals Lra FunctionalExtensionality.
From Verif Require Import Prelude PreludeFacts Num GridModel GridSpec GeoModel GeoSpec GeoProofs PropModel PropSpec PropProofs PropThm
  UnitsModel BlackOilModel FdmModel MonadFacts Samples AsmFacts ModelSpec ModelFacts.
Import ListNotations.
Close Scope R_scope.
Open Scope nat_scope.

(** Three cells in a row. *)
Definition line3 (c : R) (cmp : bool) (pi : fl R) : bo R :=
  mkBo gline3 [1; 2; 3]%Z 1%R 1%R (1 / 1000 * 0 * (9806635 / 1000000))%R (864 / 10000)%R 1%R 1%R c cmp
    (repeat (if cmp then 1 * 1 * 1 * 1 * c / (1 * 1 * 1) else 0)%R 5)
    [None; pi; pi; pi; None] (repeat (Some 0%R) 5) [] [] [] [] [].
Lemma Reqb_eq a b : a = b -> Reqb a b = true. Proof. intros ->. destruct (Reqb_spec b b); congruence. Qed.
Lemma Reqb_ne a b : a <> b -> Reqb a b = false. Proof. intros H. destruct (Reqb_spec a b); congruence. Qed.
Lemma line3_pos c (pi : fl R) : (0 < c)%R -> build 3 1 1 None c pi None = Ok (line3 (c + 0) true pi).
Proof.
  intros Hc.
  assert (Q1 : Reqb c 0 = false) by (apply Reqb_ne; lra).
  assert (Q2 : Rltb 0 c = true) by (apply Rltb_true; lra).
  assert (Q3 : Reqb (c + 0) 0 = false) by (apply Reqb_ne; lra).
  assert (Q4 : Rltb 0 (c + 0) = true) by (apply Rltb_true; lra).
  unfold build, gobj_new, geo_new. cbn -[IZR fluid_new bo_new]. unfold set_comp, comp_class. cbn -[IZR fluid_new bo_new]. rewrite (Reqb_eq 0 0 eq_refl).
  unfold fluid_new. cbn -[IZR bo_new]. unfold fset_props, fset_comp, cset. cbn -[IZR bo_new]. rewrite Q1, Q2. cbn -[IZR bo_new].
  unfold bo_new. cbn -[IZR]. unfold cset. cbn -[IZR]. rewrite Q3, Q4. unfold line3.
  destruct pi; lazy -[IZR Rplus Rmult Rdiv Rinv Ropp]; reflexivity.
Qed.
Lemma line3_zero (pi : fl R) : build 3 1 1 None 0%R pi None = Ok (line3 0%R false pi).
Proof.
  unfold build, gobj_new, geo_new. cbn -[IZR fluid_new bo_new]. unfold set_comp, comp_class. cbn -[IZR fluid_new bo_new]. rewrite (Reqb_eq 0 0 eq_refl).
  unfold fluid_new. cbn -[IZR bo_new]. unfold fset_props, fset_comp, cset. cbn -[IZR bo_new]. rewrite (Reqb_eq 0 0 eq_refl). cbn -[IZR bo_new].
  unfold bo_new. cbn -[IZR]. unfold cset. cbn -[IZR]. rewrite ?(Reqb_eq 0 0 eq_refl). unfold line3.
  destruct pi; lazy -[IZR Rplus Rmult Rdiv Rinv Ropp]; reflexivity.
Qed.
Lemma gline3_rock : rock (gline3 : gobj R) 3 1 1 true (Scalar 1%R) (Scalar 1%R) (Scalar 1%R).
Proof.
  constructor; cbn [positive_input]; try lra.
  - reflexivity.
  - cbn. lra.
  - intros a Fa. exists (repeat 1%R 5). destruct a; cbn; repeat split; try (repeat constructor; lra). unfold flows in Fa. cbn in Fa. lia.
  - intros n l E. destruct n; cbn in E; inversion E; reflexivity.
Qed.
Lemma line3_model c cmp pi : (cmp = true -> 0 < c)%R -> model (line3 c cmp pi) 3 1 1 true (Scalar 1%R) (Scalar 1%R) (Scalar 1%R).
Proof.
  intros Hc. constructor.
  - exact gline3_rock.
  - left. unfold flows. cbn. lia.
  - reflexivity.
  - cbn. lra.
  - cbn. lra.
  - reflexivity.
  - cbn. destruct cmp; repeat constructor. all: apply Rdiv_lt_0_compat; [specialize (Hc eq_refl); lra|lra].
  - exists (repeat 0%R 5). split; reflexivity.
Qed.

(** ** Running methods on these models *)
Definition T3 : R := (1 * ((1 + 1) / 2) * ((1 * 1 + 1 * 1) / 2) / ((1 + 1) / 2) / (1 * 1))%R.
Lemma T3_1 : T3 = 1%R. Proof. unfold T3. field. Qed.
Definition M3 : @mat R := mkMat 3 (fun p q => match p, q with 0, 1 | 1, 0 | 1, 2 | 2, 1 => T3 | _, _ => 0%R end).
Lemma M3_trans : get_cells_trans (line3 1 true None) false = Ok M3.
Proof.
  destruct (trans_ok (line3_model 1 true None (fun _ => Rlt_0_1))) as (M & E & _). rewrite E. f_equal.
  assert (E' : M = match get_cells_trans (line3 1 true None) false with Ok M => M | Err _ => mat0 0 end) by now rewrite E.
  assert (E1 : msize M = 3).
  { rewrite E'. lazy -[Reqb Rltb IZR Rplus Rmult Rdiv Rinv Ropp Rminus]. rewrite !(Reqb_eq 1 1 eq_refl). reflexivity. }
  assert (E2 : ment M = ment M3).
  { extensionality p. extensionality q. rewrite E'. unfold M3, T3.
    lazy -[Reqb Rltb IZR Rplus Rmult Rdiv Rinv Ropp Rminus]. rewrite !(Reqb_eq 1 1 eq_refl).
    destruct p as [|[|[|p]]], q as [|[|[|q]]]; lazy -[Reqb Rltb IZR Rplus Rmult Rdiv Rinv Ropp Rminus]; try reflexivity; try field;
    try (destruct p as [|[|p]]; lazy -[Reqb Rltb IZR Rplus Rmult Rdiv Rinv Ropp Rminus]; field);
    try (destruct q as [|[|q]]; lazy -[Reqb Rltb IZR Rplus Rmult Rdiv Rinv Ropp Rminus]; field).
    repeat match goal with |- context[if ?b then _ else _] => destruct b end; field. }
  destruct M. cbn in *. subst. reflexivity.
Qed.
Section runs.
Variable (m : bo R).
Hypothesis (Hg : b_grid m = gline3) (Hmu : b_mu m = 1%R) (HB : b_B m = 1%R).
Lemma line3_trans : get_cells_trans m false = Ok M3.
Proof. rewrite <- M3_trans. unfold get_cells_trans, muB. now rewrite Hg, Hmu, HB. Qed.
Ltac cellt := unfold get_cell_trans, muB; rewrite Hg, Hmu, HB; unfold get_cell_G;
  lazy -[Reqb Rltb IZR Rplus Rmult Rdiv Rinv Ropp Rminus]; rewrite !(Reqb_eq 1 1 eq_refl);
  lazy -[Reqb Rltb IZR Rplus Rmult Rdiv Rinv Ropp Rminus].
Lemma line3_edge0 : get_cell_trans m 0 false = Ok [(1%Z, T3)]. Proof. cellt. reflexivity. Qed.
Lemma line3_edge4 : get_cell_trans m 4 false = Ok [(3%Z, T3)]. Proof. cellt. reflexivity. Qed.
Lemma line3_cell1 : get_cell_trans m 1 true = Ok [(0%Z, T3); (2%Z, T3)]. Proof. cellt. reflexivity. Qed.
Lemma line3_cell2 : get_cell_trans m 2 true = Ok [(1%Z, T3); (3%Z, T3)]. Proof. cellt. reflexivity. Qed.
Lemma line3_cell3 : get_cell_trans m 3 true = Ok [(2%Z, T3); (4%Z, T3)]. Proof. cellt. reflexivity. Qed.
End runs.
(** Evaluate, keeping real arithmetic and transmissibilities. *)
Ltac rrun := lazy -[Reqb Rltb IZR Rplus Rmult Rdiv Rinv Ropp Rminus sqrt ln PI get_cells_trans get_cell_trans T3].
Ltac rtrans := rewrite ?line3_trans, ?line3_edge0, ?line3_edge4, ?line3_cell1, ?line3_cell2, ?line3_cell3 by reflexivity.
Lemma Rltb_ge a b : (b <= a)%R -> Rltb a b = false.
Proof. intros H. destruct (Rltb a b) eqn:E; auto. apply Rltb_true in E. lra. Qed.
Lemma mbind_then {S A B} (c : M S A) (f : A -> M S B) s s1 a r : c s = (s1, Ok a) -> f a s1 = r -> mbind c f s = r.
Proof. unfold mbind. now intros ->. Qed.
Ltac rdec := match goal with
 | |- context[Reqb ?a ?b] => first [rewrite (Reqb_ne a b) by (rewrite ?T3_1; lra) | rewrite (Reqb_eq a b) by (rewrite ?T3_1; lra)]
 | |- context[Rltb ?a ?b] => first [rewrite (proj2 (Rltb_true a b)) by (rewrite ?T3_1; lra) | rewrite (Rltb_ge a b) by (rewrite ?T3_1; lra)]
end.
Ltac reval := rrun; repeat progress (first [progress rtrans | rdec]; rrun); reflexivity.
Ltac headof c := lazymatch c with ?f _ => headof f | _ => c end.
Lemma mread_run {S A} (f : S -> res A) s a : f s = Ok a -> mread f s = (s, Ok a). Proof. unfold mread. congruence. Qed.
Lemma if_true {S A} (b : bool) (c d : M S A) X r : b = true -> c X = r -> (if b then c else d) X = r. Proof. now intros ->. Qed.
Lemma if_false {S A} (b : bool) (c d : M S A) X r : b = false -> d X = r -> (if b then c else d) X = r. Proof. now intros ->. Qed.
Lemma when_true {S} (b : bool) (c : M S unit) X r : b = true -> c X = r -> mwhen b c X = r. Proof. now intros ->. Qed.
Lemma when_false {S} (b : bool) (c : M S unit) X r : b = false -> mret tt X = r -> mwhen b c X = r. Proof. now intros ->. Qed.
Ltac mrun := lazymatch goal with
  | |- mbind ?c ?f ?X = _ => eapply mbind_then; [mrun|cbv beta; mrun]
  | |- mread ?f ?X = _ => apply mread_run; reval
  | |- mset ?f ?X = _ => apply mset_run; reval
  | |- mret ?a ?X = _ => reflexivity
  | |- mwhen ?b ?c ?X = _ => first [eapply when_true; [reval|mrun] | eapply when_false; [reval|mrun]]
  | |- miter ?f ?l ?X = _ => let l' := eval lazy -[IZR] in l in change (miter f l X) with (miter f l' X); lazymatch l' with [] => reflexivity | _ :: _ => cbn [miter]; mrun end
  | |- mopt ?v ?f ?X = _ => lazymatch v with Some _ => cbn [mopt]; mrun | None => cbn [mopt]; mrun end
  | |- (if ?b then ?c else ?d) ?X = _ => first [eapply if_true; [reval|mrun] | eapply if_false; [reval|mrun]]
  | |- (match ?v with Some _ => _ | None => _ end) ?X = _ => cbv iota beta; mrun
  | |- vect_wells ?l ?du ?X = _ => cbn [vect_wells]; mrun
  | |- update_wells_loop ?l ?du ?X = _ => cbn [update_wells_loop]; mrun
  | |- cells_eq_loop ?sc ?l ?X = _ => let l' := eval lazy -[IZR] in l in change (cells_eq_loop sc l X) with (cells_eq_loop sc l' X); lazymatch l' with [] => reflexivity | _ :: _ => cbn [cells_eq_loop]; mrun end
  | |- solve _ _ _ _ _ ?X = _ => cbn [solve]; mrun
  | |- run_loop _ _ _ _ _ _ ?X = _ => cbn [run_loop]; mrun
  | |- ?c ?X = _ => let h := headof c in unfold h at 1; mrun
  end.
