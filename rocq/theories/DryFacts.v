(** Assembling twice, and in any order. *)
From Coq Require Import String ZArith Bool Arith List Lia Permutation.
From Verif Require Import Prelude PreludeFacts Num GridModel GeoModel PropModel BlackOilModel FdmModel
  MonadFacts HistSpec InvFacts StepSpec SolveSpec StepFacts WellStepFacts.
Import ListNotations.
Open Scope nat_scope.

Lemma e_fail {S A} (P : S -> Prop) phi e : eqv P phi (mread (S := S) (A := A) (fun _ => Err e)).
Proof. apply e_read. auto. Qed.
Ltac estep' := lazymatch goal with
  | |- eqv _ _ (mret _) => apply e_ret
  | |- eqv _ _ (mbind _ _) => apply e_bind
  | |- eqv _ _ (mwhen _ _) => apply e_when
  | |- eqv _ _ (miter _ _) => apply e_iter
  | |- eqv _ _ (if _ then _ else _) => apply e_if
  | |- eqv _ _ _ => fail
  | |- forall _, _ => intro
  end.
Ltac esplit' := repeat (estep'; cbv beta).

Section dry.
Context {F : Type} {NF : Num F} {NT : NumT F}.
Implicit Types (x y : st F).

(** ** The two assemblies do not see each other *)
Definition noS x : st F := (set_terms [] (fst x), set_sym None (snd x)).
Definition noV x : st F := (fst x, set_A None (set_res [] (set_bv [] (snd x)))).
Notation T := (fun _ : st F => True).
Ltac eread := apply e_read; intros [[] []] _; reflexivity.
Lemma cell_i_terms (m : bo F) v id : cell_i (set_terms v m) id = cell_i m id. Proof. now destruct m. Qed.
Lemma init_A_terms (m : bo F) v : init_A (set_terms v m) = init_A m. Proof. now destruct m. Qed.
Lemma eV_addto id v : eqv T noS (addto_A id v).
Proof.
  unfold addto_A. apply e_set. intros [m s] _. unfold noS. cbn [fst snd]. rewrite cell_i_terms. destruct (cell_i m id) as [i|]; cbn [rbind]; auto.
  destruct s. cbn. destruct s_A; cbn; auto. destruct v; cbn; auto.
Qed.
Lemma eV_init : eqv T noS init_vect.
Proof.
  unfold init_vect, init_b. esplit'; try eread; auto using eV_addto.
  - apply e_set. intros [[] []] _. cbn. auto.
  - apply e_set. intros [m s] _. unfold noS. cbn [fst snd]. rewrite init_A_terms. destruct (init_A m); cbn [rbind]; auto. destruct s. auto.
  - apply e_set. intros [[] []] _. cbn. auto.
  - apply e_set. intros [[] []] _. cbn. auto.
Qed.
Lemma eV_well id du : eqv T noS (vect_well id du).
Proof. unfold vect_well. esplit'; try eread; auto using eV_addto. apply e_set. intros [[] []] _. cbn. auto. Qed.
Lemma eV_wells l : forall du, eqv T noS (vect_wells l du).
Proof. induction l as [|i l IH]; intros du; cbn [vect_wells]; esplit'; auto using eV_well. Qed.
Lemma eV : eqv T noS get_matrices_vect.
Proof. unfold get_matrices_vect. esplit'; try eread; auto using eV_init, eV_wells. Qed.
Lemma eS_eq sc id : eqv T noV (get_cell_eq sc id).
Proof. unfold get_cell_eq. esplit'; try eread. apply e_set. intros [[] []] _. cbn. auto. Qed.
Lemma eS_loop sc l : eqv T noV (cells_eq_loop sc l).
Proof. induction l as [|i l IH]; cbn [cells_eq_loop]; esplit'; auto using eS_eq. Qed.
Lemma eS sc thr : eqv T noV (get_matrices_symb sc thr).
Proof.
  unfold get_matrices_symb, get_cells_eq. esplit'; try eread; auto using eS_loop.
  - apply e_set. intros [[] []] _. cbn. destruct s_tstep, s_sym; cbn; auto.
  - apply e_set. intros [m s] _. unfold noV. cbn [fst snd].
    assert (Es : s_sym (set_A None (set_res [] (set_bv [] s))) = s_sym s) by now destruct s. rewrite Es. destruct (attrE (s_sym s)) as [Ad|]; cbn [rbind]; auto.
    destruct (symb_rows m thr a (b_ids m) Ad); cbn [rbind]; auto. destruct s; auto.
Qed.

(** What each leaves of the other's data. *)
Ltac keeps := apply i_set; intros [[] []] [? ?] ? ?; fin; repeat match goal with |- context [if ?b then _ else _] => destruct b end; first [assumption|reflexivity].
Lemma kS_eq v sc id : inv (fun x => noS x = v) (get_cell_eq sc id).
Proof. unfold get_cell_eq. isplit; keeps. Qed.
Lemma kS_loop v sc l : inv (fun x => noS x = v) (cells_eq_loop sc l).
Proof. induction l as [|i l IH]; cbn [cells_eq_loop]; isplit; auto using kS_eq. Qed.
Lemma kS v sc thr : inv (fun x => noS x = v) (get_matrices_symb sc thr).
Proof. unfold get_matrices_symb, get_cells_eq. isplit; auto using kS_loop; keeps. Qed.
Lemma kV_addto v id w : inv (fun x => noV x = v) (addto_A id w). Proof. unfold addto_A. keeps. Qed.
Lemma kV_init_b v id : inv (fun x => noV x = v) (init_b id). Proof. unfold init_b. isplit; auto using kV_addto; keeps. Qed.
Lemma kV_init v : inv (fun x => noV x = v) init_vect. Proof. unfold init_vect. isplit; auto using kV_init_b; keeps. Qed.
Lemma kV_vwell v id du : inv (fun x => noV x = v) (vect_well id du).
Proof. unfold vect_well. isplit; auto using kV_addto; keeps. Qed.
Lemma kV_vwells v l : forall du, inv (fun x => noV x = v) (vect_wells l du).
Proof. induction l as [|i l IH]; intros du; cbn [vect_wells]; isplit; auto using kV_vwell. Qed.
Lemma kV v : inv (fun x => noV x = v) get_matrices_vect.
Proof. unfold get_matrices_vect. isplit; auto using kV_init, kV_vwells. Qed.

Lemma outV x y : noS x = noS y -> snd (get_matrices_vect x) = snd (get_matrices_vect y).
Proof. intros E. destruct (eV x I) as (H1 & _). destruct (eV y I) as (H2 & _). rewrite E in H1. congruence. Qed.
Lemma outS sc thr x y : noV x = noV y -> snd (get_matrices_symb sc thr x) = snd (get_matrices_symb sc thr y).
Proof. intros E. destruct (eS sc thr x I) as (H1 & _). destruct (eS sc thr y I) as (H2 & _). rewrite E in H1. congruence. Qed.

(** ** The vectorised assembly, twice *)
Lemma noV_fields x y : noV x = noV y -> fst x = fst y /\ s_p (snd x) = s_p (snd y) /\ s_r (snd x) = s_r (snd y) /\ s_tstep (snd x) = s_tstep (snd y).
Proof. destruct x as [m []], y as [m' []]. intros E. injection E. intros. cbn. repeat split; assumption. Qed.
Definition marked id x := dget id (s_res (snd x)) = Some true.
Lemma kM_addto j id w : inv (fun x => marked j x) (addto_A id w).
Proof. unfold addto_A, marked. apply i_set. intros [m []] [? ?] Hx E. fin; cbn in *; assumption. Qed.
Lemma kM_well j id du : inv (marked j) (vect_well id du).
Proof.
  unfold vect_well. isplit; auto using kM_addto. apply i_set. intros [m []] [? ?] Hx E. unfold marked in *. fin. cbn in *. rewrite dget_dset_z. destruct (Z.eqb_spec j id); auto.
Qed.
Lemma kM_wells j l : forall du, inv (marked j) (vect_wells l du).
Proof. induction l as [|i l IH]; intros du; cbn [vect_wells]; isplit; auto using kM_well. Qed.
Lemma kBV_addto v id w : inv (fun x : st F => s_bv (snd x) = v) (addto_A id w).
Proof. unfold addto_A. apply i_set. intros [m []] [? ?] Hx E. fin; cbn in *; first [assumption|reflexivity]. Qed.
Lemma kBV_wells v l : forall du, inv (fun x : st F => s_bv (snd x) = v) (vect_wells l du).
Proof.
  induction l as [|i l IH]; intros du; cbn [vect_wells]; isplit; auto. unfold vect_well. isplit; auto using kBV_addto.
  apply i_set. intros [m []] [? ?] Hx E. fin. cbn in *; first [assumption|reflexivity].
Qed.

(** A well done again on a state where it is already marked. *)
Lemma well_again id du x x' du' z : vect_well id du x = (x', Ok du') -> noV z = noV x ->
  (forall j, marked j x' -> marked j z) -> vect_well id du z = (z, Ok du').
Proof.
  intros E Ev Hm. destruct (noV_fields _ _ Ev) as (E1 & E2 & E3 & E4). unfold vect_well in *.
  apply mbind_ok in E as (w & X1 & Q & E). apply mread_ok in Q as (-> & Q). erewrite mbind_run by (unfold mread; rewrite E1, Q; reflexivity).
  apply mbind_ok in E as (cq & X1 & Q1 & E). apply mread_ok in Q1 as (-> & Q1). erewrite mbind_run by (unfold mread; rewrite Q1; reflexivity).
  destruct cq.
  - apply mread_ok in E as (-> & E). unfold mread. now rewrite E1, E2, E4, E.
  - apply mbind_ok in E as (cp & X1 & Q2 & E). apply mread_ok in Q2 as (-> & Q2). erewrite mbind_run by (unfold mread; rewrite Q2; reflexivity).
    destruct cp; [|inversion E; subst; reflexivity].
    apply mbind_ok in E as (v & X1 & Q3 & E). apply mread_ok in Q3 as (-> & Q3). erewrite mbind_run by (unfold mread; rewrite E1, Q3; reflexivity).
    apply mbind_ok in E as (d & X1 & Q4 & E). apply mread_ok in Q4 as (-> & Q4). erewrite mbind_run by (unfold mread; rewrite E1, Q4; reflexivity).
    apply mbind_ok in E as (done & X1 & Q5 & E). apply mread_ok in Q5 as (-> & Q5). cbv beta in E.
    apply mbind_ok in E as ([] & X2 & Q6 & E). inversion E; subst; clear E.
    assert (M : marked id x').
    { unfold marked. destruct done; cbn [negb mwhen] in Q6.
      - inversion Q6; subst. destruct (dget id (s_res (snd x'))) as [b|]; [|discriminate]. congruence.
      - apply mbind_ok in Q6 as ([] & X3 & Q7 & Q8). apply mset_ok in Q8. inversion Q8; subst. destruct X3 as [? []]. cbn. apply dget_dset_same. }
    apply Hm in M. unfold marked in M. erewrite mbind_run by (unfold mread; rewrite M; reflexivity). reflexivity.
Qed.
Lemma wells_again l : forall du x x' du' z, vect_wells l du x = (x', Ok du') -> noV z = noV x ->
  (forall j, marked j x' -> marked j z) -> vect_wells l du z = (z, Ok du').
Proof.
  induction l as [|id l IH]; intros du x x' du' z E Ev Hm; cbn [vect_wells] in *; [inversion E; subst; reflexivity|].
  apply mbind_ok in E as (du1 & x1 & E1 & E). erewrite mbind_run.
  2:{ eapply well_again; eauto. intros j M. apply Hm. pose proof (kM_wells j l du1 x1 M) as H. now rewrite E in H. }
  eapply IH; eauto. pose proof (kV_vwell (noV x) id du x eq_refl) as H. rewrite E1 in H. cbn [fst] in H. congruence.
Qed.
Lemma init_restart x y : noV x = noV y -> init_vect x = init_vect y \/ (exists e, snd (init_vect x) = Err e /\ snd (init_vect y) = Err e).
Proof.
  intros E. destruct (noV_fields _ _ E) as (E1 & _). destruct x as [m s], y as [m' s']. cbn [fst] in E1. subst m'.
  assert (H : forall s0, init_vect (m, s0) = match init_A m with Err e => ((m, set_res [] s0), Err e) | Ok A => miter init_b (b_bup m) (m, set_bv [] (set_A (Some A) (set_res [] s0))) end).
  { intros s0. unfold init_vect, mbind, mset, mread. cbn [fst snd]. destruct (init_A m); reflexivity. }
  rewrite !H. destruct (init_A m) as [A|e]; [left|right; exists e; auto].
  assert (Es : set_bv [] (set_A (Some A) (set_res [] s)) = set_bv [] (set_A (Some A) (set_res [] s'))); [|now rewrite Es].
  destruct s, s'. cbn in *. injection E. intros. subst. reflexivity.
Qed.
Lemma vect_twice x x' Ad : get_matrices_vect x = (x', Ok Ad) -> get_matrices_vect x' = (x', Ok Ad).
Proof.
  intros E. pose proof (kV (noV x) x eq_refl) as Kx. rewrite E in Kx. cbn [fst] in Kx.
  destruct (noV_fields _ _ Kx) as (F1 & F2 & F3 & F4).
  destruct (Nat.eqb_spec (s_tstep (snd x)) 0) as [T0|T0].
  - (* everything starts anew *)
    destruct (init_restart x' x Kx) as [H|(e & H1 & H2)].
    + rewrite <- E. unfold get_matrices_vect.
      rewrite (mbind_run _ _ x' x' true) by (unfold mread; now rewrite F4, T0). rewrite (mbind_run _ _ x x true) by (unfold mread; now rewrite T0).
      cbn [mwhen]. unfold mbind at 1. rewrite H. reflexivity.
    +
    exfalso. unfold get_matrices_vect in E. apply mbind_ok in E as (ini & X1 & Q & E). apply mread_ok in Q as (-> & Q). rewrite T0 in Q. inversion Q; subst.
    cbn [mwhen] in E. apply mbind_ok in E as ([] & X1 & Q1 & E). rewrite Q1 in H2. discriminate.
  - unfold get_matrices_vect in *.
    apply mbind_ok in E as (ini & X1 & Q & E). apply mread_ok in Q as (-> & Q).
    apply mbind_ok in E as ([] & X1 & Q1 & E).
    assert (V1 : noV X1 = noV x). { destruct ini; cbn [mwhen] in Q1; [|inversion Q1; reflexivity]. pose proof (kV_init (noV x) x eq_refl) as H. rewrite Q1 in H. exact H. }
    destruct (noV_fields _ _ V1) as (G1 & G2 & G3 & G4).
    apply mbind_ok in E as (d & X2 & Q2 & E). apply mread_ok in Q2 as (-> & Q2).
    apply mbind_ok in E as (wids & X2 & Q3 & E). apply mread_ok in Q3 as (-> & Q3).
    apply mbind_ok in E as (du & X2 & Q4 & E).
    apply mbind_ok in E as (d2 & X3 & Q5 & E). apply mread_ok in Q5 as (-> & Q5).
    apply mbind_ok in E as (d3 & X3 & Q6 & E). apply mread_ok in Q6 as (-> & Q6).
    apply mbind_ok in E as (A & X3 & Q7 & E). apply mread_ok in Q7 as (-> & Q7). inversion E; subst X2 Ad; clear E.
    assert (HA : has (s_A (snd x')) = true) by (destruct (s_A (snd x')); [reflexivity|discriminate]).
    erewrite mbind_run by (unfold mread; rewrite F4, HA; destruct (Nat.eqb_spec (s_tstep (snd x)) 0); [contradiction|]; reflexivity).
    cbn [negb orb mwhen]. erewrite mbind_run by reflexivity.
    assert (Di : init_d x' = init_d X1).
    { destruct x' as [mx sx], X1 as [m1 s1], x as [m s]. cbn [fst snd] in *. unfold init_d. rewrite F1, G1, F2, G2, F4, G4. reflexivity. }
    erewrite mbind_run by (unfold mread; rewrite Di, Q2; reflexivity).
    erewrite mbind_run by (unfold mread; rewrite F1, <- G1, Q3; reflexivity).
    erewrite mbind_run by (eapply wells_again; [exact Q4|congruence|auto]).
    erewrite mbind_run by (unfold mread; rewrite Q5; reflexivity).
    erewrite mbind_run by (unfold mread; rewrite Q6; reflexivity).
    erewrite mbind_run by (unfold mread; rewrite Q7; reflexivity). reflexivity.
Qed.

(** ** The terms of a cell *)
Definition tm x id : res (terms F) :=
  match dget id (b_terms (fst x)) with Some t => old_terms x id t | None => new_terms x id end.
Definition put_tm id t x : st F := (set_terms (dset id t (b_terms (fst x))) (fst x), snd x).
Lemma get_eq_tm sc id x : get_cell_eq sc id x =
  match tm x id with
  | Err e => (x, Err e)
  | Ok t => (put_tm id t x, cell_row (sc id) (fold_left ladd (t_f t) (lconst (Some n0))) (t_a t))
  end.
Proof. unfold get_cell_eq, mbind, mread, mset, tm. destruct (dget id (b_terms (fst x))); [destruct (old_terms x id t)|destruct (new_terms x id)]; reflexivity. Qed.
Lemma terms_put id t x : b_terms (fst (put_tm id t x)) = dset id t (b_terms (fst x)). Proof. destruct x as [[] ?]. reflexivity. Qed.
Lemma old_put id t x j t' : old_terms (put_tm id t x) j t' = old_terms x j t'. Proof. destruct x as [[] ?]. reflexivity. Qed.
Lemma new_put id t x j : new_terms (put_tm id t x) j = new_terms x j. Proof. destruct x as [[] ?]. reflexivity. Qed.
Lemma tm_other id t x j : j <> id -> tm (put_tm id t x) j = tm x j.
Proof. intros N. unfold tm. rewrite terms_put, dget_dset_other by auto. destruct (dget j (b_terms (fst x))); [apply old_put|apply new_put]. Qed.

(** Wells without a control mode have nothing set. *)
Definition good_wells (m : bo F) : Prop := forall id w, dget id (b_wells m) = Some w -> w_con w = None -> w_pwf w = None /\ w_q w = None.
Lemma replace_app {A} (l : list A) v w : replace_last (l ++ [v])%list w = Ok (l ++ [w])%list.
Proof. unfold replace_last. rewrite removelast_last. destruct (l ++ [v])%list eqn:Q; [destruct l; discriminate|reflexivity]. Qed.
Lemma replace_again {A} (l l' : list A) v : replace_last l v = Ok l' -> replace_last l' v = Ok l'.
Proof.
  intros E. assert (H : exists r, l' = (r ++ [v])%list).
  { unfold replace_last in E. destruct l as [|a l]; [discriminate|]. exists (removelast (a :: l)). congruence. }
  destruct H as (r & ->). apply replace_app.
Qed.
Lemma replace_end {A} (l : list A) v : replace_last (l ++ [v])%list v = Ok (l ++ [v])%list.
Proof. apply replace_app. Qed.
Lemma old_again x id t t' : old_terms x id t = Ok t' -> old_terms x id t' = Ok t'.
Proof.
  unfold old_terms. destruct x as [m s]. intros E.
  match type of E with rbind ?e _ = _ => destruct e as [f|] eqn:Ef; [|discriminate] end. cbn [rbind] in E.
  match type of E with rbind ?e _ = _ => destruct e as [a|] eqn:Ea; [|discriminate] end. cbn [rbind] in E. inversion E; subst; clear E. cbn [t_f t_a].
  assert (Hf : match dget id (b_wells m) with
    | Some w => let* c := con_is w "pwf" in if c then let* wt := w_term m id w in replace_last f wt else Ok f
    | None => Ok f end = Ok f).
  { destruct (dget id (b_wells m)) as [w|]; [|congruence]. destruct (con_is w "pwf") as [[|]|]; cbn [rbind] in *; try discriminate; [|congruence].
    destruct (w_term m id w); cbn [rbind] in *; [|discriminate]. eapply replace_again; eauto. }
  rewrite Hf. cbn [rbind]. destruct (b_cmp m); [rewrite Ea; reflexivity|reflexivity].
Qed.
Lemma new_again x id t : good_wells (fst x) -> new_terms x id = Ok t -> old_terms x id t = Ok t.
Proof.
  unfold new_terms, old_terms. destruct x as [m s]. cbn [fst]. intros Gw E. revert E.
  destruct (passert (zmem id (b_ids m))) as [?u|]; cbn [rbind]; [|discriminate].
  destruct (get_cell_neighbors (bgrid m) id false) as [nb|]; cbn [rbind]; [|discriminate].
  destruct (get_cell_boundaries (bgrid m) id) as [bn|]; cbn [rbind]; [|discriminate].
  destruct (get_cell_trans m id true) as [Tr|]; cbn [rbind]; [|discriminate].
  match goal with |- rbind ?e _ = _ -> _ => destruct e as [ns|] end; cbn [rbind]; [|discriminate].
  match goal with |- rbind ?e _ = _ -> _ => destruct e as [bs|] end; cbn [rbind]; [|discriminate].
  intros E. match type of E with rbind ?e _ = _ => destruct e as [wt|] eqn:Ew; [|discriminate] end. cbn [rbind] in E.
  destruct (a_term m s id) as [a|] eqn:Ea; [|discriminate]. cbn [rbind] in E. inversion E; subst; clear E. cbn [t_f t_a].
  assert (Hf : match dget id (b_wells m) with
    | Some w => let* c := con_is w "pwf" in if c then let* w1 := w_term m id w in replace_last (ns ++ bs ++ wt)%list w1 else Ok (ns ++ bs ++ wt)%list
    | None => Ok (ns ++ bs ++ wt)%list end = Ok (ns ++ bs ++ wt)%list).
  { destruct (dget id (b_wells m)) as [w|] eqn:Gd; [|reflexivity]. destruct (w_term m id w) as [t|] eqn:Et; [|discriminate]. cbn [rbind] in *. inversion Ew; subst; clear Ew.
    unfold con_is, keyE. destruct (w_con w) as [c|] eqn:Ec; cbn [rbind].
    - destruct (match c with Some c0 => String.eqb c0 "pwf" | None => false end); [|reflexivity]. rewrite app_assoc. apply replace_end.
    - exfalso. destruct (Gw id w Gd Ec) as (G1 & G2). unfold w_term, w_mode in Et. rewrite G1, G2 in Et. cbn in Et. destruct (w_G w); discriminate. }
  rewrite Hf. cbn [rbind]. now destruct (b_cmp m).
Qed.
Lemma tm_put id t x j : good_wells (fst x) -> tm x id = Ok t -> tm (put_tm id t x) j = tm x j.
Proof.
  intros Gw E. destruct (Z.eq_dec j id) as [->|N]; [|now apply tm_other].
  rewrite E. unfold tm. rewrite terms_put, dget_dset_same, old_put. unfold tm in E. destruct (dget id (b_terms (fst x))); [eapply old_again; eauto|now apply new_again].
Qed.
Lemma wells_put id t x : b_wells (fst (put_tm id t x)) = b_wells (fst x). Proof. destruct x as [[] ?]. reflexivity. Qed.
Lemma good_put id t x : good_wells (fst x) -> good_wells (fst (put_tm id t x)).
Proof. unfold good_wells. now rewrite wells_put. Qed.
Lemma loop_tm sc l : forall x j, good_wells (fst x) -> tm (fst (cells_eq_loop sc l x)) j = tm x j.
Proof.
  induction l as [|id l IH]; intros x j Gw; cbn [cells_eq_loop]; [reflexivity|]. unfold mbind. rewrite get_eq_tm.
  destruct (tm x id) as [t|e] eqn:Et; [|reflexivity]. destruct (cell_row _ _ _); [|now apply tm_put].
  destruct (cells_eq_loop sc l (put_tm id t x)) as [x2 [es|e]] eqn:El; cbn [fst mret];
    (pose proof (IH (put_tm id t x) j (good_put _ _ _ Gw)) as H; rewrite El in H; cbn [fst] in H; rewrite H; now apply tm_put).
Qed.
Lemma loop_agree sc l : forall x y, good_wells (fst x) -> good_wells (fst y) -> (forall j, tm x j = tm y j) ->
  snd (cells_eq_loop sc l x) = snd (cells_eq_loop sc l y).
Proof.
  induction l as [|id l IH]; intros x y Gx Gy H; cbn [cells_eq_loop]; [reflexivity|]. unfold mbind. rewrite !get_eq_tm, <- (H id).
  destruct (tm x id) as [t|e] eqn:Et; [|reflexivity]. destruct (cell_row _ _ _) as [e|]; [|reflexivity].
  assert (E : snd (cells_eq_loop sc l (put_tm id t x)) = snd (cells_eq_loop sc l (put_tm id t y))).
  { apply IH; auto using good_put. intros j. rewrite !tm_put; auto. now rewrite <- H. }
  destruct (cells_eq_loop sc l (put_tm id t x)) as [x2 [es|e1]], (cells_eq_loop sc l (put_tm id t y)) as [y2 [es'|e2]]; cbn [snd mret] in *; congruence.
Qed.
(** Without [good_wells], for distinct cells. *)
Definition eq_of sc x id := let* t := tm x id in let* e := cell_row (sc id) (fold_left ladd (t_f t) (lconst (Some n0))) (t_a t) in Ok (id, e).
Lemma loop_res sc l : forall x, NoDup l -> snd (cells_eq_loop sc l x) = rmapM (eq_of sc x) l.
Proof.
  induction l as [|id l IH]; intros x N; cbn [cells_eq_loop rmapM]; [reflexivity|]. inversion N; subst. unfold mbind, eq_of at 1. rewrite get_eq_tm.
  destruct (tm x id) as [t|e] eqn:Et; [|reflexivity]. cbn [rbind]. destruct (cell_row _ _ _) as [e|]; [|reflexivity]. cbn [rbind].
  specialize (IH (put_tm id t x) H2).
  assert (Ex : rmapM (eq_of sc (put_tm id t x)) l = rmapM (eq_of sc x) l).
  { clear -H1. induction l as [|a l IHl]; cbn [rmapM]; [reflexivity|]. unfold eq_of at 1 3. rewrite tm_other by (intros ->; apply H1; now left). rewrite IHl; [reflexivity|]. intros J. apply H1. now right. }
  rewrite Ex in IH. destruct (cells_eq_loop sc l (put_tm id t x)) as [x2 [es|e2]]; cbn [snd mret] in *; rewrite <- IH; reflexivity.
Qed.

(** ** Rows *)
Definition assignA (L : list (nat * nat * F)) (A : @mat F) := fold_left (fun A e => mat_set A (fst (fst e)) (snd (fst e)) (snd e)) L A.
Definition assignd (D : list (nat * fl F)) (d : list (fl F)) := fold_left (fun d e => upd d (fst e) (snd e)) D d.
Definition row_op (m : bo F) eqs id : res (list (nat * nat * F) * list (nat * fl F)) :=
  let* e := dgetE id eqs in
  let* ks := rmapM (fun kc => let* j := cell_i m (fst kc) in Ok (j, snd kc)) (fst e) in
  let* i := cell_i m id in let* r := snd (e : list (Z * F) * res (fl F)) in Ok (map (fun k => ((i, fst k), snd k)) ks, [(i, r)]).
Definition ops m eqs id := match row_op m eqs id with Ok o => o | Err _ => ([], []) end.
Lemma mat_row_assign A i ks : mat_row A i ks = assignA (map (fun k => ((i, fst k), snd k)) ks) A.
Proof. unfold mat_row, assignA. revert A. induction ks as [|k ks IH]; intros A; cbn; auto. Qed.
Lemma row_is m eqs id Ad : (let* e := dgetE id eqs in symb_row m id e Ad) =
  let* o := row_op m eqs id in Ok (assignA (fst o) (fst Ad), assignd (snd o) (snd Ad)).
Proof.
  unfold row_op, symb_row. destruct (dgetE id eqs) as [e|]; cbn [rbind]; [|reflexivity]. destruct (rmapM _ (fst e)) as [ks|]; cbn [rbind]; [|reflexivity].
  destruct (cell_i m id); cbn [rbind]; [|reflexivity]. destruct (snd e); cbn [rbind]; [|reflexivity]. rewrite mat_row_assign. reflexivity.
Qed.
Lemma assignA_app L L' A : assignA (L ++ L')%list A = assignA L' (assignA L A). Proof. apply fold_left_app. Qed.
Lemma assignd_app L L' A : assignd (L ++ L')%list A = assignd L' (assignd L A). Proof. apply fold_left_app. Qed.
Lemma rows_true m eqs o : forall Ad, symb_rows m true eqs o Ad =
  Ok (assignA (flat_map (fun id => fst (ops m eqs id)) o) (fst Ad), assignd (flat_map (fun id => snd (ops m eqs id)) o) (snd Ad)).
Proof.
  unfold symb_rows. induction o as [|id o IH]; intros Ad; cbn [fold_left flat_map]; [now destruct Ad|]. cbn [rbind]. rewrite row_is.
  rewrite assignA_app, assignd_app. assert (Eo : ops m eqs id = match row_op m eqs id with Ok o => o | Err _ => ([], []) end) by reflexivity. rewrite Eo. clear Eo.
  destruct (row_op m eqs id) as [p|]; cbn [rbind fst snd]; rewrite IH; reflexivity.
Qed.
Lemma rows_err m (thr : bool) (eqs : list (Z * (list (Z * F) * res (fl F)))) o e : fold_left (fun (acc : res (@mat F * list (fl F))) id => let* Ad := acc in
    let r := (let* e := dgetE id eqs in symb_row m id e Ad) in
    if thr then Ok (match r with Ok Ad' => Ad' | Err _ => Ad end) else r) o (Err e) = Err e.
Proof. induction o; auto. Qed.
Lemma rows_false (m : bo F) eqs o : (forall Ad, symb_rows m false eqs o Ad = symb_rows m true eqs o Ad) \/ (exists e, forall Ad, symb_rows m false eqs o Ad = Err e).
Proof.
  unfold symb_rows. induction o as [|id o IH]; cbn [fold_left]; [now left|]. cbn [rbind]. destruct (row_op m eqs id) as [p|e] eqn:Eo.
  - destruct IH as [IH|(e & IH)]; [left|right; exists e]; intros Ad; rewrite row_is, Eo; cbn [rbind]; apply IH.
  - right. exists e. intros Ad. rewrite row_is, Eo. cbn [rbind]. apply (rows_err m false).
Qed.
Lemma assignA_size L : forall A, msize (assignA L A) = msize A.
Proof. unfold assignA. induction L as [|e L IH]; intros A; cbn; auto. now rewrite IH. Qed.
Lemma assignA_at L i j : forall A B, ment A i j = ment B i j \/ In (i, j) (map fst L) -> ment (assignA L A) i j = ment (assignA L B) i j.
Proof.
  unfold assignA. induction L as [|[[p q] v] L IH]; intros A B H; cbn [fold_left map In] in *; [intuition|]. apply IH. cbn [fst snd mat_set ment].
  destruct (Nat.eqb_spec i p), (Nat.eqb_spec j q); cbn [andb]; auto; destruct H as [H|[H|H]]; auto; inversion H; congruence.
Qed.
Lemma assignA_out L i j : forall A, ~ In (i, j) (map fst L) -> ment (assignA L A) i j = ment A i j.
Proof.
  unfold assignA. induction L as [|[[p q] v] L IH]; intros A H; cbn [fold_left map In] in *; auto. rewrite IH by tauto. cbn [fst snd mat_set ment].
  destruct (Nat.eqb_spec i p), (Nat.eqb_spec j q); cbn [andb]; auto; subst; tauto.
Qed.
Lemma assignA_twice L A : meq (assignA L (assignA L A)) (assignA L A).
Proof.
  split; [now rewrite !assignA_size|]. intros i j. apply assignA_at.
  destruct (in_dec (fun a b : nat * nat => ltac:(decide equality; apply Nat.eq_dec)) (i, j) (map fst L)); auto. left. now apply assignA_out.
Qed.
Lemma upd_len {A} (l : list A) i v : length (upd l i v) = length l. Proof. apply upd_length. Qed.
Lemma upd_upd {A} (l : list A) i v v' : upd (upd l i v) i v' = upd l i v'.
Proof. revert i. induction l as [|a l IH]; intros [|i]; cbn; auto. now rewrite IH. Qed.
Lemma upd_swap {A} (l : list A) i j v w : i <> j -> upd (upd l i v) j w = upd (upd l j w) i v.
Proof. revert i j. induction l as [|a l IH]; intros [|i] [|j] H; cbn; auto; try congruence. now rewrite IH by lia. Qed.
Lemma assignd_in D i v : forall d, In i (map fst D) -> assignd D (upd d i v) = assignd D d.
Proof.
  unfold assignd. induction D as [|[k w] D IH]; intros d H; cbn [fold_left map In fst snd] in *; [easy|].
  destruct (Nat.eq_dec k i) as [->|N]; [now rewrite upd_upd|]. rewrite upd_swap by auto. apply IH. tauto.
Qed.
Lemma assignd_sub D : forall D' d, (forall i, In i (map fst D') -> In i (map fst D)) -> assignd D (assignd D' d) = assignd D d.
Proof.
  intros D'. induction D' as [|[k w] D' IH]; intros d H; cbn [assignd fold_left fst snd]; auto. fold (assignd D' (upd d k w)).
  rewrite IH by (intros; apply H; now right). apply assignd_in. apply H. now left.
Qed.

(** ** The symbolic assembly, twice *)
Definition base x : @mat F * list (fl F) :=
  match s_sym (snd x) with
  | Some Ad => if s_tstep (snd x) =? 0 then (mat0 (length (b_ids (fst x))), repeat (Some n0) (length (b_ids (fst x)))) else Ad
  | None => (mat0 (length (b_ids (fst x))), repeat (Some n0) (length (b_ids (fst x))))
  end.
Lemma symb_run sc thr x : get_matrices_symb sc thr x =
  match get_cells_eq sc thr x with
  | (y, Err e) => (y, Err e)
  | (y, Ok eqs) => let z := (fst y, set_sym (Some (base y)) (snd y)) in
      match symb_rows (fst y) thr eqs (b_ids (fst y)) (base y) with
      | Ok Ad => ((fst y, set_sym (Some Ad) (snd y)), Ok Ad)
      | Err e => (z, Err e)
      end
  end.
Proof.
  unfold get_matrices_symb. unfold mbind at 1. destruct (get_cells_eq sc thr x) as [[m s] [eqs|e]]; [|reflexivity].
  cbn [fst snd]. cbv zeta. set (n := length (b_ids m)).
  assert (B : (if (s_tstep s =? 0) || negb (has (s_sym s)) then set_sym (Some (mat0 n, repeat (Some n0) n)) s else s) = set_sym (Some (base (m, s))) s).
  { unfold base. cbn [fst snd]. fold n. destruct s. cbn. destruct s_sym, (s_tstep =? 0); reflexivity. }
  unfold mbind at 1. unfold mset at 1. cbn [fst snd]. fold n. rewrite B.
  unfold mbind at 1. unfold mset at 1. cbn [fst snd]. assert (Es : forall v, s_sym (set_sym v s) = v) by (now destruct s). rewrite Es. cbn [attrE rbind].
  destruct (symb_rows m thr eqs (b_ids m) (base (m, s))) as [Ad|e]; cbn [rbind]; [|reflexivity].
  assert (E2 : set_sym (Some Ad) (set_sym (Some (base (m, s))) s) = set_sym (Some Ad) s) by (now destruct s). rewrite E2. unfold mread. cbn [fst snd]. rewrite Es. reflexivity.
Qed.
Lemma eq_keeps sc id x : noS (fst (get_cell_eq sc id x)) = noS x /\ s_sym (snd (fst (get_cell_eq sc id x))) = s_sym (snd x).
Proof. rewrite get_eq_tm. destruct (tm x id); [|auto]. destruct x as [[] []]. auto. Qed.
Lemma loop_keeps sc l : forall x, noS (fst (cells_eq_loop sc l x)) = noS x /\ s_sym (snd (fst (cells_eq_loop sc l x))) = s_sym (snd x).
Proof.
  induction l as [|id l IH]; intros x; cbn [cells_eq_loop]; [auto|]. unfold mbind. pose proof (eq_keeps sc id x) as (K1 & K2).
  destruct (get_cell_eq sc id x) as [y [e|e]]; [|auto]. cbn [fst] in *. specialize (IH y). destruct IH as (I1 & I2).
  destruct (cells_eq_loop sc l y) as [z [es|e2]]; cbn [fst mret] in *; split; congruence.
Qed.
Lemma noS_fields x y : noS x = noS y -> b_ids (fst x) = b_ids (fst y) /\ b_wells (fst x) = b_wells (fst y) /\ s_tstep (snd x) = s_tstep (snd y).
Proof. destruct x as [[] []], y as [[] []]. intros E. injection E. intros. cbn. repeat split; assumption. Qed.
Lemma good_same m m' : b_wells m = b_wells m' -> good_wells m -> good_wells m'.
Proof. unfold good_wells. now intros ->. Qed.
Lemma rows_m (m m' : bo F) thr eqs o Ad : b_ids m = b_ids m' -> symb_rows m thr eqs o Ad = symb_rows m' thr eqs o Ad.
Proof.
  intros E. unfold symb_rows. generalize (Ok Ad). induction o as [|id o IH]; intros r; cbn [fold_left]; auto.
  rewrite IH. f_equal. destruct r as [Ad'|]; auto. cbn [rbind]. destruct (dgetE id eqs) as [e|]; cbn [rbind]; [|reflexivity].
  assert (Er : symb_row m id e Ad' = symb_row m' id e Ad'); [|now rewrite Er]. unfold symb_row, cell_i. rewrite E. reflexivity.
Qed.
(** Equations found again. *)
Lemma eqs_again sc thr x y : good_wells (fst x) -> noS x = noS y -> (forall j, tm x j = tm y j) -> snd (get_cells_eq sc thr x) = snd (get_cells_eq sc thr y).
Proof.
  intros Gw N T0. destruct (noS_fields _ _ N) as (E1 & E2 & E3). unfold get_cells_eq, mbind, mread. rewrite E1. destruct (_ && _)%bool; [reflexivity|].
  apply loop_agree; auto. eapply good_same; eauto.
Qed.
Lemma tm_sym v x j : tm (fst x, set_sym v (snd x)) j = tm x j. Proof. destruct x as [? []]. reflexivity. Qed.
Lemma eqs_keeps sc thr x : noS (fst (get_cells_eq sc thr x)) = noS x /\ s_sym (snd (fst (get_cells_eq sc thr x))) = s_sym (snd x) /\
  (good_wells (fst x) -> forall j, tm (fst (get_cells_eq sc thr x)) j = tm x j).
Proof.
  unfold get_cells_eq, mbind, mread. destruct (_ && _)%bool; [auto|].
  destruct (loop_keeps sc (b_ids (fst x)) x) as (K1 & K2). split; auto. split; auto. intros Gw j. now apply loop_tm.
Qed.
Definition sym_same x y : Prop := forall sc thr, same_system (snd (get_matrices_symb sc thr x)) (snd (get_matrices_symb sc thr y)).
(** What the symbolic assembly reads. *)
Lemma symb_twice sc thr x x' Ad : good_wells (fst x) -> get_matrices_symb sc thr x = (x', Ok Ad) ->
  forall thr', same_system (snd (get_matrices_symb sc thr' x')) (snd (get_matrices_symb sc thr' x)).
Proof.
  intros Gw E thr'. rewrite symb_run in E. destruct (eqs_keeps sc thr x) as (K1 & K2 & K3). destruct (get_cells_eq sc thr x) as [y [eqs|e]] eqn:Ey; [|discriminate].
  cbn [fst snd] in *. cbv zeta in E. destruct (symb_rows (fst y) thr eqs (b_ids (fst y)) (base y)) as [Ad'|] eqn:Er; [|discriminate]. inversion E; subst; clear E.
  set (x' := (fst y, set_sym (Some Ad) (snd y))).
  assert (N : noS x' = noS x) by (rewrite <- K1; destruct y as [[] []]; reflexivity). destruct (noS_fields _ _ N) as (E1 & E2 & E3).
  assert (Tm : forall j, tm x' j = tm x j) by (intros j; unfold x'; rewrite tm_sym; auto).
  assert (Gx : good_wells (fst x')) by (eapply good_same; [symmetry; exact E2|exact Gw]).
  pose proof (eqs_again sc thr' x' x Gx N Tm) as Eq.
  rewrite !symb_run. destruct (eqs_keeps sc thr' x') as (A1 & A2 & _), (eqs_keeps sc thr' x) as (B1 & B2 & _).
  destruct (get_cells_eq sc thr' x') as [a [eqa|ea]], (get_cells_eq sc thr' x) as [b [eqb|eb]] eqn:Eb; cbn [fst snd] in *; try discriminate; [|cbn; congruence].
  inversion Eq; subst eqb; clear Eq. cbv zeta.
  (* the equations are those of the first time *)
  assert (Ee : eqa = eqs).
  { pose proof Ey as Ey'. unfold get_cells_eq, mbind, mread in Ey', Eb. destruct (thr && _)%bool; [discriminate|]. destruct (thr' && _)%bool; [discriminate|]. congruence. }
  subst eqa. destruct (noS_fields _ _ A1) as (Ia & _ & Ta), (noS_fields _ _ B1) as (Ib & _ & Tb), (noS_fields _ _ K1) as (Iy & _ & Ty).
  assert (Ba : base a = if s_tstep (snd x) =? 0 then (mat0 (length (b_ids (fst x))), repeat (Some n0) (length (b_ids (fst x)))) else Ad).
  { unfold base. rewrite A2. unfold x'. cbn [snd]. assert (Es : s_sym (set_sym (Some Ad) (snd y)) = Some Ad) by (destruct (snd y); reflexivity). rewrite Es, Ia, E1, Ta, E3. reflexivity. }
  assert (Bb : base b = base y). { unfold base. rewrite B2, K2, Ib, Iy, Tb, Ty. reflexivity. }
  rewrite (rows_m (fst a) (fst x)) by congruence. rewrite (rows_m (fst b) (fst x)) by congruence. rewrite (rows_m (fst y) (fst x)) in Er by congruence.
  replace (b_ids (fst a)) with (b_ids (fst x)) by congruence. replace (b_ids (fst b)) with (b_ids (fst x)) by congruence. replace (b_ids (fst y)) with (b_ids (fst x)) in Er by congruence.
  set (o := b_ids (fst x)) in *. set (m := fst x) in *.
  assert (Hb : base a = base y \/ base a = Ad).
  { rewrite Ba. destruct (Nat.eqb_spec (s_tstep (snd x)) 0) as [Z0|Z0]; [left|now right]. unfold base. rewrite Ty, Z0. cbn [Nat.eqb]. rewrite Iy. destruct (s_sym (snd y)); reflexivity. }
  rewrite Bb. destruct Hb as [->| ->].
  { destruct (symb_rows m thr' eqs o (base y)) as [[A1' d1]|e1]; cbn [snd same_system]; [repeat split; auto|reflexivity]. }
  pose proof (rows_true m eqs o) as RT. set (L := flat_map (fun id => fst (ops m eqs id)) o) in *. set (D := flat_map (fun id => snd (ops m eqs id)) o) in *.
  assert (HAd : Ad = (assignA L (fst (base y)), assignd D (snd (base y)))).
  { destruct thr; [rewrite RT in Er; congruence|]. destruct (rows_false m eqs o) as [H|(e & H)]; rewrite H in Er; [rewrite RT in Er; congruence|discriminate]. }
  assert (Fin : forall r r', r = Ok (assignA L (fst Ad), assignd D (snd Ad)) -> r' = Ok (assignA L (fst (base y)), assignd D (snd (base y))) -> same_system r r').
  { intros r r' -> ->. cbn [same_system]. rewrite HAd. cbn [fst snd]. split; [apply assignA_twice|]. apply assignd_sub. auto. }
  destruct thr'; [rewrite !RT; cbn [snd]; now apply Fin|].
  destruct (rows_false m eqs o) as [H|(e & H)]; rewrite !H; [rewrite !RT; cbn [snd]; now apply Fin|]. reflexivity.
Qed.
End dry.

(** ** Orders *)
Section order.
Context {F : Type} {NF : Num F} {NT : NumT F} (m : bo F) (eqs : list (Z * (list (Z * F) * res (fl F)))).
Lemma ops_row id i : cell_i m id = Ok i -> (forall p, In p (map fst (fst (ops m eqs id))) -> fst p = i) /\ (forall p, In p (map fst (snd (ops m eqs id))) -> p = i).
Proof.
  intros E. unfold ops, row_op. destruct (dgetE id eqs) as [e|]; cbn [rbind]; [|cbn; tauto]. destruct (rmapM _ (fst e)) as [ks|]; cbn [rbind]; [|cbn; tauto].
  rewrite E. cbn [rbind]. destruct (snd e); cbn [rbind]; [|cbn; tauto]. cbn [fst snd]. split.
  - intros p H. rewrite map_map in H. cbn in H. apply in_map_iff in H as (k & <- & _). reflexivity.
  - cbn. intros p [H|[]]. congruence.
Qed.
Lemma ops_none id e : cell_i m id = Err e -> ops m eqs id = ([], []).
Proof.
  intros E. unfold ops, row_op. destruct (dgetE id eqs) as [e'|]; cbn [rbind]; [|reflexivity]. destruct (rmapM _ (fst e')) as [ks|]; cbn [rbind]; [|reflexivity].
  rewrite E. reflexivity.
Qed.
Lemma dget_combine l : forall k id i, dget id (combine l (seq k (length l))) = Some i -> k <= i /\ nth_error l (i - k) = Some id.
Proof.
  induction l as [|a l IH]; intros k id i E; cbn in E; [discriminate|]. destruct (Z.eqb_spec id a).
  - inversion E; subst. rewrite Nat.sub_diag. auto.
  - apply IH in E as (E1 & E2). split; [lia|]. replace (i - k) with (S (i - S k)) by lia. exact E2.
Qed.
Lemma cell_i_inj a b i : cell_i m a = Ok i -> cell_i m b = Ok i -> a = b.
Proof.
  unfold cell_i, dgetE. intros Ea Eb. destruct (dget a _) eqn:E1; [|discriminate]. destruct (dget b _) eqn:E2; [|discriminate].
  inversion Ea; inversion Eb; subst. apply dget_combine in E1 as (_ & E1). apply dget_combine in E2 as (_ & E2). congruence.
Qed.
Lemma assignA_ext (L : list (nat * nat * F)) A B : meq A B -> meq (assignA L A) (assignA L B).
Proof. intros (H1 & H2). split; [now rewrite !assignA_size|]. intros i j. apply assignA_at. auto. Qed.
Lemma meq_trans (A B C : @mat F) : meq A B -> meq B C -> meq A C.
Proof. intros (a & b) (c & d). split; [congruence|]. intros. now rewrite b. Qed.
Lemma assign_comm (L L' : list (nat * nat * F)) A : (forall p, In p (map fst L) -> ~ In p (map fst L')) -> meq (assignA L (assignA L' A)) (assignA L' (assignA L A)).
Proof.
  intros N. split; [now rewrite !assignA_size|]. intros i j.
  destruct (in_dec (fun a b : nat * nat => ltac:(decide equality; apply Nat.eq_dec)) (i, j) (map fst L)) as [I|I].
  - rewrite (assignA_out L' i j (assignA L A)) by (now apply N). apply assignA_at. now right.
  - rewrite (assignA_out L i j (assignA L' A)) by auto. apply assignA_at. left. symmetry. now apply assignA_out.
Qed.
Lemma assignd_comm (L L' : list (nat * fl F)) : forall A, (forall p, In p (map fst L) -> ~ In p (map fst L')) -> assignd L (assignd L' A) = assignd L' (assignd L A).
Proof.
  assert (H1 : forall (L' : list (nat * fl F)) k v A, ~ In k (map fst L') -> assignd L' (upd A k v) = upd (assignd L' A) k v).
  { clear. induction L' as [|[q w] L' IH]; intros k v A N; cbn [assignd fold_left fst snd map In] in *; auto. rewrite upd_swap by (intros ->; apply N; now left). apply (IH k v). intros Z1; apply N; now right. }
  induction L as [|[k v] L IH]; intros A N; cbn [assignd fold_left fst snd]; auto. fold (assignd L (upd (assignd L' A) k v)). fold (assignd L (upd A k v)).
  rewrite <- H1 by (apply N; now left). apply IH. intros p Hp. apply N. now right.
Qed.
Lemma ops_disjoint a b : a <> b -> (forall p, In p (map fst (fst (ops m eqs a))) -> ~ In p (map fst (fst (ops m eqs b)))) /\
  (forall p, In p (map fst (snd (ops m eqs a))) -> ~ In p (map fst (snd (ops m eqs b)))).
Proof.
  intros N. destruct (cell_i m a) as [i|e] eqn:Ea; [|rewrite (ops_none _ _ Ea); cbn; tauto]. destruct (cell_i m b) as [j|e] eqn:Eb; [|rewrite (ops_none _ _ Eb); cbn; tauto].
  assert (i <> j) by (intros ->; apply N; eapply cell_i_inj; eauto). destruct (ops_row a i Ea) as (A1 & A2), (ops_row b j Eb) as (B1 & B2). split.
  - intros p P1 P2. apply A1 in P1. apply B1 in P2. congruence.
  - intros p P1 P2. apply A2 in P1. apply B2 in P2. congruence.
Qed.
Lemma rows_perm o1 o2 : Permutation o1 o2 -> NoDup o1 -> forall A d,
  meq (assignA (flat_map (fun id => fst (ops m eqs id)) o1) A) (assignA (flat_map (fun id => fst (ops m eqs id)) o2) A) /\
  assignd (flat_map (fun id => snd (ops m eqs id)) o1) d = assignd (flat_map (fun id => snd (ops m eqs id)) o2) d.
Proof.
  induction 1 as [|x l l' P IH|x y l|l l' l'' P1 IH1 P2 IH2]; intros N A d.
  - repeat split; auto.
  - inversion N; subst. cbn [flat_map]. rewrite !assignA_app, !assignd_app. auto.
  - inversion N as [|? ? N1 N2]; subst. assert (Nxy : y <> x) by (intros ->; apply N1; now left). destruct (ops_disjoint x y) as (D1 & D2); [congruence|].
    cbn [flat_map]. rewrite !assignA_app, !assignd_app. split; [apply assignA_ext; now apply assign_comm|]. f_equal. now apply assignd_comm.
  - destruct (IH1 N A d) as (M1 & M2). destruct (IH2 (Permutation_NoDup P1 N) A d) as (M3 & M4). split; [eapply meq_trans; eauto|congruence].
Qed.
Lemma rows_keys m' eqs' eqs'' o Ad : (forall id, In id o -> dget id eqs' = dget id eqs'') -> symb_rows (m' : bo F) true eqs' o Ad = symb_rows m' true eqs'' o Ad.
Proof.
  intros H. unfold symb_rows. generalize (Ok Ad). induction o as [|id o IH]; intros r; cbn [fold_left]; auto.
  rewrite IH by (intros; apply H; now right). f_equal. destruct r as [Ad'|]; auto. cbn [rbind]. unfold dgetE. rewrite (H id) by now left. reflexivity.
Qed.
Lemma rmap_keys {A} (f : Z -> res (Z * A)) l ys : (forall id y, f id = Ok y -> fst y = id) -> rmapM f l = Ok ys ->
  forall id, In id l -> exists e, f id = Ok (id, e) /\ dget id ys = Some e.
Proof.
  intros K. revert ys. induction l as [|a l IH]; intros ys E id [].
  - subst. cbn in E. destruct (f id) as [[k e]|] eqn:Ef; [|discriminate]. cbn [rbind] in E. destruct (rmapM f l); [|discriminate]. cbn [rbind] in E. inversion E; subst.
    pose proof (K _ _ Ef) as Kk. cbn in Kk. subst k. exists e. cbn. now rewrite Z.eqb_refl.
  - cbn in E. destruct (f a) as [[k e]|] eqn:Ef; [|discriminate]. cbn [rbind] in E. destruct (rmapM f l) as [zs|] eqn:Er; [|discriminate]. cbn [rbind] in E. inversion E; subst.
    destruct (IH zs eq_refl id H) as (e' & E1 & E2). pose proof (K _ _ Ef) as Kk. cbn in Kk. subst k. cbn. destruct (Z.eqb_spec id a); [|eauto].
    subst. rewrite Ef in E1. inversion E1; subst. eauto.
Qed.
Lemma rmap_all {A B} (f : A -> res B) l : (forall a, In a l -> exists b, f a = Ok b) -> exists ys, rmapM f l = Ok ys.
Proof.
  induction l as [|a l IH]; intros H; cbn; [eauto|]. destruct (H a (or_introl eq_refl)) as (b & ->). destruct IH as (ys & ->); [intros; apply H; now right|]. cbn. eauto.
Qed.
Lemma rmap_in {A B} (f : A -> res B) l ys a : rmapM f l = Ok ys -> In a l -> exists b, f a = Ok b.
Proof.
  revert ys. induction l as [|c l IH]; intros ys E []; cbn in E; destruct (f c) eqn:Ef; try discriminate; cbn [rbind] in E; destruct (rmapM f l); try discriminate.
  - subst. eauto.
  - eauto.
Qed.
End order.

(** ** Wells without a control mode, along a history *)
Section good.
Context {F : Type} {NF : Num F} {NT : NumT F}.
Definition gw (w : well F) : Prop := w_con w = None -> w_pwf w = None /\ w_q w = None.
Definition goodx (x : ws F) : Prop := good_wells (fst x).
Definition conset id (x : ws F) : Prop := goodx x /\ exists w c, dget id (b_wells (fst x)) = Some w /\ w_con w = Some c.
Lemma good_dset id w (m : bo F) : good_wells m -> gw w -> good_wells (set_wells (dset id w (b_wells m)) m).
Proof. intros Gm Gw j w'. rewrite wells_set_wells, dget_dset_z. destruct (Z.eqb_spec j id); [|apply Gm]. intros E; inversion E; subst. exact Gw. Qed.
Lemma go_upd id f : (forall m w w', gw w -> f m w = Ok w' -> gw w') -> inv goodx (upd_well id f).
Proof.
  intros H. unfold upd_well. apply i_set. intros [m o] x' Hx E. cbn [fst snd] in *. unfold dgetE in E. destruct (dget id (b_wells m)) as [w|] eqn:Ew; [|discriminate]. cbn [rbind] in E.
  destruct (f m w) as [w'|] eqn:Ef; [|discriminate]. inversion E; subst. unfold goodx in *. cbn [fst] in *. apply good_dset; auto. eapply H; [|exact Ef]. intros Ec. eapply Hx; eauto.
Qed.
Lemma co_upd id f : (forall m w w', w_con w <> None -> f m w = Ok w' -> w_con w' <> None) -> inv (conset id) (upd_well id f).
Proof.
  intros H. unfold upd_well. apply i_set. intros [m o] x' (Hx & w & c & Ew & Ec) E. cbn [fst snd] in *. unfold dgetE in E. rewrite Ew in E. cbn [rbind] in E.
  destruct (f m w) as [w'|] eqn:Ef; [|discriminate]. inversion E; subst. assert (Nc : w_con w' <> None) by (eapply H; [|exact Ef]; congruence).
  split; unfold goodx in *; cbn [fst] in *.
  - apply good_dset; auto. intros C. congruence.
  - exists w'. destruct (w_con w') as [c'|]; [|congruence]. exists c'. rewrite wells_set_wells, dget_dset_z, Z.eqb_refl. auto.
Qed.
Lemma co_log id i : inv (conset i) (log_pressure id).
Proof. unfold log_pressure. apply i_set. intros [[] ?] [? ?] Hx E. cbn [fst snd] in *. fin. exact Hx. Qed.
Lemma go_log id : inv goodx (log_pressure id).
Proof. unfold log_pressure. apply i_set. intros [[] ?] [? ?] Hx E. cbn [fst snd] in *. fin. exact Hx. Qed.
Lemma co_tail id : inv (conset id) (set_well_tail id).
Proof.
  unfold set_well_tail. isplit; auto using co_log; apply co_upd; intros m w w' Hc E.
  - destruct (calc_well_r_eq m id); [|discriminate]. cbn [rbind] in E. inversion E; subst. now destruct w.
  - destruct (calc_well_G m id); [|discriminate]. cbn [rbind] in E. inversion E; subst. now destruct w.
  - inversion E; subst. now destruct w.
Qed.
Lemma go_tail id : hoare (conset id) (set_well_tail id) (fun _ => goodx) goodx.
Proof. eapply h_weak; [apply inv_hoare, co_tail|auto|intros ? ? (H & _); exact H|intros ? (H & _); exact H]. Qed.
Lemma go_read {A} (f : ws F -> res A) : inv goodx (mread f). Proof. apply i_read. Qed.
Lemma go_set_well cell q pwf r s : inv goodx (set_well cell q pwf r s).
Proof.
  unfold set_well. destruct cell as [id|]; [|apply i_read]. unfold assert_inside. apply i_bind; [apply i_read|]. intros _.
  apply i_bind. { apply i_set. intros [m o] x' Hx E. cbn [fst snd] in E. destruct (din id (b_wells m)); inversion E; subst; auto. unfold goodx in *. cbn [fst] in *. apply good_dset; auto. intros _. split; reflexivity. }
  intros _. apply i_bind. { apply i_opt. intros v. apply go_upd. intros m w w' Hw E. inversion E; subst. destruct w. intros C. discriminate. }
  intros _. apply i_bind.
  { apply i_opt. intros v. apply i_bind; [|intros _; apply go_log]. apply go_upd. intros m w w' Hw E. unfold gw in *. destruct w. cbn in *. destruct w_q; cbn in *; inversion E; subst; cbn; intros C; [|discriminate].
    destruct (Hw C) as (_ & Z0). discriminate. }
  intros _. apply hoare_inv. eapply h_bind with (Q := fun _ => conset id).
  { unfold upd_well. apply h_set; auto. intros [m o] x' Hx E. cbn [fst snd] in *. unfold dgetE in E. destruct (dget id (b_wells m)) as [w|] eqn:Ew; [|discriminate]. cbn [rbind] in E. inversion E; subst.
    assert (Nc : w_con (if has (w_con w) then w else with_con None w) <> None) by (destruct w; destruct w_con; cbn; discriminate). set (w2 := if has (w_con w) then w else with_con None w) in *.
    split; unfold goodx in *; cbn [fst] in *; [apply good_dset; auto; intros C; congruence|].
    exists w2. destruct (w_con w2) as [c2|] eqn:C2; [|congruence]. exists c2. rewrite wells_set_wells, dget_dset_z, Z.eqb_refl. auto. }
  intros _. eapply h_bind with (Q := fun _ => conset id).
  { eapply h_weak; [apply inv_hoare with (P := conset id)|auto|auto|intros ? (H & _); exact H]. apply i_opt. intros v. apply co_upd. intros m w w' Hc E. inversion E; subst. now destruct w. }
  intros _. eapply h_bind with (Q := fun _ => conset id).
  { eapply h_weak; [apply inv_hoare with (P := conset id)|auto|auto|intros ? (H & _); exact H]. apply i_opt. intros v. apply co_upd. intros m w w' Hc E. inversion E; subst. now destruct w. }
  intros _. apply go_tail.
Qed.
Lemma go_set_well_obj w cell : inv goodx (set_well_obj w cell).
Proof.
  unfold set_well_obj, assert_inside. apply i_bind; [apply i_read|]. intros id. apply i_bind; [apply i_read|]. intros _. apply hoare_inv. eapply h_bind with (Q := fun _ => conset id).
  { apply h_set; auto. intros [m o] x' Hx E. cbn [fst snd] in *. inversion E; subst. unfold conset, goodx in *. cbn [fst] in *. split; [apply good_dset; auto; intros C; discriminate|].
    exists (well_of w), (sc_con w). rewrite wells_set_wells, dget_dset_z, Z.eqb_refl. auto. }
  intros _. apply go_tail.
Qed.
Ltac nowell := apply i_set; intros [[] o] [? ?] Hx E; cbn [fst snd] in *; fin; exact Hx.
Lemma go_put_p id w : inv goodx (put_pressure id w). Proof. unfold put_pressure. nowell. Qed.
Lemma go_put_q id w : inv goodx (put_rate id w). Proof. unfold put_rate. nowell. Qed.
Lemma go_boundary id c w : inv goodx (set_boundary id c w).
Proof. unfold set_boundary. isplit; auto using go_put_p, go_put_q. Qed.
Lemma go_boundaries bd : inv goodx (set_boundaries bd).
Proof. unfold set_boundaries. isplit; try (nowell; fail). destruct a1 as [id [c w]]. isplit. apply go_boundary. Qed.
Lemma go_all c w : inv goodx (set_all_boundaries c w).
Proof. unfold set_all_boundaries. isplit. apply go_boundary. Qed.
(** Steps. *)
Definition goods (x : st F) : Prop := good_wells (fst x).
Definition conss id (x : st F) : Prop := goods x /\ exists w c, dget id (b_wells (fst x)) = Some w /\ w_con w = Some c.
Lemma cs_uw id f : (forall w, w_con w <> None -> w_con (f w) <> None) -> inv (conss id) (upd_wells id f).
Proof.
  intros H. unfold upd_wells. apply i_set. intros [m o] x' (Hx & w & c & Ew & Ec) E. cbn [fst snd] in *. unfold dgetE in E. rewrite Ew in E. cbn [rbind] in E. inversion E; subst.
  assert (Nc : w_con (f w) <> None) by (apply H; congruence). unfold conss, goods in *. cbn [fst] in *. split; [apply good_dset; auto; intros C; congruence|].
  exists (f w). destruct (w_con (f w)) as [c'|]; [|congruence]. exists c'. rewrite wells_set_wells, dget_dset_z, Z.eqb_refl. auto.
Qed.
Lemma cs_con id v : hoare goods (upd_wells id (with_con v)) (fun _ => conss id) goods.
Proof.
  unfold upd_wells. apply h_set; auto. intros [m o] x' Hx E. cbn [fst snd] in *. unfold dgetE in E. destruct (dget id (b_wells m)) as [w|] eqn:Ew; [|discriminate]. cbn [rbind] in E. inversion E; subst.
  unfold conss, goods in *. cbn [fst] in *. split; [apply good_dset; auto; intros C; destruct w; discriminate|]. exists (with_con v w), v. rewrite wells_set_wells, dget_dset_z, Z.eqb_refl. destruct w. auto.
Qed.
Lemma cs_put i id q : inv (conss i) (put_r id q).
Proof. unfold put_r. apply i_set. intros [[] []] [? ?] Hx E. cbn [fst snd] in *. fin; exact Hx. Qed.
Lemma gs_put id q : inv goods (put_r id q).
Proof. unfold put_r. apply i_set. intros [[] []] [? ?] Hx E. cbn [fst snd] in *. fin; exact Hx. Qed.
Lemma gs_well id : inv goods (update_well id).
Proof.
  unfold update_well. do 4 (apply i_bind; [apply i_read|]; intros ?). apply hoare_inv. eapply h_bind with (Q := fun _ => conss id).
  { apply h_if; intros _.
    - eapply h_bind with (Q := fun _ => conss id); [apply cs_con|]. intros _. apply h_ret. auto.
    - eapply h_bind with (Q := fun _ => goods); [apply inv_hoare, i_read|]. intros b. eapply h_bind with (Q := fun _ => conss id); [apply cs_con|]. intros _. apply h_ret. auto. }
  intros rb. eapply h_weak; [apply inv_hoare with (P := conss id)|auto|intros ? ? (H & _); exact H|intros ? (H & _); exact H].
  isplit; auto using cs_put; apply cs_uw; intros []; auto.
Qed.
Lemma gs_loop l : forall acc, inv goods (update_wells_loop l acc).
Proof. induction l as [|i l IH]; intros acc; cbn [update_wells_loop]; isplit; auto using gs_well. Qed.
Ltac nowell2 := apply i_set; intros [[] []] [? ?] Hx E; cbn [fst snd] in *; fin; exact Hx.
Lemma gs_wells : inv goods update_wells.
Proof. unfold update_wells. isplit; auto using gs_loop. destruct a0; isplit. nowell2. Qed.
Lemma gs_ub : inv goods update_boundaries.
Proof. unfold update_boundaries, update_boundary. isplit; auto using gs_put. Qed.
Lemma gs_MB : inv goods check_MB.
Proof. unfold check_MB. apply i_set. intros [m s] [m' s'] Hx E. fin; exact Hx. Qed.
Lemma gs_rows A d p : inv goods (new_rows A d p). Proof. unfold new_rows. isplit; apply i_set; intros [m s] [m' s'] Hx E; cbn [fst snd] in *; fin; exact Hx. Qed.
Lemma pub_wells (x y : st F) : pub x = pub y -> b_wells (fst x) = b_wells (fst y). Proof. unfold pub, settings. congruence. Qed.
Lemma gs_system sc o : inv goods (get_system sc o).
Proof. intros x Hx. pose proof (system_pub sc o x) as P. unfold goods in *. eapply good_same; [symmetry; apply pub_wells; exact P|exact Hx]. Qed.
Lemma gs_solve slv sc fuel sparse : forall o, inv goods (solve slv sc fuel sparse o).
Proof.
  induction fuel as [|fuel IH]; intros o; cbn [solve]; isplit; auto using gs_system, gs_rows, gs_ub, gs_wells, gs_MB.
  apply i_set. intros [m s] [m' s'] Hx E. inversion E; subst. exact Hx.
Qed.
Lemma gs_run slv sc n fuel sparse thr vect mb pr iso : inv goods (run slv sc n fuel sparse thr vect mb pr iso).
Proof.
  unfold run. isplit; [apply i_set; intros [? ?] [? ?] Hx E; inversion E; subst; exact Hx|].
  assert (H : forall k o, inv goods (run_loop slv sc k fuel sparse o)); [|apply H].
  induction k as [|k IH]; intros o; cbn [run_loop]; isplit; auto using gs_solve.
Qed.
Lemma go_exec c : inv goodx (exec c).
Proof.
  destruct c; cbn [exec]; auto using go_set_well, go_set_well_obj, go_boundary, go_boundaries, go_all.
  - apply i_set. intros x x' Hx E. inversion E; subst. exact Hx.
  - intros [m o'] Hx. unfold of_solution. destruct o' as [s|]; cbn [fst snd] in *; [|exact Hx]. pose proof (gs_solve slv sc fuel sparse o (m, s) Hx) as H. destruct (solve slv sc fuel sparse o (m, s)). exact H.
  - intros [m o'] Hx. unfold of_solution. destruct o' as [s|]; cbn [fst snd] in *; [|exact Hx]. pose proof (gs_run slv sc n fuel sparse thr vect mb pr iso (m, s) Hx) as H.
    destruct (run slv sc n fuel sparse thr vect mb pr iso (m, s)). exact H.
Qed.
Lemma go_after l : forall x, goodx x -> goodx (after x l).
Proof. induction l as [|c l IH]; intros x Px; cbn [after fold_left]; auto. apply IH. now apply (go_exec c). Qed.

(** ** A dry run *)
Definition drysame sc (x y : st F) : Prop := pub x = pub y /\ snd (get_matrices_vect x) = snd (get_matrices_vect y) /\
  forall thr, same_system (snd (get_matrices_symb sc thr x)) (snd (get_matrices_symb sc thr y)).
Lemma same_refl (r : res (@mat F * list (fl F))) : same_system r r. Proof. destruct r as [[A d]|]; cbn; repeat split; auto. Qed.
Lemma same_trans (a b c : res (@mat F * list (fl F))) : same_system a b -> same_system b c -> same_system a c.
Proof. destruct a as [[A d]|ea], b as [[B e]|eb], c as [[C f]|ec]; cbn; try tauto; try congruence. intros ((a1 & a2) & a3) ((b1 & b2) & b3). repeat split; try congruence; intros; now rewrite a2. Qed.
Lemma ds_trans sc x y z : drysame sc x y -> drysame sc y z -> drysame sc x z.
Proof. intros (a & b & c) (d & e0 & f). split; [congruence|]. split; [congruence|]. intros thr. eapply same_trans; eauto. Qed.
Lemma ds_vect sc x y Ad : get_matrices_vect x = (y, Ok Ad) -> drysame sc y x.
Proof.
  intros E. split. { pose proof (pb_vect (pub x) x eq_refl) as H. rewrite E in H. exact H. }
  split. { rewrite (vect_twice _ _ _ E), E. reflexivity. }
  intros thr. rewrite (outS sc thr y x); [apply same_refl|]. pose proof (kV (noV x) x eq_refl) as H. now rewrite E in H.
Qed.
Lemma ds_symb sc thr x y Ad : goods x -> get_matrices_symb sc thr x = (y, Ok Ad) -> drysame sc y x.
Proof.
  intros Gx E. split. { pose proof (pb_symb (pub x) sc thr x eq_refl) as H. rewrite E in H. exact H. }
  split. { apply outV. pose proof (kS (noS x) sc thr x eq_refl) as H. now rewrite E in H. }
  intros thr'. eapply symb_twice; eauto.
Qed.
Lemma ds_good sc x y : drysame sc y x -> goods x -> goods y.
Proof. intros (P & _). apply good_same. symmetry. now apply pub_wells. Qed.
Lemma ds_system sc o x y Ad : goods x -> get_system sc o x = (y, Ok Ad) -> drysame sc y x.
Proof.
  intros Gx. unfold get_system. destruct (o_print o).
  - intros E. apply mbind_ok in E as (Ad' & z & E1 & E). apply mbind_ok in E as (Ad2 & z2 & E2 & E). inversion E; subst.
    eapply ds_trans; [eapply ds_vect; eauto|eapply ds_symb; eauto].
  - destruct (o_vect o); intros E; [eapply ds_vect; eauto|eapply ds_symb; eauto].
Qed.
Lemma ds_outcome sc x y : drysame sc y x -> forall o, same_system (snd (get_system sc o y)) (snd (get_system sc o x)).
Proof.
  intros (P & V & S) o. unfold get_system. destruct (o_print o).
  - specialize (S (o_thr o)). pose proof (kS (noS x) sc (o_thr o) x eq_refl) as Kx. pose proof (kS (noS y) sc (o_thr o) y eq_refl) as Ky. unfold mbind.
    destruct (get_matrices_symb sc (o_thr o) y) as [y1 [A1|e1]], (get_matrices_symb sc (o_thr o) x) as [x1 [A2|e2]]; cbn [snd fst] in *; [|destruct A1; contradiction S|contradiction S|exact S].
    apply outV in Kx, Ky. assert (E : snd (get_matrices_vect y1) = snd (get_matrices_vect x1)) by congruence.
    destruct (get_matrices_vect y1) as [y2 [r1|e1]], (get_matrices_vect x1) as [x2 [r2|e2]]; cbn [snd mret] in *; try discriminate; auto. inversion E. reflexivity.
  - destruct (o_vect o); auto. rewrite V. apply same_refl.
Qed.
Lemma dry_solve slv sc fuel sparse o x X : o_upd o = false -> goods x -> solve slv sc fuel sparse o x = (X, Ok tt) -> drysame sc X x.
Proof.
  intros U Gx E. destruct fuel as [|fuel]; [discriminate|]. cbn [solve] in E. apply mbind_ok in E as (Ad & z & E1 & E). apply mbind_ok in E as (p & z2 & E2 & E).
  apply mread_ok in E2 as (-> & _). rewrite U in E. inversion E; subst. eapply ds_system; eauto.
Qed.
Lemma dry_after sc l : forall m s m' s', goods (m, s) -> Forall (dry sc) l -> all_ok (m, Some s) l -> after (m, Some s) l = (m', Some s') -> drysame sc (m', s') (m, s).
Proof.
  induction l as [|c l IH]; intros m s m' s' Gx D A E.
  - inversion E; subst. split; [reflexivity|]. split; [reflexivity|]. intros. apply same_refl.
  - inversion D as [|? ? D1 D2]; subst. destruct A as (A1 & A2). cbn [after fold_left] in E. destruct c; cbn [dry] in D1; try tauto. destruct D1 as (U & ->). cbn [exec] in *. unfold of_solution in *. cbn [fst snd] in *.
    destruct (solve slv sc fuel sparse o (m, s)) as [[m1 s1] r] eqn:Es. cbn [fst snd] in *. subst r. pose proof (dry_solve _ _ _ _ _ _ _ U Gx Es) as H1.
    eapply ds_trans; [apply (IH m1 s1); auto|exact H1]. eapply ds_good; eauto.
Qed.
End good.

(** ** Any schedule *)
Section sched.
Context {F : Type} {NF : Num F} {NT : NumT F}.
Lemma sched_run sc o1 o2 (x : st F) : scheduled sc o1 o2 x =
  if length (b_ids (fst x)) / 2 =? 0 then (x, Err ValueError) else
  match cells_eq_loop sc o1 x with
  | (y, Err e) => (y, Err e)
  | (y, Ok eqs) => let z := (fst y, set_sym (Some (base y)) (snd y)) in
      match symb_rows (fst y) true eqs o2 (base y) with
      | Ok Ad => ((fst y, set_sym (Some Ad) (snd y)), Ok Ad)
      | Err e => (z, Err e)
      end
  end.
Proof.
  unfold scheduled. unfold mbind at 1. unfold mread at 1. destruct (_ =? 0); [reflexivity|]. unfold mbind at 1. destruct (cells_eq_loop sc o1 x) as [[m s] [eqs|e]]; [|reflexivity].
  cbn [fst snd]. cbv zeta. set (n := length (b_ids m)).
  assert (B : (if (s_tstep s =? 0) || negb (has (s_sym s)) then set_sym (Some (mat0 n, repeat (Some n0) n)) s else s) = set_sym (Some (base (m, s))) s).
  { unfold base. cbn [fst snd]. fold n. destruct s. cbn. destruct s_sym, (s_tstep =? 0); reflexivity. }
  unfold mbind at 1. unfold mset at 1. cbn [fst snd]. fold n. rewrite B.
  unfold mbind at 1. unfold mset at 1. cbn [fst snd]. assert (Es : forall v, s_sym (set_sym v s) = v) by (now destruct s). rewrite Es. cbn [attrE rbind].
  destruct (symb_rows m true eqs o2 (base (m, s))) as [Ad|e]; cbn [rbind]; [|reflexivity].
  assert (E2 : set_sym (Some Ad) (set_sym (Some (base (m, s))) s) = set_sym (Some Ad) s) by (now destruct s). rewrite E2. unfold mread. cbn [fst snd]. rewrite Es. reflexivity.
Qed.
Lemma sched_ids sc (x : st F) : scheduled sc (b_ids (fst x)) (b_ids (fst x)) x = get_matrices_symb sc true x.
Proof.
  rewrite sched_run, symb_run. unfold get_cells_eq. unfold mbind, mread. cbn [andb]. destruct (_ =? 0); [reflexivity|].
  destruct (loop_keeps sc (b_ids (fst x)) x) as (K & _). destruct (cells_eq_loop sc (b_ids (fst x)) x) as [y [eqs|e]]; [|reflexivity]. cbn [fst snd] in *.
  destruct (noS_fields _ _ K) as (-> & _). reflexivity.
Qed.
Lemma loop_terms sc l : forall (x y : st F) es, NoDup l -> cells_eq_loop sc l x = (y, Ok es) ->
  forall id, match (if in_dec Z.eq_dec id l then match tm x id with Ok t => Some t | Err _ => None end else dget id (b_terms (fst x))) with
             | r => dget id (b_terms (fst y)) = r end.
Proof.
  induction l as [|a l IH]; intros x y es N E id.
  - cbn in E. inversion E; subst. reflexivity.
  - cbn [cells_eq_loop] in E. apply mbind_ok in E as (e & z & E1 & E). apply mbind_ok in E as (es' & z' & E2 & E). inversion E; subst. inversion N as [|? ? N1 N2]; subst.
    rewrite get_eq_tm in E1. destruct (tm x a) as [t|] eqn:Et; [|discriminate]. inversion E1; subst; clear E1. specialize (IH _ _ _ N2 E2 id).
    destruct (in_dec Z.eq_dec id l) as [J|J]; destruct (in_dec Z.eq_dec id (a :: l)) as [J2|J2]; cbv iota beta in *; [|exfalso; apply J2; now right| |].
    + assert (id <> a) by congruence. rewrite tm_other in IH by auto. exact IH.
    + destruct J2 as [<-|?]; [|contradiction]. rewrite Et. rewrite IH, terms_put. apply dget_dset_same.
    + rewrite IH, terms_put. apply dget_dset_other. intros ->. apply J2. now left.
Qed.
Lemma sched_any sc o1 o2 (x : st F) : NoDup (b_ids (fst x)) -> Permutation o1 (b_ids (fst x)) -> Permutation o2 (b_ids (fst x)) ->
  match scheduled sc o1 o2 x, get_matrices_symb sc true x with
  | (y, Ok Ad), (z, Ok Bd) => meq (fst Ad) (fst Bd) /\ snd Ad = snd Bd /\ forall id, dget id (b_terms (fst y)) = dget id (b_terms (fst z))
  | (_, Err _), (_, Err _) => True
  | _, _ => False
  end.
Proof.
  intros N P1 P2. rewrite sched_run, symb_run. unfold get_cells_eq. unfold mbind, mread. cbn [andb]. destruct (_ =? 0); [exact I|].
  assert (N1 : NoDup o1) by (eapply Permutation_NoDup; [symmetry; exact P1|exact N]). assert (N2 : NoDup o2) by (eapply Permutation_NoDup; [symmetry; exact P2|exact N]).
  pose proof (loop_res sc o1 x N1) as R1. pose proof (loop_res sc (b_ids (fst x)) x N) as R2.
  destruct (loop_keeps sc o1 x) as (K1 & K1'). destruct (loop_keeps sc (b_ids (fst x)) x) as (K2 & K2').
  pose proof (loop_terms sc o1 x) as T1. pose proof (loop_terms sc (b_ids (fst x)) x) as T2.
  assert (Kf : forall id y, eq_of sc x id = Ok y -> fst y = id).
  { intros id [k e]. unfold eq_of. destruct (tm x id); cbn [rbind]; [|discriminate]. destruct (cell_row _ _ _); cbn [rbind]; [|discriminate]. intros E; inversion E; reflexivity. }
  destruct (cells_eq_loop sc o1 x) as [y [e1|e1]], (cells_eq_loop sc (b_ids (fst x)) x) as [z [e2|e2]]; cbn [fst snd] in *; auto.
  - symmetry in R1, R2. cbv zeta. destruct (noS_fields _ _ K1) as (I1 & _ & S1), (noS_fields _ _ K2) as (I2 & _ & S2).
    assert (B : base y = base z) by (unfold base; rewrite K1', K2', I1, I2, S1, S2; reflexivity). rewrite B.
    rewrite (rows_m (fst y) (fst z)) by congruence. rewrite I2.
    rewrite (rows_keys (fst z) e1 e2).
    2:{ intros id J. destruct (rmap_keys (eq_of sc x) o1 e1 Kf R1 id) as (e & E1 & E2); [eapply Permutation_in; [|exact J]; transitivity (b_ids (fst x)); [exact P2|symmetry; exact P1]|].
        destruct (rmap_keys (eq_of sc x) (b_ids (fst x)) e2 Kf R2 id) as (e' & E3 & E4); [eapply Permutation_in; [|exact J]; exact P2|]. congruence. }
    rewrite !rows_true. destruct (rows_perm (fst z) e2 o2 (b_ids (fst x)) P2 N2 (fst (base z)) (snd (base z))) as (M1 & M2). cbn [fst snd]. split; auto. split; auto.
    intros id. specialize (T1 _ _ N1 eq_refl id). specialize (T2 _ _ N eq_refl id). cbv beta iota in T1, T2.
    transitivity (dget id (b_terms (fst y))); [destruct (snd y); reflexivity|]. rewrite T1, T2.
    destruct (in_dec Z.eq_dec id o1) as [J|J], (in_dec Z.eq_dec id (b_ids (fst x))) as [J'|J']; auto; exfalso; [exact (J' (Permutation_in _ P1 J))|exact (J (Permutation_in _ (Permutation_sym P1) J'))].
  - symmetry in R1, R2. destruct (rmap_all (eq_of sc x) (b_ids (fst x))) as (ys & E); [|congruence]. intros a J. eapply rmap_in; [exact R1|]. eapply Permutation_in; [symmetry; exact P1|exact J].
  - symmetry in R1, R2. destruct (rmap_all (eq_of sc x) o1) as (ys & E); [|congruence]. intros a J. eapply rmap_in; [exact R2|]. eapply Permutation_in; [exact P1|exact J].
Qed.
End sched.
