(** What the pressures depend on: heights by their differences, storage by its quotient. *)
From Coq Require Import String ZArith Bool Arith List Lia Reals Lra.
From Verif Require Import Prelude PreludeFacts Num GridModel GridSpec GeoModel GeoSpec PropModel PropSpec
  UnitsModel BlackOilModel FdmModel MonadFacts HistSpec InvFacts AsmFacts ModelSpec ModelFacts Samples SampleFacts SampleWell SampleBal SolverSpec SolveSpec StepSpec
  BalanceSpec FdmSpec BalFacts CanonFacts StepBal SetupFacts BalanceThm ClosedSpec LocalSpec TotalSpec TotalHist ChangeSpec ChangeFacts CompareSpec CompareFacts SampleCompare CompareThm SuperSpec SuperFacts
  TurnSpec TurnGeo TurnRock TurnFacts SampleTurn SampleRaise TurnThm.
Import ListNotations.
Close Scope R_scope.
Open Scope nat_scope.

Lemma raised_row g r1 r2 : row_turned g (false, false, false) r1 r2 -> same_pressures g r1 r2.
Proof. intros H c I. specialize (H c I). now rewrite turn_id in H. Qed.
Lemma raised_rates g r1 r2 : rates_turned g (false, false, false) r1 r2 -> same_rates g r1 r2.
Proof. intros H c I. specialize (H c I). now rewrite turn_id in H. Qed.
Lemma raised_wells m m' : same_controls m m' -> operated m -> wells_turned (false, false, false) m m' /\ conditions_turned (false, false, false) m m'.
Proof.
  intros Sc Op. split.
  - intros c I. rewrite turn_id. pose proof (controls_get m m' (natural_id (gr (geom (b_grid m))) c) Sc) as Q.
    destruct (dget _ (b_wells m)) as [w|] eqn:E, (dget _ (b_wells m')) as [w'|]; auto. destruct Q as (Q1 & Q2).
    destruct (Op _ _ E) as [(q & A)|(G & p & A & L)]; [left; exists q; split; auto; now apply Q1|right; exists G, p; split; auto; split; auto; now apply Q2].
  - intros c I. rewrite turn_id. destruct Sc as (-> & _). reflexivity.
Qed.

(** C123: two reservoirs of the same sizes and permeabilities, one [h] above the
    other, with fluids of the same viscosity, volume factor and gravity, where each cell
    has the same quotient of porosity times compressibility and time step: under the same
    controls all pressures and rates of all steps are the same. *)
Lemma L_C123_quotient :
  forall h (g g' : gobj R) f f' unit pi dt dt' l1 ob l2 st m0 m s l1' ob' l2' st' m0' m' s' x y z u dx dy dz x' y' z' u' dx' dy' dz' k row row',
  raised h g g' -> flow_alike f f' ->
  simulated g f unit pi dt l1 ob l2 st m0 m s -> simulated g' f' unit pi dt' l1' ob' l2' st' m0' m' s' ->
  model m0 x y z u dx dy dz -> model m0' x' y' z' u' dx' dy' dz' -> Forall2 same_path st st' ->
  let p := prepared m0 l1 ob l2 in same_controls p (prepared m0' l1' ob' l2') -> operated p -> conditioned p ->
  (b_cmp m0 = true /\ b_cmp m0' = true /\ same_storage m0 m0' /\ (exists v, pi = Some v) /\ (Forall (path false) st \/ ~ three_d (gr (geom g))) \/
   b_cmp m0 = false /\ b_cmp m0' = false /\ anchored p /\ (Forall (path false) st \/ ~ three_d (gr (geom g)))) ->
  nth_error (s_p s) (S k) = Some row -> nth_error (s_p s') (S k) = Some row' ->
  same_pressures (gr (geom g)) row row' /\ exists q q', nth_error (s_r s) (S k) = Some q /\ nth_error (s_r s') (S k) = Some q' /\ same_rates (gr (geom g)) q q'.
Proof.
  intros h g g' f f' unit pi dt dt' l1 ob l2 st m0 m s l1' ob' l2' st' m0' m' s' x y z u dx dy dz x' y' z' u' dx' dy' dz' k row row' T Fa S S' K K' Sp p Sc Op Cn Hc N N'.
  pose proof (grid_new _ _ _ _ _ _ (proj1 S)) as Eg. pose proof (grid_new _ _ _ _ _ _ (proj1 S')) as Eg'.
  assert (TW : twin (false, false, false) h 1 m0 m0').
  { apply (twin_raised h g g' f f' unit pi pi dt dt' m0 m0' x y z u dx dy dz x' y' z' u' dx' dy' dz'); auto; [apply S|apply S'| |].
    - destruct Hc as [(C1 & C2 & _)|(C1 & C2 & _)]; congruence.
    - intros Cm. destruct Hc as [(_ & _ & Q & _)|(C1 & _)]; [exact Q|congruence]. }
  destruct (sim_start _ _ _ _ _ _ _ _ _ _ _ _ _ _ _ _ _ _ _ S K) as (C & R & A & L & E & I & U). destruct (sim_start _ _ _ _ _ _ _ _ _ _ _ _ _ _ _ _ _ _ _ S' K') as (C' & R' & A' & L' & E' & I' & U').
  set (p' := prepared m0' l1' ob' l2') in *. subst p. set (p := prepared m0 l1 ob l2) in *.
  destruct (raised_wells p p' Sc Op) as (Wt & Ct).
  destruct (turn_history (false, false, false) m0 m0' h 1 TW x y z u dx dy dz K x' y' z' u' dx' dy' dz' K' st st' Sp p (fdm_new p) p' (fdm_new p') m s m' s') as (P & P' & Q & Q' & Q1 & Q2 & Q3 & Q4 & Q5 & Q6 & Q7); auto using wells_one.
  - rewrite Eg. destruct Hc as [(Cm & _ & _ & (v & Ev) & Hd)|(Cm & _ & Hc)]; [left|right; split; [exact Cm|exact Hc]]. split; [exact Cm|]. split; [|exact Hd].
    rewrite I, I'. cbn [last]. intros c Hi. exists v. rewrite turn_id. split.
    + apply (U v Ev). apply (proj2 (proj2 (ids_facts K))). rewrite Eg. eauto.
    + apply (U' v Ev). apply (proj2 (proj2 (ids_facts K'))). rewrite Eg', (ra_shape _ _ _ T). eauto.
  - rewrite I in Q1. rewrite I' in Q2. rewrite Eg in Q3, Q6. rewrite Q1 in N. rewrite Q2 in N'. split; [apply raised_row; exact (rows_after _ _ _ _ _ k row row' Q3 N N')|].
    rewrite Q4, Q5. destruct (rates_after _ _ (b_ir p) (b_ir p') _ _ _ k row Q6 Q7 N) as (q & q' & E1 & E2 & Hq). exists q, q'. split; [exact E1|]. split; [exact E2|]. now apply raised_rates.
Qed.

(** ** Cases *)
(** C123: twice the compressibility and twice the time step. *)
Example ex_C123_quotient_case : exists g f f' unit pi dt dt' l1 ob l2 st m0 m s l1' ob' l2' st' m0' m' s' row row',
  raised 0 g g /\ flow_alike f f' /\
  simulated g f unit pi dt l1 ob l2 st m0 m s /\ simulated g f' unit pi dt' l1' ob' l2' st' m0' m' s' /\
  (exists x y z u dx dy dz, model m0 x y z u dx dy dz /\ model m0' x y z u dx dy dz) /\ Forall2 same_path st st' /\
  (let p := prepared m0 l1 ob l2 in same_controls p (prepared m0' l1' ob' l2') /\ operated p /\ conditioned p) /\
  b_cmp m0 = true /\ b_cmp m0' = true /\ same_storage m0 m0' /\ pi = Some 10%R /\ ~ three_d (gr (geom g)) /\
  nth_error (s_p s) 1 = Some row /\ nth_error (s_p s') 1 = Some row' /\ f <> f' /\ dt <> dt' /\
  row = [Some 6; Some (70 / 9); Some (82 / 9); Some (86 / 9); None]%R.
Proof.
  destruct (slow_made 10) as (f & f' & Fa & H & H').
  destruct (bare_run 10 (70 / 9) (82 / 9) (86 / 9)) as (p1 & ma & s1 & S1 & P1 & W1 & B1 & R1); try lra.
  destruct slow_run as (p2 & mb & s2 & S2 & P2 & W2 & B2 & R2).
  do 23 eexists.
  split; [|split; [exact Fa|]; split; [split; [exact H|exact S1]|]; split; [split; [exact H'|exact S2]|]; split; [do 7 eexists; split; [apply line3_model; intros; lra|apply slow_model]|]; split; [repeat constructor|]].
  - constructor; try reflexivity. intros c I. exists 0%R. apply line_cells in I. cbn [In] in I. destruct I as [<-|[<-|[<-|[<-|[<-|[]]]]]]; split; try reflexivity; rewrite Rplus_0_r; reflexivity.
  - split.
    { cbn zeta. rewrite P1, P2. split; [|split; [|exact (sides_conditioned _ _ B1)]].
      - unfold same_controls. rewrite W1, W2, B1, B2. split; [reflexivity|]. split; [auto|]. intros id w E. discriminate.
      - intros id w. rewrite W1. discriminate. }
    split; [reflexivity|]. split; [reflexivity|]. split.
    { intros c I. exists (1 * (1 + 0) / 1)%R. apply line_interior in I. cbn [In] in I. unfold stored. destruct I as [<-|[<-|[<-|[]]]]; (split; exists 1%R; (split; [reflexivity|cbn; lra])). }
    split; [reflexivity|]. split; [exact line_level|]. split; [exact R1|]. split; [exact R2|]. split.
    { intros <-. destruct (fluid_facts _ _ _ _ _ _ H) as (_ & _ & _ & _ & _ & C1). destruct (fluid_facts _ _ _ _ _ _ H') as (_ & _ & _ & _ & _ & C2). rewrite C1 in C2. injection C2 as C2. cbn in C2. lra. }
    split; [lra|reflexivity].
Qed.
(** C123: the grid at height 2 and at height 7. *)
Example ex_C123_heights_case : exists g g', at_height 2 = Ok g /\ at_height 7 = Ok g' /\ raised 5 g g' /\ g <> g'.
Proof.
  do 2 eexists. split; [|split; [|split]].
  - unfold at_height, gobj_new, geo_new. cbn -[IZR Rdiv]. unfold comp_class. cbn -[IZR Rdiv]. rewrite (Reqb_eq 0 0 eq_refl). reflexivity.
  - unfold at_height, gobj_new, geo_new. cbn -[IZR Rdiv]. unfold comp_class. cbn -[IZR Rdiv]. rewrite (Reqb_eq 0 0 eq_refl). reflexivity.
  - constructor; try reflexivity; [intros n c [<-|[<-|[<-|[]]]] _; reflexivity|]. intros c I. exists 2%R. assert (J : In c [(0, 0, 0); (1, 0, 0); (2, 0, 0); (3, 0, 0); (4, 0, 0)]%Z) by exact (line_cells c I). cbn [In] in J. destruct J as [<-|[<-|[<-|[<-|[<-|[]]]]]]; split; try reflexivity; replace (2 + 5)%R with 7%R by lra; reflexivity.
  - intros E. apply (f_equal (fun o : gobj R => match cur (p_z (prs o)) with Some (v :: _) => v | _ => 0%R end)) in E. cbn in E. lra.
Qed.
