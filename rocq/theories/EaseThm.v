(** What the pressures depend on: permeability by its quotient with viscosity times volume factor. *)
From Coq Require Import String ZArith Bool Arith List Lia Reals Lra.
From Verif Require Import Prelude PreludeFacts Num GridModel GridSpec GeoModel GeoSpec PropModel PropSpec
  UnitsModel BlackOilModel FdmModel MonadFacts HistSpec InvFacts AsmFacts ModelSpec ModelFacts Samples SampleFacts SampleWell SampleBal SolverSpec SolveSpec StepSpec
  BalanceSpec FdmSpec BalFacts CanonFacts StepBal SetupFacts BalanceThm ClosedSpec LocalSpec TotalSpec TotalHist ChangeSpec ChangeFacts CompareSpec CompareFacts SampleCompare CompareThm SuperSpec SuperFacts
  TurnSpec TurnGeo TurnRock TurnFacts SampleTurn SampleRaise SampleEase TurnThm RaiseThm.
Import ListNotations.
Close Scope R_scope.
Open Scope nat_scope.

(** C126: two reservoirs of the same sizes, one [h] above the other, where all
    permeabilities, the product of viscosity and volume factor and all productivities of
    wells are [e] times as large in the second, and each cell has the same quotient of
    porosity times compressibility and volume factor times time step: under the same rates,
    bottom-hole pressures and boundary conditions all pressures and rates of all steps are the same. *)
Lemma L_C126_mobility :
  forall e h (g g' : gobj R) f f' unit pi dt dt' l1 ob l2 st m0 m s l1' ob' l2' st' m0' m' s' x y z u dx dy dz x' y' z' u' dx' dy' dz' k row row',
  eased e h g g' -> thicker e f f' ->
  simulated g f unit pi dt l1 ob l2 st m0 m s -> simulated g' f' unit pi dt' l1' ob' l2' st' m0' m' s' ->
  model m0 x y z u dx dy dz -> model m0' x' y' z' u' dx' dy' dz' -> Forall2 same_path st st' ->
  let p := prepared m0 l1 ob l2 in let p' := prepared m0' l1' ob' l2' in
  wells_scaled e (false, false, false) p p' -> b_bdict p' = b_bdict p -> conditioned p ->
  (b_cmp m0 = true /\ b_cmp m0' = true /\ same_storage_out m0 m0' /\ (exists v, pi = Some v) /\ (Forall (path false) st \/ ~ three_d (gr (geom g))) \/
   b_cmp m0 = false /\ b_cmp m0' = false /\ anchored p /\ (Forall (path false) st \/ ~ three_d (gr (geom g)))) ->
  nth_error (s_p s) (S k) = Some row -> nth_error (s_p s') (S k) = Some row' ->
  same_pressures (gr (geom g)) row row' /\ exists q q', nth_error (s_r s) (S k) = Some q /\ nth_error (s_r s') (S k) = Some q' /\ same_rates (gr (geom g)) q q'.
Proof.
  intros e h g g' f f' unit pi dt dt' l1 ob l2 st m0 m s l1' ob' l2' st' m0' m' s' x y z u dx dy dz x' y' z' u' dx' dy' dz' k row row' T Fa S S' K K' Sp p p' Ws Eb Cn Hc N N'.
  pose proof (grid_new _ _ _ _ _ _ (proj1 S)) as Eg. pose proof (grid_new _ _ _ _ _ _ (proj1 S')) as Eg'.
  assert (TW : twin (false, false, false) h e m0 m0').
  { apply (twin_eased e h g g' f f' unit pi pi dt dt' m0 m0' x y z u dx dy dz x' y' z' u' dx' dy' dz'); auto; [apply S|apply S'| |].
    - destruct Hc as [(C1 & C2 & _)|(C1 & C2 & _)]; congruence.
    - intros Cm. destruct Hc as [(_ & _ & Q & _)|(C1 & _)]; [exact Q|congruence]. }
  destruct (sim_start _ _ _ _ _ _ _ _ _ _ _ _ _ _ _ _ _ _ _ S K) as (C & R & A & L & E & I & U). destruct (sim_start _ _ _ _ _ _ _ _ _ _ _ _ _ _ _ _ _ _ _ S' K') as (C' & R' & A' & L' & E' & I' & U').
  subst p'. set (p' := prepared m0' l1' ob' l2') in *. subst p. set (p := prepared m0 l1 ob l2) in *.
  assert (Ct : conditions_turned (false, false, false) p p') by (intros c J; rewrite turn_id, Eb; reflexivity).
  destruct (turn_history (false, false, false) m0 m0' h e TW x y z u dx dy dz K x' y' z' u' dx' dy' dz' K' st st' Sp p (fdm_new p) p' (fdm_new p') m s m' s') as (P & P' & Q & Q' & Q1 & Q2 & Q3 & Q4 & Q5 & Q6 & Q7); auto.
  - rewrite Eg. destruct Hc as [(Cm & _ & _ & (v & Ev) & Hd)|(Cm & _ & Hc)]; [left|right; split; [exact Cm|exact Hc]]. split; [exact Cm|]. split; [|exact Hd].
    rewrite I, I'. cbn [last]. intros c Hi. exists v. rewrite turn_id. split.
    + apply (U v Ev). apply (proj2 (proj2 (ids_facts K))). rewrite Eg. eauto.
    + apply (U' v Ev). apply (proj2 (proj2 (ids_facts K'))). rewrite Eg', (ea_shape _ _ _ _ T). eauto.
  - rewrite I in Q1. rewrite I' in Q2. rewrite Eg in Q3, Q6. rewrite Q1 in N. rewrite Q2 in N'. split; [apply raised_row; exact (rows_after _ _ _ _ _ k row row' Q3 N N')|].
    rewrite Q4, Q5. destruct (rates_after _ _ (b_ir p) (b_ir p') _ _ _ k row Q6 Q7 N) as (q & q' & E1 & E2 & Hq). exists q, q'. split; [exact E1|]. split; [exact E2|]. now apply raised_rates.
Qed.

(** ** Cases *)
(** C126: twice the permeability and twice the viscosity. *)
Example ex_C126_mobility_case : exists g g' f f' unit pi dt l1 ob l2 st m0 m s l1' ob' l2' st' m0' m' s' row row',
  eased 2 0 g g' /\ thicker 2 f f' /\
  simulated g f unit pi dt l1 ob l2 st m0 m s /\ simulated g' f' unit pi dt l1' ob' l2' st' m0' m' s' /\
  (exists x y z u dx dy dz, model m0 x y z u dx dy dz /\ model m0' x y z u dx dy dz) /\ Forall2 same_path st st' /\
  (let p := prepared m0 l1 ob l2 in let p' := prepared m0' l1' ob' l2' in
   wells_scaled 2 (false, false, false) p p' /\ b_bdict p' = b_bdict p /\ conditioned p) /\
  b_cmp m0 = true /\ b_cmp m0' = true /\ same_storage_out m0 m0' /\ pi = Some 10%R /\ ~ three_d (gr (geom g)) /\
  nth_error (s_p s) 1 = Some row /\ nth_error (s_p s') 1 = Some row' /\ g <> g' /\ f <> f' /\
  row = [Some 6; Some (70 / 9); Some (82 / 9); Some (86 / 9); None]%R.
Proof.
  destruct (thick_made 10) as (f & f' & Fa & H & H').
  destruct (bare_run 10 (70 / 9) (82 / 9) (86 / 9)) as (p1 & ma & s1 & S1 & P1 & W1 & B1 & R1); try lra.
  destruct thick_run as (p2 & mb & s2 & S2 & P2 & W2 & B2 & R2).
  do 23 eexists.
  split; [|split; [exact Fa|]; split; [split; [exact H|exact S1]|]; split; [split; [exact H'|exact S2]|]; split; [do 7 eexists; split; [apply line3_model; intros; lra|apply thick_model]|]; split; [repeat constructor|]].
  - constructor; try reflexivity; [lra| |].
    + intros n c Hn I. apply line_cells in I. cbn [In] in I, Hn. destruct Hn as [<-|[<-|[<-|[]]]], I as [<-|[<-|[<-|[<-|[<-|[]]]]]]; lazy -[IZR Rmult]; try now rewrite Rmult_1_r.
    + intros c I. exists 0%R. apply line_cells in I. cbn [In] in I. destruct I as [<-|[<-|[<-|[<-|[<-|[]]]]]]; split; try reflexivity; rewrite Rplus_0_r; reflexivity.
  - split.
    { cbn zeta. rewrite P1, P2. split; [|split; [congruence|exact (sides_conditioned _ _ B1)]].
      intros c I. rewrite W1, W2. exact Logic.I. }
    split; [reflexivity|]. split; [reflexivity|]. split.
    { intros c I. exists (1 * (1 + 0) / 1)%R. apply line_interior in I. cbn [In] in I. unfold stored_out. destruct I as [<-|[<-|[<-|[]]]]; (split; exists 1%R; (split; [reflexivity|cbn; lra])). }
    split; [reflexivity|]. split; [exact line_level|]. split; [exact R1|]. split; [exact R2|]. split.
    { intros Q. apply (f_equal (fun o : gobj R => match cur (p_kx (prs o)) with Some (v :: _) => v | _ => 0%R end)) in Q. cbn in Q. lra. }
    split; [|reflexivity].
    intros <-. destruct (fluid_facts _ _ _ _ _ _ H) as (_ & _ & M1 & _). destruct (fluid_facts _ _ _ _ _ _ H') as (_ & _ & M2 & _). rewrite M1 in M2. injection M2 as M2. cbn in M2. lra.
Qed.
