(** A reservoir turned round. *)
From Coq Require Import String ZArith Bool Arith List Lia Reals Lra.
From Verif Require Import Prelude PreludeFacts Num GridModel GridSpec GeoModel GeoSpec PropModel PropSpec
  UnitsModel BlackOilModel FdmModel MonadFacts HistSpec InvFacts AsmFacts ModelSpec ModelFacts FrameSpec FrameFacts Samples SampleFacts SampleWell SampleBal SolverSpec SolveSpec StepSpec
  BalanceSpec FdmSpec BalFacts CanonFacts StepBal SetupFacts BalanceThm ClosedSpec LocalSpec TotalSpec TotalHist ChangeSpec ChangeFacts CompareSpec CompareFacts SampleCompare CompareThm SuperSpec SuperFacts
  TurnSpec TurnGeo TurnRock TurnFacts SampleTurn.
Import ListNotations.
Close Scope R_scope.
Open Scope nat_scope.

Lemma grid_new (g : gobj R) f unit pi dt m : bo_new g f unit pi dt = Ok m -> b_grid m = g.
Proof. intros H. apply bo_new_wide in H. tauto. Qed.
Lemma rates_after {A B} (Q : A -> A -> Prop) (a : B) b b' P R R' k row : Forall2 Q R R' -> length R = length P -> nth_error ([a] ++ P) (S k) = Some row ->
  exists q q', nth_error ([b] ++ R) (S k) = Some q /\ nth_error ([b'] ++ R') (S k) = Some q' /\ Q q q'.
Proof.
  intros F L E. cbn in *. assert (H : k < length R) by (rewrite L; apply nth_error_Some; congruence). clear - F H. revert k H. induction F as [|c c' R R' H F IH]; intros [|k] L; cbn in *; try lia; [eauto|]. apply IH. lia.
Qed.
Lemma sim_turned r (g g' : gobj R) f unit pi dt l1 ob l2 st m0 m s l1' ob' l2' st' m0' m' s' x y z u dx dy dz x' y' z' u' dx' dy' dz' :
  turned r g g' ->
  simulated g f unit pi dt l1 ob l2 st m0 m s -> simulated g' f unit pi dt l1' ob' l2' st' m0' m' s' ->
  model m0 x y z u dx dy dz -> model m0' x' y' z' u' dx' dy' dz' -> Forall2 same_path st st' ->
  wells_turned r (prepared m0 l1 ob l2) (prepared m0' l1' ob' l2') -> conditions_turned r (prepared m0 l1 ob l2) (prepared m0' l1' ob' l2') -> conditioned (prepared m0 l1 ob l2) ->
  (b_cmp m0 = true /\ (exists v, pi = Some v) /\ (Forall (path false) st \/ ~ three_d (gr (geom g))) \/ b_cmp m0 = false /\ anchored (prepared m0 l1 ob l2) /\ (Forall (path false) st \/ ~ three_d (gr (geom g)))) ->
  exists a a' P P' b b' Q Q', s_p s = ([a] ++ P)%list /\ s_p s' = ([a'] ++ P')%list /\ Forall2 (row_turned (gr (geom g)) r) P P' /\
    s_r s = ([b] ++ Q)%list /\ s_r s' = ([b'] ++ Q')%list /\ Forall2 (rates_turned (gr (geom g)) r) Q Q' /\ length Q = length P.
Proof.
  intros T S S' K K' Sp Wt Ct Cn Hc.
  pose proof (grid_new _ _ _ _ _ _ (proj1 S)) as Eg. pose proof (grid_new _ _ _ _ _ _ (proj1 S')) as Eg'.
  pose proof (twin_new r g g' f unit pi pi dt m0 m0' _ _ _ _ _ _ _ _ _ _ _ _ _ _ T (proj1 S) (proj1 S') K K') as TW.
  destruct (sim_start _ _ _ _ _ _ _ _ _ _ _ _ _ _ _ _ _ _ _ S K) as (C & R & A & L & E & I & U). destruct (sim_start _ _ _ _ _ _ _ _ _ _ _ _ _ _ _ _ _ _ _ S' K') as (C' & R' & A' & L' & E' & I' & U').
  set (p := prepared m0 l1 ob l2) in *. set (p' := prepared m0' l1' ob' l2') in *.
  destruct (turn_history r m0 m0' 0 1 TW x y z u dx dy dz K x' y' z' u' dx' dy' dz' K' st st' Sp p (fdm_new p) p' (fdm_new p') m s m' s') as (P & P' & Q & Q' & Q1 & Q2 & Q3 & Q4 & Q5 & Q6 & Q7); auto using wells_one.
  - rewrite Eg. destruct Hc as [(Cm & (v & Ev) & Hd)|Hc]; [left|right; exact Hc]. split; [exact Cm|]. split; [|exact Hd].
    rewrite I, I'. cbn [last]. intros c Hi. exists v. split.
    + apply (U v Ev). apply (proj2 (proj2 (ids_facts K))). rewrite Eg. eauto.
    + apply (U' v Ev). apply (proj2 (proj2 (ids_facts K'))). rewrite Eg', (tn_shape _ _ _ T). exists (turn (gr (geom g)) r c). split; auto. apply turn_interior; auto. rewrite <- Eg. exact (md_wf K).
  - rewrite I in Q1. rewrite I' in Q2. rewrite Eg in Q3, Q6. do 8 eexists. repeat (split; [eassumption|]). split; [exact Q4|]. split; [exact Q5|]. auto.
Qed.

(** C122: a reservoir and the same reservoir turned round, by the same steps: in every
    step each cell has the pressure and the rate of the cell in its place. *)
Lemma L_C122_turned :
  forall r (g g' : gobj R) f unit pi dt l1 ob l2 st m0 m s l1' ob' l2' st' m0' m' s' x y z u dx dy dz x' y' z' u' dx' dy' dz' k row row',
  turned r g g' ->
  simulated g f unit pi dt l1 ob l2 st m0 m s -> simulated g' f unit pi dt l1' ob' l2' st' m0' m' s' ->
  model m0 x y z u dx dy dz -> model m0' x' y' z' u' dx' dy' dz' -> Forall2 same_path st st' ->
  let p := prepared m0 l1 ob l2 in let p' := prepared m0' l1' ob' l2' in
  wells_turned r p p' -> conditions_turned r p p' -> conditioned p ->
  (b_cmp m0 = true /\ (exists v, pi = Some v) /\ (Forall (path false) st \/ ~ three_d (gr (geom g))) \/
   b_cmp m0 = false /\ anchored p /\ (Forall (path false) st \/ ~ three_d (gr (geom g)))) ->
  nth_error (s_p s) (S k) = Some row -> nth_error (s_p s') (S k) = Some row' ->
  row_turned (gr (geom g)) r row row' /\ exists q q', nth_error (s_r s) (S k) = Some q /\ nth_error (s_r s') (S k) = Some q' /\ rates_turned (gr (geom g)) r q q'.
Proof.
  intros r g g' f unit pi dt l1 ob l2 st m0 m s l1' ob' l2' st' m0' m' s' x y z u dx dy dz x' y' z' u' dx' dy' dz' k row row' T S S' K K' Sp p p' Wt Ct Cn Hc N N'.
  destruct (sim_turned _ _ _ _ _ _ _ _ _ _ _ _ _ _ _ _ _ _ _ _ _ _ _ _ _ _ _ _ _ _ _ _ _ _ _ T S S' K K' Sp Wt Ct Cn Hc) as (a & a' & P & P' & b & b' & Q & Q' & Q1 & Q2 & Q3 & Q4 & Q5 & Q6 & Q7).
  rewrite Q1 in N. rewrite Q2 in N'. split; [exact (rows_after _ _ _ _ _ k row row' Q3 N N')|]. rewrite Q4, Q5. exact (rates_after _ _ _ _ _ _ _ k row Q6 Q7 N).
Qed.
(** C122, one simulation: if the reservoir and its controls are the same turned round,
    the pressures and the rates of every step are. *)
Lemma L_C122_symmetric :
  forall r (g : gobj R) f unit pi dt l1 ob l2 st m0 m s x y z u dx dy dz k row,
  turned r g g -> simulated g f unit pi dt l1 ob l2 st m0 m s -> model m0 x y z u dx dy dz -> Forall2 same_path st st ->
  let p := prepared m0 l1 ob l2 in
  wells_turned r p p -> conditions_turned r p p -> conditioned p ->
  (b_cmp m0 = true /\ (exists v, pi = Some v) /\ (Forall (path false) st \/ ~ three_d (gr (geom g))) \/
   b_cmp m0 = false /\ anchored p /\ (Forall (path false) st \/ ~ three_d (gr (geom g)))) ->
  nth_error (s_p s) (S k) = Some row -> row_turned (gr (geom g)) r row row /\ exists q, nth_error (s_r s) (S k) = Some q /\ rates_turned (gr (geom g)) r q q.
Proof.
  intros r g f unit pi dt l1 ob l2 st m0 m s x y z u dx dy dz k row T S K Sp p Wt Ct Cn Hc N.
  destruct (L_C122_turned _ _ _ _ _ _ _ _ _ _ _ _ _ _ _ _ _ _ _ _ _ _ _ _ _ _ _ _ _ _ _ _ _ _ _ k row row T S S K K Sp Wt Ct Cn Hc N N) as (H & q & q' & E1 & E2 & Q).
  split; [exact H|]. exists q. split; [exact E1|]. rewrite E1 in E2. injection E2 as <-. exact Q.
Qed.

(** ** Cases *)
Lemma line_interior c : interior (gr (geom (gline3 : gobj R))) c -> In c [(1, 0, 0); (2, 0, 0); (3, 0, 0)]%Z.
Proof.
  destruct c as [[i j] k]. intros H. pose proof (H AX ltac:(discriminate)) as H1. pose proof (H AY ltac:(discriminate)) as H2. pose proof (H AZ ltac:(discriminate)) as H3.
  unfold flows in *. cbn in H1, H2, H3. clear H. assert (j = 0)%Z by lia. assert (k = 0)%Z by lia. subst. assert (i = 1 \/ i = 2 \/ i = 3)%Z as H by lia.
  cbn [In]. destruct H as [H|[H|H]]; subst; auto.
Qed.
Lemma line_boundary c : boundary_cell (gr (geom (gline3 : gobj R))) c -> In c [(0, 0, 0); (4, 0, 0)]%Z.
Proof.
  intros (H & N). apply line_cells in H. cbn [In] in *. destruct H as [<-|[<-|[<-|[<-|[<-|[]]]]]]; auto; exfalso; apply N; intros a Ha; unfold flows; destruct a; try congruence; cbn; lia.
Qed.
Lemma line_well (m m' : bo R) w w' q : b_grid m = gline3 -> b_wells m = [(2%Z, w)] -> b_wells m' = [(2%Z, w')] -> at_rate w q -> at_rate w' q -> wells_turned along_x m m'.
Proof.
  intros Eg E E' A A'. unfold wells_turned. rewrite Eg, E, E'. intros c H. apply line_interior in H. cbn [In] in H. destruct H as [<-|[<-|[<-|[]]]]; cbn; auto. left. eauto.
Qed.
Lemma line_level : ~ three_d (gr (geom (gline3 : gobj R))).
Proof. unfold three_d, flows. cbn. lia. Qed.
Lemma line_core c cmp p m : core m = core (line3 c cmp p) -> b_grid m = gline3.
Proof. intros H. destruct (core_fields _ _ H) as (E & _). exact E. Qed.

(** C122: a line with a pressure on the left and no flow on the right, and the line
    with the sides exchanged; the well is in the middle. *)
Example ex_C122_turned_case : exists g f unit pi dt l1 ob l2 st m0 m s l1' ob' l2' st' m0' m' s' row row',
  turned along_x g g /\
  simulated g f unit pi dt l1 ob l2 st m0 m s /\ simulated g f unit pi dt l1' ob' l2' st' m0' m' s' /\
  (exists x y z u dx dy dz, model m0 x y z u dx dy dz /\ model m0' x y z u dx dy dz) /\ Forall2 same_path st st' /\
  (let p := prepared m0 l1 ob l2 in let p' := prepared m0' l1' ob' l2' in wells_turned along_x p p' /\ conditions_turned along_x p p' /\ conditioned p) /\
  b_cmp m0 = true /\ pi = Some 6%R /\ ~ three_d (gr (geom g)) /\
  nth_error (s_p s) 1 = Some row /\ nth_error (s_p s') 1 = Some row' /\
  row = [Some 6; Some (107 / 18); Some (52 / 9); Some (53 / 9); None]%R /\ row' = [None; Some (53 / 9); Some (52 / 9); Some (107 / 18); Some 6]%R.
Proof.
  destruct line3_made as (g & f & unit & dt & Hn). pose proof (grid_new _ _ _ _ _ _ (Hn 6%R)) as Eg. change (gline3 = g) in Eg. subst g.
  destruct (pump_run 6 (-1 / 2) (107 / 18) (52 / 9) (53 / 9)) as (p1 & ma & s1 & w1 & S1 & P1 & W1 & A1 & B1 & R1); try lra.
  destruct (swapped_run 6 (-1 / 2) (53 / 9) (52 / 9) (107 / 18)) as (p2 & mb & s2 & w2 & S2 & P2 & W2 & A2 & B2 & R2); try lra.
  assert (M : model (line3 (1 + 0) true (Some 6%R)) 3 1 1 true (Scalar 1%R) (Scalar 1%R) (Scalar 1%R)) by (apply line3_model; intros; lra).
  assert (X1 : simulated gline3 f unit (Some 6%R) dt [] (Some (sides 0)) [pump (-1 / 2)] [reply (107 / 18) (52 / 9) (53 / 9)] (line3 (1 + 0) true (Some 6%R)) ma s1) by (split; [apply Hn|exact S1]).
  assert (X2 : simulated gline3 f unit (Some 6%R) dt [] (Some swapped) [pump (-1 / 2)] [reply (53 / 9) (52 / 9) (107 / 18)] (line3 (1 + 0) true (Some 6%R)) mb s2) by (split; [apply Hn|exact S2]).
  pose proof (sim_start _ _ _ _ _ _ _ _ _ _ _ _ _ _ _ _ _ _ _ X1 M) as (C & _). pose proof (line_core _ _ _ _ C) as Ep. rewrite P1 in Ep.
  do 21 eexists. split; [exact line_turned|]. split; [exact X1|]. split; [exact X2|]. split; [do 7 eexists; split; exact M|]. split; [repeat constructor|].
  split.
  { cbn zeta. rewrite P1, P2. split; [exact (line_well _ _ _ _ _ Ep W1 W2 A1 A2)|]. split; [|exact (sides_conditioned _ _ B1)].
    unfold conditions_turned. rewrite Ep, B1, B2. intros c H. apply line_boundary in H. cbn [In] in H. destruct H as [<-|[<-|[]]]; reflexivity. }
  split; [reflexivity|]. split; [reflexivity|]. split; [exact line_level|]. split; [exact R1|]. split; [exact R2|]. split; reflexivity.
Qed.
(** C122: the line with one pressure on both sides. *)
Example ex_C122_symmetric_case : exists g f unit pi dt l1 ob l2 st m0 m s row,
  turned along_x g g /\ simulated g f unit pi dt l1 ob l2 st m0 m s /\
  (exists x y z u dx dy dz, model m0 x y z u dx dy dz) /\ Forall2 same_path st st /\
  (let p := prepared m0 l1 ob l2 in wells_turned along_x p p /\ conditions_turned along_x p p /\ conditioned p) /\
  b_cmp m0 = true /\ pi = Some 6%R /\ ~ three_d (gr (geom g)) /\
  nth_error (s_p s) 1 = Some row /\ row = [Some 6; Some (119 / 20); Some (29 / 5); Some (119 / 20); Some 6]%R.
Proof.
  destruct line3_made as (g & f & unit & dt & Hn). pose proof (grid_new _ _ _ _ _ _ (Hn 6%R)) as Eg. change (gline3 = g) in Eg. subst g.
  destruct (both_run 6 (-1 / 2) (119 / 20) (29 / 5) (119 / 20)) as (p1 & ma & s1 & w1 & S1 & P1 & W1 & A1 & B1 & R1); try lra.
  assert (M : model (line3 (1 + 0) true (Some 6%R)) 3 1 1 true (Scalar 1%R) (Scalar 1%R) (Scalar 1%R)) by (apply line3_model; intros; lra).
  assert (X1 : simulated gline3 f unit (Some 6%R) dt [] (Some both) [pump (-1 / 2)] [reply (119 / 20) (29 / 5) (119 / 20)] (line3 (1 + 0) true (Some 6%R)) ma s1) by (split; [apply Hn|exact S1]).
  pose proof (sim_start _ _ _ _ _ _ _ _ _ _ _ _ _ _ _ _ _ _ _ X1 M) as (C & _). pose proof (line_core _ _ _ _ C) as Ep. rewrite P1 in Ep.
  do 13 eexists. split; [exact line_turned|]. split; [exact X1|]. split; [do 7 eexists; exact M|]. split; [repeat constructor|].
  split.
  { cbn zeta. rewrite P1. split; [exact (line_well _ _ _ _ _ Ep W1 W1 A1 A1)|]. split.
    - unfold conditions_turned. rewrite Ep, B1. intros c H. apply line_boundary in H. cbn [In] in H. destruct H as [<-|[<-|[]]]; reflexivity.
    - intros e. rewrite B1. unfold both. intros [<-|[<-|[]]]; cbn; auto. }
  split; [reflexivity|]. split; [reflexivity|]. split; [exact line_level|]. split; [exact R1|]. reflexivity.
Qed.
(** C122: a strip of five permeabilities and porosities, and the strip turned round. *)
Example ex_C122_grids_case : exists g g', strip [1; 2; 3; 4; 5]%R [1 / 2; 1 / 3; 1 / 4; 1 / 5; 1 / 6]%R = Ok g /\
  strip [5; 4; 3; 2; 1]%R [1 / 6; 1 / 5; 1 / 4; 1 / 3; 1 / 2]%R = Ok g' /\ turned along_x g g' /\ g <> g'.
Proof.
  do 2 eexists. split; [|split; [|split]].
  - unfold strip, gobj_new, geo_new. cbn -[IZR Rdiv]. unfold comp_class. cbn -[IZR Rdiv]. rewrite (Reqb_eq 0 0 eq_refl). reflexivity.
  - unfold strip, gobj_new, geo_new. cbn -[IZR Rdiv]. unfold comp_class. cbn -[IZR Rdiv]. rewrite (Reqb_eq 0 0 eq_refl). reflexivity.
  - assert (Cells : forall c, in_grid (mkGrid 3 1 1 true) c -> In c [(0, 0, 0); (1, 0, 0); (2, 0, 0); (3, 0, 0); (4, 0, 0)]%Z) by exact line_cells.
    constructor; try reflexivity; [auto| | |].
    + intros a c _ H. apply Cells in H. cbn [In] in H. destruct H as [<-|[<-|[<-|[<-|[<-|[]]]]]]; destruct a; reflexivity.
    + intros n c H. apply Cells in H. cbn [In] in H. destruct H as [<-|[<-|[<-|[<-|[<-|[]]]]]]; destruct n; reflexivity.
    + intros n c H. apply Cells in H. cbn [In] in H. destruct H as [<-|[<-|[<-|[<-|[<-|[]]]]]]; destruct n; reflexivity.
  - intros E. apply (f_equal (fun o : gobj R => match cur (p_kx (prs o)) with Some (v :: _) => v | _ => 0%R end)) in E. cbn in E. lra.
Qed.
