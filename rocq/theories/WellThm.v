(** Wells and model construction: property lemmas. *)
From Coq Require Import String ZArith Bool Arith List Lia QArith Reals Lra.
From Verif Require Import Prelude PreludeFacts Num GridModel GridSpec GridProofs GeoModel GeoSpec GeoProofs PropModel PropSpec PropProofs
  UnitsModel UnitsSpec UnitsThm BlackOilModel FdmModel MonadFacts Samples WellSpec.
Import ListNotations.
Close Scope Q_scope. Close Scope R_scope.
Open Scope string_scope.
Open Scope nat_scope.

(** C26: comp of a model is the sum of the two; it is compressible exactly if
    that is positive, so incompressible exactly if both are; the accumulation
    coefficients. *)
Lemma L_C26_model_comp :
  forall (g : gobj R) (f : fobj R) unit pi dt m cg cf k,
  bo_new g f unit pi dt = Ok m ->
  p_comp (prs g) = Some cg -> comp_kind cg (p_comp_type (prs g)) ->
  f_c f = mkCobj (Some cf) (Some k) -> comp_kind cf k ->
  In unit systems /\ b_comp m = (cf + cg)%R /\
  (b_cmp m = true <-> 0 < cf + cg)%R /\ (b_cmp m = false <-> cf + cg = 0)%R /\
  (0 <= cf -> 0 <= cg -> (b_cmp m = false <-> cf = 0 /\ cg = 0))%R /\
  (b_cmp m = false -> b_RHS m = repeat 0%R (get_n (gr (geom g)) true)) /\
  (b_cmp m = true -> exists phi B, att (pget PHI (prs g)) = Some phi /\ f_B f = Some B /\
     forall i V p, nth_error (cV (geom g)) i = Some V -> nth_error phi i = Some p ->
     exists c, nth_error (b_RHS m) i = Some c /\
       c = (V * p * (cf + cg) / (volume_conv unit * B * dt))%R /\
       (0 < V -> 0 < p -> 0 < B -> 0 < dt -> 0 < c)%R).
Proof.
  intros g f unit pi dt m cg cf k H Hg Kg Hf Kf. unfold bo_new in H.
  destruct (set_units uobj0 unit) as [u [[]|e]] eqn:Eu; [|discriminate].
  destruct (factor u "transmissibility conversion") as [tc|] eqn:E1; [|discriminate]. cbn [rbind] in H.
  destruct (factor u "volume conversion") as [vc|] eqn:E2; [|discriminate]. cbn [rbind] in H.
  destruct (get_cells_id (ggrid g) false) as [ids|] eqn:E3; [|discriminate]. cbn [rbind] in H.
  match type of H with rbind ?t _ = _ => destruct t as [ip|] eqn:E4; [|discriminate] end. cbn [rbind] in H.
  destruct (calc_comp g f) as [[cc b]|] eqn:E5; [|discriminate]. cbn [rbind fst snd] in H.
  destruct (attrE (f_mu f)) as [mu|] eqn:E6; [|discriminate]. cbn [rbind] in H.
  destruct (attrE (f_B f)) as [B|] eqn:E7; [|discriminate]. cbn [rbind] in H.
  destruct (attrE (f_g f)) as [gr0|] eqn:E8; [|discriminate]. cbn [rbind] in H.
  destruct (calc_RHS g b cc vc B dt) as [RHS|] eqn:E9; [|discriminate]. cbn [rbind] in H.
  inversion H; subst m; clear H. cbn [b_comp b_cmp b_RHS].
  assert (Su : In unit systems /\ vc = volume_conv unit).
  { destruct (L_C27_units_follow uobj0 "field" [] unit) as (_ & H1 & H2).
    { unfold in_system. repeat split. all: unfold factor, uobj0, earth, trans_conv, gravity_conv, volume_conv; cbn; unfold dec; cbn; try reflexivity; f_equal; lra. }
    destruct (in_dec string_dec unit systems) as [I|I].
    - destruct (H1 I) as (_ & H3). cbn [fold_left] in H3. rewrite Eu in H3. cbn [fst] in H3. destruct H3 as (_&_&_&_&_&H3). split; auto.
      rewrite H3 in E2. congruence.
    - specialize (H2 I). cbn [fold_left] in H2. rewrite H2 in Eu. discriminate. }
  destruct Su as (Iu & ->). split; auto.
  assert (Cc : cc = (cf + cg)%R /\ (b = true <-> 0 < cf + cg)%R /\ (b = false <-> cf + cg = 0)%R).
  { unfold calc_comp in E5. rewrite Hf, Hg in E5. cbn [c_type c_comp attrE rbind] in E5.
    set (inc := fun t : option (option string) => match t with Some (Some t) => String.eqb t "incompressible" | _ => false end) in *.
    assert (Ek : inc (Some k) = true <-> cf = 0%R).
    { destruct Kf as (K1 & _). rewrite <- K1. unfold inc. destruct k; [|intuition congruence].
      destruct (String.eqb_spec s "incompressible"); subst; intuition congruence. }
    assert (Eg : inc (Some (p_comp_type (prs g))) = true <-> cg = 0%R).
    { destruct Kg as (K1 & _). rewrite <- K1. unfold inc. destruct (p_comp_type (prs g)); [|intuition congruence].
      destruct (String.eqb_spec s "incompressible"); subst; intuition congruence. }
    match type of E5 with rbind ?t _ = _ => assert (Et : t = Ok (cf + cg)%R) end.
    { unfold inc in Ek, Eg. match goal with |- (if ?c then _ else _) = _ => destruct c eqn:Ei; [|reflexivity] end.
      apply andb_true_iff in Ei as (I1 & I2). apply Ek in I1. apply Eg in I2. subst. f_equal. cbn. lra. }
    rewrite Et in E5. cbn [rbind] in E5. unfold cset in E5. cbn [n0 Num_R neqb nltb] in E5.
    destruct (Reqb (cf + cg) 0) eqn:Q1.
    - apply Reqb_true in Q1. inversion E5. subst. cbn. split; auto. split; split; try congruence; try lra.
    - destruct (Rltb 0 (cf + cg)) eqn:Q2; [|discriminate]. apply Rltb_true in Q2. inversion E5. cbn. split; auto.
      split; split; auto; try congruence; lra. }
  destruct Cc as (-> & C1 & C2). split; auto. split; auto. split; auto. split; [|split].
  - intros P1 P2. rewrite C2. split; [intros; lra|intros (-> & ->); lra].
  - intros ->. unfold calc_RHS in E9. inversion E9. reflexivity.
  - intros ->. unfold calc_RHS in E9. destruct (att (pget PHI (prs g))) as [phi|]; [|discriminate].
    destruct (f_B f) as [B'|]; [|discriminate]. inversion E7; subst B'. exists phi, B. split; auto. split; auto.
    cbn [attrE rbind] in E9. inversion E9 as [E10]. intros i V p HV Hp. exists (V * p * (cf + cg) / (volume_conv unit * B * dt))%R.
    split; [|split; auto].
    + unfold map2. rewrite nth_error_map.
      assert (N : nth_error (combine (cV (geom g)) phi) i = Some (V, p)).
      { clear -HV Hp. revert i phi HV Hp. generalize (cV (geom g)). induction l; intros [|i] [|q phi] HV Hp; cbn in *; try discriminate; auto.
        congruence. }
      rewrite N. reflexivity.
    + intros. assert (0 < cf + cg)%R by (apply C1; auto).
      assert (0 < volume_conv unit)%R.
      { unfold volume_conv. destruct (String.eqb unit "field"); lra. }
      apply Rdiv_lt_0_compat; repeat apply Rmult_lt_0_compat; auto.
Qed.
(** A model of a compressible fluid in an incompressible rock. *)
Example ex_C26_case :
  exists (g : gobj R) f m, gobj_new 2 1 1 true (Scalar 1%R) (Scalar 1%R) (Scalar 1%R)
      (Some (Scalar 1%R)) None None (Some (Scalar 1%R)) None None 1%R = Ok g /\
  fluid_new (Some 1%R) (Some 1%R) None (Some 2%R) "field" = Ok f /\
  bo_new g f "metric" None 1%R = Ok m /\
  p_comp (prs g) = Some 0%R /\ comp_kind 0 (p_comp_type (prs g)) /\
  f_c f = mkCobj (Some 2%R) (Some (Some "compressible")) /\ comp_kind 2 (Some "compressible") /\ b_cmp m = true.
Proof.
  assert (Q0 : Reqb 0 0 = true) by (apply Reqb_true; reflexivity).
  assert (Q1 : Reqb 2 0 = false). { destruct (Reqb 2 0) eqn:E; auto. apply Reqb_true in E. lra. }
  assert (Q2 : Rltb 0 2 = true) by (apply Rltb_true; lra).
  assert (Q3 : Reqb (2 + 0) 0 = false). { destruct (Reqb (2+0) 0) eqn:E; auto. apply Reqb_true in E. lra. }
  assert (Q4 : Rltb 0 (2 + 0) = true) by (apply Rltb_true; lra).
  do 3 eexists. split.
  { unfold gobj_new, geo_new. cbn -[IZR]. unfold set_comp, comp_class. cbn -[IZR]. rewrite Q0. reflexivity. }
  split.
  { unfold fluid_new. cbn -[IZR]. unfold fset_props, fset_comp, cset. cbn -[IZR]. rewrite Q1, Q2. cbn -[IZR]. reflexivity. }
  split.
  { unfold bo_new. cbn -[IZR]. unfold cset. cbn -[IZR]. rewrite Q3, Q4. cbn -[IZR]. reflexivity. }
  cbn -[IZR]. split; auto. split; [|split; [reflexivity|split; [|reflexivity]]];
  repeat split; intros; try congruence; try lra; auto.
Qed.

(** ** Effect of set_well on the well of its cell *)
Definition given {A} (v d : option A) : option A := match v with Some a => Some a | None => d end.
Definition winv (lq lp : option R) (ow : option (well R)) : Prop :=
  match ow with
  | None => lq = None /\ lp = None
  | Some w =>
      w_q w = option_map Some lq /\ w_qsp w = lq /\
      match lp with
      | Some p => w_pwf w = Some (Some p) /\ w_pwfsp w = Some p
      | None => (w_pwf w = None /\ w_pwfsp w = None) \/ (w_pwf w = Some (Some 0%R) /\ w_pwfsp w = Some 0%R)
      end /\
      match lq, lp with
      | Some _, _ => w_con w = Some (Some "q")
      | None, Some _ => w_con w = Some (Some "pwf")
      | None, None => w_con w = None \/ w_con w = Some None
      end
  end.
Definition at_well (id : Z) (P : option (well R) -> Prop) (x : ws R) : Prop :=
  In id (b_ids (fst x)) /\ P (dget id (b_wells (fst x))).
(** [P] is about wells that exist. *)
Definition is_well (P : well R -> Prop) (ow : option (well R)) : Prop := exists w, ow = Some w /\ P w.

Lemma h_upd_well id f (P Q : well R -> Prop) (E : ws R -> Prop) :
  (forall m w w', P w -> f m w = Ok w' -> Q w') ->
  (forall x, at_well id (is_well P) x -> E x) ->
  hoare (at_well id (is_well P)) (upd_well id f) (fun _ => at_well id (is_well Q)) E.
Proof.
  intros H HE. apply h_set; auto. intros [m so] x' (I & w & Ew & Pw) Hf. cbn [fst snd] in *.
  unfold dgetE in Hf. rewrite Ew in Hf. cbn [rbind] in Hf. destruct (f m w) as [w'|] eqn:Ef; [|discriminate].
  cbn [rbind] in Hf. inversion Hf. subst. split; cbn [fst].
  - now rewrite ids_set_wells.
  - rewrite wells_set_wells, dget_dset_same. exists w'. split; eauto.
Qed.
Lemma h_log id P (E : ws R -> Prop) : (forall x, at_well id P x -> E x) ->
  hoare (at_well id P) (log_pressure id) (fun _ => at_well id P) E.
Proof.
  intros HE. apply h_set; auto. intros [m so] x' (I & Pw) Hf. cbn [fst snd] in *.
  destruct (get_pressure (m, so) id); [|discriminate]. inversion Hf. split; cbn [fst].
  - now rewrite ids_set_wp.
  - now rewrite wells_set_wp.
Qed.
Lemma set_well_hoare id q pwf r s lq lp :
  hoare (at_well id (winv lq lp)) (set_well (Some id) q pwf r s)
    (fun _ => at_well id (fun ow => winv (given q lq) (given pwf lp) ow /\
        is_well (fun w => w_pwf w <> None /\ w_con w <> None /\ w_req w <> None /\ w_G w <> None) ow))
    (at_well id (is_well (fun w => winv (given q lq) (given pwf lp) (Some w)))).
Proof.
  set (J := fun lq lp w => winv lq lp (Some w)).
  set (E := at_well id (is_well (J (given q lq) (given pwf lp)))).
  assert (JE : forall w0, at_well id (is_well (J (given q lq) (given pwf lp))) w0 -> E w0).
  { auto. }
  unfold set_well.
  apply h_bind with (Q := fun _ => at_well id (winv lq lp)).
  { intros x (I & H). unfold assert_inside, mread. rewrite (proj2 (zmem_In _ _) I). split; auto. }
  intros _. apply h_bind with (Q := fun _ => at_well id (is_well (J lq lp))).
  { intros x (I & H). unfold mset. unfold din. destruct (dget id (b_wells (fst x))) as [w|] eqn:Ew.
    - split; auto. rewrite Ew. exists w. auto.
    - destruct H as (-> & ->). split; cbn [fst]; [now rewrite ids_set_wells|].
      rewrite wells_set_wells, dget_dset_same. exists well0. split; auto. cbn. auto 10. }
  intros _. apply h_bind with (Q := fun _ => at_well id (is_well (J (given q lq) lp))).
  { destruct q as [q|]; cbn [mopt given]; [|apply h_ret; auto].
    intros x H. unfold upd_well, mset. destruct H as (I & w & Ew & Jw). unfold dgetE. rewrite Ew. cbn [rbind].
    split; cbn [fst]; [now rewrite ids_set_wells|]. rewrite wells_set_wells, dget_dset_same.
    eexists. split; [reflexivity|]. destruct w as [a1 a2 a3 a4 a5 a6 a7 a8 a9]. unfold J, winv in *. cbn in *.
    destruct Jw as (_ & _ & Jp & _). auto. }
  intros _. apply h_bind with (Q := fun _ => at_well id (is_well (J (given q lq) (given pwf lp)))).
  { destruct pwf as [p|]; cbn [mopt given]; [|apply h_ret; auto].
    apply h_bind with (Q := fun _ => at_well id (is_well (J (given q lq) (Some p)))).
    - intros x H. unfold upd_well, mset. destruct H as (I & w & Ew & Jw). unfold dgetE. rewrite Ew. cbn [rbind].
      split; cbn [fst]; [now rewrite ids_set_wells|]. rewrite wells_set_wells, dget_dset_same.
      eexists. split; [reflexivity|]. destruct w as [a1 a2 a3 a4 a5 a6 a7 a8 a9]. unfold J, winv in *. cbn in *.
      destruct Jw as (J1 & J2 & _ & J4). subst a1. destruct (given q lq); cbn in *; auto.
    - intros _. apply h_log. apply JE. }
  intros _. apply h_bind with (Q := fun _ => at_well id (is_well (fun w => J (given q lq) (given pwf lp) w /\ w_con w <> None))).
  { apply h_upd_well; auto. intros m w w' Jw Hw. inversion Hw; clear Hw.
    destruct w as [a1 a2 a3 a4 a5 a6 a7 a8 a9]. unfold J, winv in *. cbn in *.
    destruct Jw as (J1 & J2 & J3 & J4). destruct a5; cbn; (split; [|congruence]); auto.
    destruct (given q lq), (given pwf lp); try discriminate; auto 6. }
  set (K := fun w => J (given q lq) (given pwf lp) w /\ w_con w <> None).
  assert (KE : forall w0, at_well id (is_well K) w0 -> E w0).
  { intros x (I & w & Ew & Jw & _). apply JE. split; auto. exists w; auto. }
  intros _. apply h_bind with (Q := fun _ => at_well id (is_well K)).
  { destruct r as [r|]; cbn [mopt]; [|apply h_ret; auto]. apply h_upd_well; auto. intros m w w' Jw Hw. inversion Hw. destruct w; exact Jw. }
  intros _. apply h_bind with (Q := fun _ => at_well id (is_well K)).
  { destruct s as [s|]; cbn [mopt]; [|apply h_ret; auto]. apply h_upd_well; auto. intros m w w' Jw Hw. inversion Hw. destruct w; exact Jw. }
  intros _. unfold set_well_tail. apply h_bind with (Q := fun _ => at_well id (is_well (fun w => K w /\ w_req w <> None))).
  { apply h_upd_well; auto. intros m w w' Jw Hw. destruct (calc_well_r_eq m id); [|discriminate]. inversion Hw. destruct w; split; [exact Jw|cbn; congruence]. }
  assert (KE1 : forall w0, at_well id (is_well (fun w => K w /\ w_req w <> None)) w0 -> E w0).
  { intros x (I & w & Ew & Jw & _). apply KE. split; auto. exists w; auto. }
  set (K2 := fun w => K w /\ w_req w <> None /\ w_G w <> None).
  assert (KE2 : forall w0, at_well id (is_well K2) w0 -> E w0).
  { intros x (I & w & Ew & Jw & _). apply KE. split; auto. exists w; auto. }
  intros _. apply h_bind with (Q := fun _ => at_well id (is_well K2)).
  { apply h_upd_well; auto. intros m w w' (Jw & Jr) Hw. destruct (calc_well_G m id); [|discriminate]. inversion Hw.
    destruct w; split; [exact Jw|split; [exact Jr|cbn; congruence]]. }
  intros _. apply h_bind with (Q := fun w x => at_well id (is_well K2) x /\ dget id (b_wells (fst x)) = Some w).
  { apply h_read; auto. intros x w H Hw. split; auto. unfold dgetE in Hw. destruct (dget id (b_wells (fst x))); congruence. }
  intros w. apply h_when; intros Eb.
  - apply h_bind with (Q := fun _ => at_well id (fun ow => winv (given q lq) (given pwf lp) ow /\
        is_well (fun w => w_pwf w <> None /\ w_con w <> None /\ w_req w <> None /\ w_G w <> None) ow)).
    + intros x ((I & w' & Ew & K2w) & Ew'). unfold upd_well, mset, dgetE. rewrite Ew. cbn [rbind].
      assert (w' = w) by congruence. subst w'.
      split; cbn [fst]; [now rewrite ids_set_wells|]. rewrite wells_set_wells, dget_dset_same.
      destruct w as [a1 a2 a3 a4 a5 a6 a7 a8 a9]. unfold K2, K, J, winv in K2w. cbn in *.
      destruct K2w as (((J1 & J2 & J3 & J4) & J5) & J6 & J7). destruct a3; [discriminate|].
      split.
      * split; auto. split; auto. split; auto. destruct (given pwf lp); auto. destruct J3; congruence.
      * eexists. split; [reflexivity|]. cbn. repeat split; auto. congruence.
    + intros _. apply h_log. intros x (I & H & w' & Ew & _). split; auto. exists w'. split; auto. unfold J. now rewrite <- Ew.
  - intros x ((I & w' & Ew & K2w) & Ew'). assert (w' = w) by congruence. subst w'. split; auto. rewrite Ew'.
    destruct K2w as ((J1 & J5) & J6 & J7). split; [exact J1|]. exists w. split; auto. split; [|auto].
    destruct (w_pwf w); [congruence|discriminate].
Qed.

(** ** What set_well leaves alone *)
Definition core (x : ws R) : ws R := (set_wells [] (set_wp [] (fst x)), snd x).
Lemma same_refl id x : same_elsewhere id x x.
Proof. split; auto. Qed.
Lemma same_trans id x y z : same_elsewhere id x y -> same_elsewhere id y z -> same_elsewhere id x z.
Proof.
  intros (A1 & A2 & A3) (B1 & B2 & B3). split; [congruence|]. split; [congruence|].
  intros i N. destruct (A3 i N), (B3 i N). split; congruence.
Qed.
Lemma same_wells id w x : same_elsewhere id x (set_wells (dset id w (b_wells (fst x))) (fst x), snd x).
Proof.
  split; auto. cbn [fst]. split; [destruct (fst x); reflexivity|]. intros i N.
  rewrite wells_set_wells, wp_set_wells, dget_dset_other; auto.
Qed.
Lemma same_wp id l x : same_elsewhere id x (set_wp (dset id l (b_wp (fst x))) (fst x), snd x).
Proof.
  split; auto. cbn [fst]. split; [destruct (fst x); reflexivity|]. intros i N.
  rewrite wells_set_wp, wp_set_wp, dget_dset_other; auto.
Qed.
Lemma same_grid id x y : same_elsewhere id x y -> b_grid (fst y) = b_grid (fst x).
Proof. intros (_ & H & _). apply (f_equal (@b_grid R)) in H. destruct (fst x), (fst y). exact H. Qed.
Lemma same_ids id x y : same_elsewhere id x y -> b_ids (fst y) = b_ids (fst x).
Proof. intros (_ & H & _). apply (f_equal (@b_ids R)) in H. destruct (fst x), (fst y). exact H. Qed.
Lemma same_ip id x y : same_elsewhere id x y -> b_ip (fst y) = b_ip (fst x).
Proof. intros (_ & H & _). apply (f_equal (@b_ip R)) in H. destruct (fst x), (fst y). exact H. Qed.
Lemma same_gp id x y : same_elsewhere id x y -> get_pressure y id = get_pressure x id.
Proof. intros H. unfold get_pressure. rewrite (same_ip _ _ _ H). destruct H as (-> & _). reflexivity. Qed.

Lemma same_upd id f x0 : hoare (same_elsewhere id x0) (upd_well id f) (fun _ => same_elsewhere id x0) (same_elsewhere id x0).
Proof.
  apply h_set; auto. intros x x' H Hf. cbn beta in Hf. 
  destruct (dgetE id (b_wells (fst x))) as [w|]; [|discriminate]. cbn [rbind] in Hf. destruct (f (fst x) w); [|discriminate]. cbn [rbind] in Hf. inversion Hf. eapply same_trans; [exact H|]. apply same_wells.
Qed.
Lemma same_log id x0 : hoare (same_elsewhere id x0) (log_pressure id) (fun _ => same_elsewhere id x0) (same_elsewhere id x0).
Proof.
  apply h_set; auto. intros x x' H Hf. cbn beta in Hf. destruct (get_pressure x id); [|discriminate]. cbn [rbind] in Hf.
  inversion Hf. eapply same_trans; [exact H|]. apply same_wp.
Qed.
Lemma same_tail id x0 : hoare (same_elsewhere id x0) (set_well_tail id)
  (fun _ y => same_elsewhere id x0 y /\
     exists y' r G, same_elsewhere id x0 y' /\ calc_well_r_eq (fst y') id = Ok r /\ calc_well_G (fst y') id = Ok G) (same_elsewhere id x0).
Proof.
  unfold set_well_tail.
  set (S1 := fun y => same_elsewhere id x0 y /\ exists y' r, same_elsewhere id x0 y' /\ calc_well_r_eq (fst y') id = Ok r).
  set (S2 := fun y => same_elsewhere id x0 y /\
     exists y' r G, same_elsewhere id x0 y' /\ calc_well_r_eq (fst y') id = Ok r /\ calc_well_G (fst y') id = Ok G).
  apply h_bind with (Q := fun _ => S1).
  { apply h_set; auto. intros x x' H Hf. cbn beta in Hf. destruct (dgetE id (b_wells (fst x))); [|discriminate]. cbn [rbind] in Hf.
    destruct (calc_well_r_eq (fst x) id) eqn:Er; [|discriminate]. inversion Hf. split.
    - eapply same_trans; [exact H|]. apply same_wells.
    - eauto. }
  intros _. apply h_bind with (Q := fun _ => S2).
  { apply h_set; [|intros x (H & _); exact H]. intros x x' (H & y' & r & H1 & H2) Hf. cbn beta in Hf.
    destruct (dgetE id (b_wells (fst x))); [|discriminate]. cbn [rbind] in Hf.
    destruct (calc_well_G (fst x) id) eqn:Er; [|discriminate]. inversion Hf. split.
    - eapply same_trans; [exact H|]. apply same_wells.
    - exists x, r, a0. split; auto. split; auto. rewrite <- H2.
      pose proof (same_grid _ _ _ H1). pose proof (same_grid _ _ _ H). unfold calc_well_r_eq, gk, gd, bgrid.
      replace (b_grid (fst y')) with (b_grid (fst x)) by congruence. reflexivity. }
  intros _. apply h_bind with (Q := fun _ => S2).
  { apply h_read; auto. intros x (H & _); exact H. }
  intros w. apply h_when; auto. intros _. apply h_bind with (Q := fun _ => S2).
  - apply h_set; [|intros x (H & _); exact H]. intros x x' (H & H1) Hf. cbn beta in Hf.
    destruct (dgetE id (b_wells (fst x))); [|discriminate]. inversion Hf. split; auto.
    eapply same_trans; [exact H|]. apply same_wells.
  - intros _. apply h_set; [|intros x (H & _); exact H]. intros x x' (H & H1) Hf. cbn beta in Hf.
    destruct (get_pressure x id); [|discriminate]. inversion Hf. split; auto.
    eapply same_trans; [exact H|]. apply same_wp.
Qed.
Lemma same_set_well id q pwf r s x0 : hoare (same_elsewhere id x0) (set_well (Some id) q pwf r s)
  (fun _ y => same_elsewhere id x0 y /\
     exists y' r G, same_elsewhere id x0 y' /\ calc_well_r_eq (fst y') id = Ok r /\ calc_well_G (fst y') id = Ok G) (same_elsewhere id x0).
Proof.
  unfold set_well.
  apply h_bind with (Q := fun _ => same_elsewhere id x0). { apply h_read; auto. }
  intros _. apply h_bind with (Q := fun _ => same_elsewhere id x0).
  { apply h_set; auto. intros x x' H Hf. inversion Hf. destruct (din id (b_wells (fst x))); auto. eapply same_trans; [exact H|]. apply same_wells. }
  intros _. apply h_bind with (Q := fun _ => same_elsewhere id x0).
  { apply h_opt; auto. intros a _. apply same_upd. }
  intros _. apply h_bind with (Q := fun _ => same_elsewhere id x0).
  { apply h_opt; auto. intros a _. apply h_bind with (Q := fun _ => same_elsewhere id x0); [apply same_upd|]. intros _. apply same_log. }
  intros _. apply h_bind with (Q := fun _ => same_elsewhere id x0). { apply same_upd. }
  intros _. apply h_bind with (Q := fun _ => same_elsewhere id x0).
  { apply h_opt; auto. intros a _. apply same_upd. }
  intros _. apply h_bind with (Q := fun _ => same_elsewhere id x0).
  { apply h_opt; auto. intros a _. apply same_upd. }
  intros _. apply same_tail.
Qed.
Lemma same_run id q pwf r s x : same_elsewhere id x (fst (set_well (Some id) q pwf r s x)).
Proof.
  pose proof (same_set_well id q pwf r s x x (same_refl id x)) as H.
  destruct (set_well (Some id) q pwf r s x) as [y [a|e]]; cbn [fst]; [apply H|exact H].
Qed.
Lemma outside_run id q pwf r s (x : ws R) : ~ In id (b_ids (fst x)) -> set_well (Some id) q pwf r s x = (x, Err AssertionError).
Proof.
  intros N. unfold set_well, mbind, assert_inside, mread. destruct (zmem id (b_ids (fst x))) eqn:E; [|reflexivity].
  apply zmem_In in E. contradiction.
Qed.

(** C30: set_well on a cell that is not interior raises and changes nothing;
    any call leaves everything but its own well alone. *)
Lemma L_C30_wells_interior :
  forall (x : ws R) id q pwf r s,
  (~ In id (b_ids (fst x)) -> set_well (Some id) q pwf r s x = (x, Err AssertionError)) /\
  same_elsewhere id x (fst (set_well (Some id) q pwf r s x)) /\
  set_well None q pwf r s x = (x, Err AssertionError).
Proof. intros x id q pwf r s. split; [apply outside_run|]. split; [apply same_run|reflexivity]. Qed.
(** The interior cells a model has are those of its grid. *)
Lemma L_C30_interior_cells :
  forall (g : gobj R) f unit pi dt m, bo_new g f unit pi dt = Ok m ->
  get_cells_id (gr (geom g)) false = Ok (b_ids m) /\ b_grid m = g /\ b_wells m = [].
Proof.
  intros g f unit pi dt m H. unfold bo_new in H.
  destruct (set_units uobj0 unit) as [u [[]|e]] eqn:Eu; [|discriminate].
  destruct (factor u "transmissibility conversion") as [tc|] eqn:E1; [|discriminate]. cbn [rbind] in H.
  destruct (factor u "volume conversion") as [vc|] eqn:E2; [|discriminate]. cbn [rbind] in H.
  destruct (get_cells_id (ggrid g) false) as [ids|] eqn:E3; [|discriminate]. cbn [rbind] in H.
  match type of H with rbind ?t _ = _ => destruct t as [ip|] eqn:E4; [|discriminate] end. cbn [rbind] in H.
  destruct (calc_comp g f) as [[cc b]|] eqn:E5; [|discriminate]. cbn [rbind fst snd] in H.
  destruct (attrE (f_mu f)) as [mu|] eqn:E6; [|discriminate]. cbn [rbind] in H.
  destruct (attrE (f_B f)) as [B|] eqn:E7; [|discriminate]. cbn [rbind] in H.
  destruct (attrE (f_g f)) as [gr0|] eqn:E8; [|discriminate]. cbn [rbind] in H.
  destruct (calc_RHS g b cc vc B dt) as [RHS|] eqn:E9; [|discriminate]. cbn [rbind] in H.
  inversion H; subst m; clear H. cbn. auto.
Qed.

(** ** Sequences of calls *)
Lemma winv_step id x c lq lp : at_well id (winv lq lp) x ->
  at_well id (winv (match wc_cell c with Some i => if Z.eqb i id then given (wc_q c) lq else lq | None => lq end)
                   (match wc_cell c with Some i => if Z.eqb i id then given (wc_pwf c) lp else lp | None => lp end))
          (fst (wexec x c)).
Proof.
  intros H. destruct c as [[i|] q p r s]; unfold wexec; cbn [wc_cell wc_q wc_pwf wc_r wc_s]; [|exact H].
  destruct (Z.eqb_spec i id) as [->|N].
  - pose proof (set_well_hoare id q p r s lq lp x H) as Hs.
    destruct (set_well (Some id) q p r s x) as [y [a|e]]; cbn [fst].
    + destruct Hs as (I & W & _). split; auto.
    + destruct Hs as (I & w & Ew & Hw). split; auto. now rewrite Ew.
  - pose proof (same_run i q p r s x) as S. destruct H as (I & W). split.
    + now rewrite (same_ids _ _ _ S).
    + destruct S as (_ & _ & S). destruct (S id (not_eq_sym N)) as (-> & _). exact W.
Qed.
Lemma winv_run id l : forall x lq lp, at_well id (winv lq lp) x ->
  at_well id (winv (fold_left (fun v c => match wc_cell c with
                        | Some i => if Z.eqb i id then match wc_q c with Some a => Some a | None => v end else v
                        | None => v end) l lq)
                   (fold_left (fun v c => match wc_cell c with
                        | Some i => if Z.eqb i id then match wc_pwf c with Some a => Some a | None => v end else v
                        | None => v end) l lp)) (wexecs x l).
Proof.
  induction l as [|c l IH]; intros x lq lp H; [exact H|].
  cbn [fold_left]. unfold wexecs. cbn [fold_left]. apply IH. apply winv_step with (c := c) in H.
  destruct c as [[i|] q p r s]; exact H.
Qed.

(** C29: from a state without a well in cell [id]: after any calls on any cells
    (those that raise are caught) and then a call on [id] that succeeds. *)
Lemma L_C29_control_mode :
  forall (x : ws R) id l c y, dget id (b_wells (fst x)) = None -> wc_cell c = Some id ->
  wexec (wexecs x l) c = (y, Ok tt) ->
  let lq := last_given wc_q id (l ++ [c])%list in
  let lp := last_given wc_pwf id (l ++ [c])%list in
  exists w, dget id (b_wells (fst y)) = Some w /\
    w_con w = Some (match lq, lp with Some _, _ => Some "q" | None, Some _ => Some "pwf" | None, None => None end) /\
    w_q w = option_map Some lq /\ w_qsp w = lq /\
    w_pwf w = Some (Some (match lp with Some p => p | None => 0%R end)) /\
    w_pwfsp w = Some (match lp with Some p => p | None => 0%R end).
Proof.
  intros x id l c y N C H lq lp.
  assert (I : In id (b_ids (fst (wexecs x l)))).
  { destruct (in_dec Z.eq_dec id (b_ids (fst (wexecs x l)))) as [I|I]; auto. unfold wexec in H. rewrite C, outside_run in H by auto. discriminate. }
  assert (I0 : b_ids (fst (wexecs x l)) = b_ids (fst x)).
  { clear. revert x. unfold wexecs. induction l as [|c l IH]; intros x; cbn [fold_left]; auto. rewrite IH.
    destruct c as [[i|] q p r s]; [|reflexivity]. apply (same_ids i), same_run. }
  rewrite I0 in I.
  assert (W0 : at_well id (winv None None) x). { split; auto. rewrite N. split; auto. }
  apply (winv_run id l) in W0. fold (last_given wc_q id l) in W0. fold (last_given wc_pwf id l) in W0.
  pose proof (set_well_hoare id (wc_q c) (wc_pwf c) (wc_r c) (wc_s c) _ _ _ W0) as Hs.
  unfold wexec in H. rewrite C in H. rewrite H in Hs. destruct Hs as (_ & Hw & w & Ew & Q1 & Q2 & Q3 & Q4).
  assert (L1 : lq = given (wc_q c) (last_given wc_q id l)).
  { unfold lq, last_given. rewrite fold_left_app. cbn [fold_left]. rewrite C, Z.eqb_refl. reflexivity. }
  assert (L2 : lp = given (wc_pwf c) (last_given wc_pwf id l)).
  { unfold lp, last_given. rewrite fold_left_app. cbn [fold_left]. rewrite C, Z.eqb_refl. reflexivity. }
  rewrite <- L1, <- L2 in Hw. rewrite Ew in Hw. clearbody lq lp. destruct Hw as (H1 & H2 & H3 & H4).
  exists w. split; auto. split; [|split; auto; split; auto].
  - destruct lq, lp; auto. destruct H4; congruence.
  - destruct lp; auto. destruct H3 as [(H3 & H5)|H3]; [congruence|auto].
Qed.

(** A sample over the reals. *)
Lemma Reqb_refl a : Reqb a a = true. Proof. apply Reqb_true. reflexivity. Qed.
Lemma Reqb_10 : Reqb 1 0 = false. Proof. destruct (Reqb 1 0) eqn:E; auto. apply Reqb_true in E. lra. Qed.
Lemma line3_built (c : R) pi : (0 < c)%R -> exists m : bo R, build 3 1 1 None c pi None = Ok m /\
  b_grid m = gline3 /\ b_ids m = [1;2;3]%Z /\ b_wells m = [] /\ b_wp m = [] /\ b_ip m = [None; pi; pi; pi; None] /\
  b_cmp m = true /\ b_bdict m = [] /\ b_bup m = [] /\ b_terms m = [] /\ b_ir m = repeat (Some 0%R) 5 /\ b_mu m = 1%R /\ b_B m = 1%R.
Proof.
  intros Hc.
  assert (Q1 : Reqb c 0 = false). { destruct (Reqb c 0) eqn:E; auto. apply Reqb_true in E. lra. }
  assert (Q2 : Rltb 0 c = true) by (apply Rltb_true; lra).
  assert (Q3 : Reqb (c + 0) 0 = false). { destruct (Reqb (c+0) 0) eqn:E; auto. apply Reqb_true in E. lra. }
  assert (Q4 : Rltb 0 (c + 0) = true) by (apply Rltb_true; lra).
  eexists. split.
  - unfold build, gobj_new, geo_new. cbn -[IZR fluid_new bo_new]. unfold set_comp, comp_class. cbn -[IZR fluid_new bo_new]. rewrite Reqb_refl.
    unfold fluid_new. cbn -[IZR bo_new]. unfold fset_props, fset_comp, cset. cbn -[IZR bo_new]. rewrite Q1, Q2. cbn -[IZR bo_new].
    unfold bo_new. cbn -[IZR]. unfold cset. cbn -[IZR]. rewrite Q3, Q4. destruct pi; cbn -[IZR]; reflexivity.
  - destruct pi; cbn; repeat split; reflexivity.
Qed.

(** A model of three cells in a row. *)
Example ex_C29_case :
  exists m : bo R, build 3 1 1 None 1%R (Some 7%R) None = Ok m /\
  let x := (m, None) in
  let c i q p r := mkWc (Some i) q p r None in
  exists y, dget 2%Z (b_wells (fst x)) = None /\
  wexec (wexecs x [c 2%Z None (Some 5%R) None; c 1%Z (Some 1%R) None (Some 1%R); c 2%Z (Some 3%R) None None]) (c 2%Z None (Some 4%R) (Some 1%R)) = (y, Ok tt).
Proof.
  destruct (line3_built 1 (Some 7%R)) as (m & E & G & I & W & Wp & P & _); [lra|]. exists m. split; auto.
  destruct m. cbn in G, I, W, Wp, P. subst. eexists. split; [reflexivity|]. lazy -[sqrt ln PI IZR Rplus Rmult Rdiv Rinv Ropp]. reflexivity.
Qed.
(** Cell 0 is no interior cell, cell 2 is one. *)
Example ex_C30_case :
  exists m : bo R, build 3 1 1 None 1%R (Some 7%R) None = Ok m /\ ~ In 0%Z (b_ids m) /\ In 2%Z (b_ids m).
Proof.
  destruct (line3_built 1 (Some 7%R)) as (m & E & G & I & _); [lra|]. exists m. split; auto. rewrite I. split; cbn; intuition congruence.
Qed.

(** ** Failing calls *)
Lemma fdir_cases g : wf g ->
  (well_axes g -> get_fdir g = [AX] /\ ~ flows g AY \/ (get_fdir g = [AX; AY] \/ get_fdir g = [AX; AY; AZ]) /\ flows g AY) /\
  (~ well_axes g -> forall A (a b : A), match get_fdir g with [AX] => a | [AX; AY] | [AX; AY; AZ] => a | _ => b end = b).
Proof.
  intros W. rewrite get_fdir_spec by auto. unfold flow_axes, well_axes, flows, size.
  destruct (Nat.ltb_spec 1 (nx g)), (Nat.ltb_spec 1 (ny g)), (Nat.ltb_spec 1 (nz g)); cbn; split; intros; try reflexivity; try lia; auto.
  all: left; split; auto; lia.
Qed.
Lemma perm_gk m a id v : perm_at m a id v -> exists l, gk m a = Ok l /\ pyget l id = Ok v.
Proof. intros (l & E & P). exists l. split; auto. unfold gk. destruct a; cbn in *; try discriminate; now rewrite E. Qed.
Lemma calc_r_ok x id r : placeable x id r -> exists v, calc_well_r_eq (fst x) id = Ok v.
Proof.
  intros (W & A & D & (kx & Kx) & Ky & _). unfold calc_well_r_eq, bgrid, ggrid.
  destruct (D AX) as (dx & Dx); auto. destruct (D AY) as (dy & Dy); auto. unfold spacing_at, gd in *.
  apply perm_gk in Kx as (lx & E1 & E2).
  destruct (proj1 (fdir_cases _ W) A) as [(E & _)|([E|E] & Fy)]; rewrite E; cbn [rbind]; rewrite ?E1; cbn [rbind]; rewrite ?E2; cbn [rbind].
  - unfold gd. cbn [cd] in *. rewrite Dx, Dy. cbn [rbind]. eauto.
  - destruct (Ky Fy) as (ky & K). apply perm_gk in K as (ly & F1 & F2). rewrite F1. cbn [rbind]. rewrite F2. cbn [rbind]. unfold gd. cbn [cd] in *. rewrite Dx, Dy. cbn [rbind]. eauto.
  - destruct (Ky Fy) as (ky & K). apply perm_gk in K as (ly & F1 & F2). rewrite F1. cbn [rbind]. rewrite F2. cbn [rbind]. unfold gd. cbn [cd] in *. rewrite Dx, Dy. cbn [rbind]. eauto.
Qed.
Lemma calc_G_ok x id r w : placeable x id r -> dget id (b_wells (fst x)) = Some w -> w_r w <> None -> w_req w <> None ->
  exists v, calc_well_G (fst x) id = Ok v.
Proof.
  intros (W & A & D & (kx & Kx) & Ky & _) Ew Nr Nq. unfold calc_well_G, bgrid, ggrid.
  destruct (D AZ) as (d & Dz); auto. unfold spacing_at, gd in *.
  apply perm_gk in Kx as (lx & E1 & E2). unfold dgetE. rewrite Ew.
  destruct (w_r w) as [r'|] eqn:H1; [|congruence]. destruct (w_req w) as [q'|] eqn:H2; [|congruence].
  destruct (proj1 (fdir_cases _ W) A) as [(E & _)|([E|E] & Fy)]; rewrite E; cbn [rbind]; rewrite ?E1; cbn [rbind]; rewrite ?E2; cbn [rbind].
  - unfold gd. cbn [cd] in *. rewrite Dz. cbn [rbind]. rewrite H1, H2. cbn [rbind keyE]. eauto.
  - destruct (Ky Fy) as (ky & K). apply perm_gk in K as (ly & F1 & F2). rewrite F1. cbn [rbind]. rewrite F2. cbn [rbind]. unfold gd. cbn [cd] in *. rewrite Dz. cbn [rbind]. rewrite H1, H2. cbn [rbind keyE]. eauto.
  - destruct (Ky Fy) as (ky & K). apply perm_gk in K as (ly & F1 & F2). rewrite F1. cbn [rbind]. rewrite F2. cbn [rbind]. unfold gd. cbn [cd] in *. rewrite Dz. cbn [rbind]. rewrite H1, H2. cbn [rbind keyE]. eauto.
Qed.

Section place.
Variables (id : Z) (x0 : ws R) (r : option R).
Hypothesis HP : placeable x0 id r.
Hypothesis HI : In id (b_ids (fst x0)).
(** the state has a well satisfying [P] and the rest is as in [x0] *)
Definition pw (P : well R -> Prop) (x : ws R) : Prop := same_elsewhere id x0 x /\ is_well P (dget id (b_wells (fst x))).
Lemma h_set_total {S} (f : S -> res S) (P Q E : S -> Prop) : (forall s, P s -> exists s', f s = Ok s' /\ Q s') ->
  hoare P (mset f) (fun _ => Q) E.
Proof. intros H s Ps. unfold mset. destruct (H s Ps) as (s' & -> & Q'). exact Q'. Qed.
Lemma place_upd f (P Q : well R -> Prop) :
  (forall x w, pw P x -> dget id (b_wells (fst x)) = Some w -> P w -> exists w', f (fst x) w = Ok w' /\ Q w') ->
  hoare (pw P) (upd_well id f) (fun _ => pw Q) (fun _ => False).
Proof.
  intros H. apply h_set_total. intros x Hx. pose proof Hx as (S & w & Ew & Pw). destruct (H x w Hx Ew Pw) as (w' & Ef & Qw).
  unfold dgetE. rewrite Ew. cbn [rbind]. rewrite Ef. cbn [rbind]. eexists. split; [reflexivity|]. split.
  - eapply same_trans; [exact S|apply same_wells].
  - cbn [fst]. rewrite wells_set_wells, dget_dset_same. exists w'; auto.
Qed.
Lemma place_log P : hoare (pw P) (log_pressure id) (fun _ => pw P) (fun _ => False).
Proof.
  apply h_set_total. intros x (S & Hw). rewrite (same_gp _ _ _ S). destruct HP as (_ & _ & _ & _ & _ & (p & ->) & _). cbn [rbind].
  eexists. split; [reflexivity|]. split.
  - eapply same_trans; [exact S|apply same_wp].
  - cbn [fst]. now rewrite wells_set_wp.
Qed.
Lemma place_calc x w : same_elsewhere id x0 x -> dget id (b_wells (fst x)) = Some w -> w_r w <> None -> placeable x id r.
Proof.
  intros S Ew Nr. pose proof (same_grid _ _ _ S) as Eg. destruct HP as (W & A & D & K & Ky & P & _).
  unfold placeable, spacing_at, perm_at in *. rewrite Eg, (same_gp _ _ _ S). repeat (split; auto). right. exists w; auto.
Qed.
Lemma place_tail : hoare (pw (fun w => w_r w <> None)) (set_well_tail id) (fun _ _ => True) (fun _ => False).
Proof.
  unfold set_well_tail. apply h_bind with (Q := fun _ => pw (fun w => w_r w <> None /\ w_req w <> None)).
  { apply place_upd. intros x w (S & _) Ew Nr. destruct (calc_r_ok x id r (place_calc x w S Ew Nr)) as (v & ->). cbn [rbind].
    eexists. split; [reflexivity|]. destruct w; cbn in *. split; auto; congruence. }
  intros _. apply h_bind with (Q := fun _ => pw (fun w => w_r w <> None)).
  { apply place_upd. intros x w (S & _) Ew (Nr & Nq). destruct (calc_G_ok x id r w (place_calc x w S Ew Nr) Ew Nr Nq) as (v & ->). cbn [rbind].
    eexists. split; [reflexivity|]. destruct w; auto. }
  intros _. apply h_bind with (Q := fun _ => pw (fun w => w_r w <> None)).
  { intros x H. pose proof H as (_ & w & Ew & _). unfold mread, dgetE. rewrite Ew. exact H. }
  intros w. apply h_when; [intros _|intros; exact I]. apply h_bind with (Q := fun _ => pw (fun w => w_r w <> None)).
  - apply place_upd. intros x w' _ _ H. eexists. split; [reflexivity|]. destruct w'; auto.
  - intros _. apply h_weak with (P := pw (fun w => w_r w <> None)) (Q := fun _ => pw (fun w => w_r w <> None)) (E := fun _ => False); auto. apply place_log.
Qed.
Lemma place_run q pwf s : exists y, set_well (Some id) q pwf r s x0 = (y, Ok tt).
Proof.
  assert (H : hoare (fun x => x = x0) (set_well (Some id) q pwf r s) (fun _ _ => True) (fun _ => False)).
  2:{ specialize (H x0 eq_refl). destruct (set_well (Some id) q pwf r s x0) as [y [[]|e]]; [eauto|contradiction]. }
  set (T := fun w : well R => r = None -> w_r w <> None).
  unfold set_well. apply h_bind with (Q := fun _ x => x = x0).
  { intros x ->. unfold assert_inside, mread. rewrite (proj2 (zmem_In _ _) HI). reflexivity. }
  intros _. apply h_bind with (Q := fun _ => pw T).
  { apply h_set_total. intros x ->. eexists. split; [reflexivity|].
    destruct HP as (_ & _ & _ & _ & _ & _ & Hr). unfold din. destruct (dget id (b_wells (fst x0))) as [w|] eqn:Ew.
    - split; [apply same_refl|]. exists w. split; auto. intros Er. destruct Hr as [Hr|(w' & Ew' & Hr)]; congruence.
    - split; [apply same_wells|]. cbn [fst]. rewrite wells_set_wells, dget_dset_same. exists well0. split; auto. intros Er.
      destruct Hr as [Hr|(w' & Ew' & Hr)]; congruence. }
  intros _. apply h_bind with (Q := fun _ => pw T).
  { apply h_opt; auto. intros a _. apply place_upd. intros x w _ _ H. eexists. split; [reflexivity|]. destruct w; auto. }
  intros _. apply h_bind with (Q := fun _ => pw T).
  { apply h_opt; auto. intros a _. apply h_bind with (Q := fun _ => pw T); [|intros _; apply place_log].
    apply place_upd. intros x w _ _ H. eexists. split; [reflexivity|]. destruct w as [[?|] ? ? ? ? ? ? ? ?]; auto. }
  intros _. apply h_bind with (Q := fun _ => pw T).
  { apply place_upd. intros x w _ _ H. eexists. split; [reflexivity|]. destruct w as [? ? ? ? [?|] ? ? ? ?]; auto. }
  intros _. apply h_bind with (Q := fun _ => pw (fun w => w_r w <> None)).
  { apply h_opt; intros a Ea.
    - intros. apply place_upd. intros x w _ _ H. eexists. split; [reflexivity|]. destruct w; cbn. congruence.
    - intros (S & w & Ew & Hw). split; auto. exists w. auto. }
  intros _. apply h_bind with (Q := fun _ => pw (fun w => w_r w <> None)).
  { apply h_opt; auto. intros a _. apply place_upd. intros x w _ _ H. eexists. split; [reflexivity|]. destruct w; auto. }
  intros _. apply place_tail.
Qed.
End place.

(** C31, full statement: if set_well raises, wells is unchanged.  This fails
    (next lemmas).  What holds: where all a well needs is there (supported flow
    directions, permeabilities, a radius), a call that raises changes nothing,
    and it raises exactly for cells that are not interior. *)
Lemma L_C31_failing_set_well_partial :
  forall (x : ws R) id q pwf r s, placeable x id r ->
  (forall y e, set_well (Some id) q pwf r s x = (y, Err e) -> y = x) /\
  (In id (b_ids (fst x)) <-> exists y, set_well (Some id) q pwf r s x = (y, Ok tt)).
Proof.
  intros x id q pwf r s HP. destruct (in_dec Z.eq_dec id (b_ids (fst x))) as [I|I].
  - destruct (place_run id x r HP I q pwf s) as (y & E). rewrite E. split; [intros; congruence|]. split; eauto.
  - rewrite outside_run by auto. split; [intros; congruence|]. split; [contradiction|]. intros (y & E). discriminate.
Qed.
Example ex_C31_case :
  exists m : bo R, build 3 1 1 None 1%R (Some 7%R) None = Ok m /\ placeable (m, None) 2%Z (Some 1%R).
Proof.
  destruct (line3_built 1 (Some 7%R)) as (m & E & G & I & W & Wp & P & _); [lra|]. exists m. split; auto.
  destruct m. cbn in G, I, W, Wp, P. subst. unfold placeable, spacing_at, perm_at. cbn. split; [split; cbn; lia|].
  split; [split; unfold flows; cbn; lia|]. split; [intros a [->|[->| ->]]; eexists; reflexivity|].
  split; [do 2 eexists; split; reflexivity|]. split; [do 3 eexists; reflexivity|]. split; [eexists; reflexivity|]. left; congruence.
Qed.
(** In any other flow direction every call on an interior cell raises, and
    leaves a well behind. *)
Lemma L_C31_other_axes :
  forall (x : ws R) id q pwf r s, wf (gr (geom (b_grid (fst x)))) -> ~ well_axes (gr (geom (b_grid (fst x)))) ->
  In id (b_ids (fst x)) -> dget id (b_wells (fst x)) = None ->
  exists y e, set_well (Some id) q pwf r s x = (y, Err e) /\ dget id (b_wells (fst y)) <> None.
Proof.
  intros x id q pwf r s W A I N.
  assert (H0 : at_well id (winv None None) x). { split; auto. rewrite N. split; auto. }
  pose proof (set_well_hoare id q pwf r s None None x H0) as H.
  pose proof (same_set_well id q pwf r s x x (same_refl id x)) as H1.
  destruct (set_well (Some id) q pwf r s x) as [y [a|e]].
  - destruct H1 as (_ & y' & r' & G & S & _ & HG). unfold calc_well_G, bgrid, ggrid in HG. rewrite (same_grid _ _ _ S) in HG.
    match type of HG with rbind ?t _ = _ => assert (Et : t = Err ValueError) end.
    { destruct (fdir_cases _ W) as (_ & C).
      pose proof (C A _ true false) as B. destruct (get_fdir (gr (geom (b_grid (fst x))))) as [|[] [|[] [|[] [|]]]]; try reflexivity; discriminate. }
    rewrite Et in HG. discriminate.
  - exists y, e. split; auto. destruct H as (_ & w & -> & _). congruence.
Qed.
Example ex_C31_other : exists m : bo Q, build 1 3 1 None 1%Q (Some 7%Q) None = Ok m /\
  wf (gr (geom (b_grid m))) /\ ~ well_axes (gr (geom (b_grid m))) /\ In 2%Z (b_ids m).
Proof.
  eexists. split; [vm_compute; reflexivity|]. cbn. split; [split; cbn; lia|]. split; [|auto].
  intros (H & _). unfold flows in H. cbn in H. lia.
Qed.
(** The refutation, with exact rationals (whatever square root and logarithm):
    a call without a radius, and a call on a grid along y. *)
Lemma L_C31_failing_set_well_refuted :
  exists (m m' : bo Q), build 3 1 1 None 1%Q (Some 7%Q) None = Ok m /\ build 1 3 1 None 1%Q (Some 7%Q) None = Ok m' /\
  forall NT : NumT Q,
  (exists y, set_well (Some 2%Z) (Some 1%Q) None None None (m, None) = (y, Err KeyError) /\
     b_wells m = [] /\ dkeys (b_wells (fst y)) = [2%Z]) /\
  (exists y, set_well (Some 2%Z) (Some 1%Q) None (Some 1%Q) None (m', None) = (y, Err ValueError) /\
     b_wells m' = [] /\ dkeys (b_wells (fst y)) = [2%Z]).
Proof.
  do 2 eexists. split; [vm_compute; reflexivity|]. split; [vm_compute; reflexivity|].
  intros NT. split; eexists; (split; [lazy; reflexivity|split; reflexivity]).
Qed.

(** ** Equivalent radius and productivity *)
Lemma Rpower_half a : (0 < a)%R -> Rpower a (1/2) = sqrt a.
Proof. intros H. replace (1/2)%R with (/2)%R by lra. now apply Rpower_sqrt. Qed.
Lemma Rpower_quarter a : (0 < a)%R -> Rpower a (1/4) = sqrt (sqrt a).
Proof.
  intros H. assert (0 < sqrt a)%R by (now apply sqrt_lt_R0). rewrite <- (Rpower_sqrt (sqrt a)) by auto.
  rewrite <- (Rpower_sqrt a) at 1 by auto. rewrite Rpower_mult. f_equal. lra.
Qed.
Lemma peaceman_r_eq kx ky dx dy : (0 < kx)%R -> (0 < ky)%R -> peaceman kx ky dx dy = r_eq kx ky dx dy.
Proof.
  intros Hx Hy. unfold peaceman, r_eq, sq, dec. cbn [nsqrt NumT_R nadd nmul ndiv Num_R nofZ].
  assert (0 < ky / kx)%R by (now apply Rdiv_lt_0_compat). assert (0 < kx / ky)%R by (now apply Rdiv_lt_0_compat).
  rewrite !Rpower_half, !Rpower_quarter by auto. unfold Rsqr. f_equal.
Qed.
Lemma r_eq_pos kx ky dx dy : (0 < kx -> 0 < ky -> 0 < dx -> 0 < dy -> 0 < r_eq kx ky dx dy)%R.
Proof.
  intros. unfold r_eq. assert (P : forall a b, (0 < Rpower a b)%R) by (intros; apply exp_pos).
  apply Rdiv_lt_0_compat; [|apply Rplus_lt_0_compat; auto].
  apply Rmult_lt_0_compat; [lra|]. apply sqrt_lt_R0. apply Rplus_lt_0_compat; apply Rmult_lt_0_compat; auto; apply Rlt_0_sqr; lra.
Qed.
Lemma r_eq_sym kx ky dx dy : r_eq kx ky dx dy = r_eq ky kx dy dx.
Proof. unfold r_eq. rewrite (Rplus_comm (Rpower (ky / kx) (1/2) * _)), (Rplus_comm (Rpower (ky / kx) (1/4))). reflexivity. Qed.
Lemma r_eq_same k dx dy : (0 < k)%R -> r_eq k k dx dy = (14 / 100 * sqrt (dx² + dy²))%R.
Proof.
  intros H. unfold r_eq. replace (k / k)%R with 1%R by (field; lra).
  rewrite Rpower_half, Rpower_quarter by lra. rewrite !sqrt_1, !Rmult_1_l. lra.
Qed.

(** C32: the equivalent radius of the well of cell [id]. *)
Lemma L_C32_r_eq :
  forall (m : bo R) id kx dx dy, wf (gr (geom (b_grid m))) -> well_axes (gr (geom (b_grid m))) ->
  perm_at m AX id kx -> spacing_at m AX id dx -> spacing_at m AY id dy -> (0 < kx)%R -> (0 < dx)%R -> (0 < dy)%R ->
  (~ flows (gr (geom (b_grid m))) AY -> calc_well_r_eq m id = Ok (r_eq kx kx dx dy)) /\
  (forall ky, flows (gr (geom (b_grid m))) AY -> perm_at m AY id ky -> (0 < ky)%R ->
     calc_well_r_eq m id = Ok (r_eq kx ky dx dy) /\ (0 < r_eq kx ky dx dy)%R /\
     r_eq kx ky dx dy = r_eq ky kx dy dx) /\
  r_eq kx kx dx dy = (14 / 100 * sqrt (dx² + dy²))%R /\ (0 < r_eq kx kx dx dy)%R.
Proof.
  intros m id kx dx dy W A Kx Dx Dy P1 P2 P3. unfold calc_well_r_eq, bgrid, ggrid.
  apply perm_gk in Kx as (lx & E1 & E2). unfold spacing_at in *.
  destruct (proj1 (fdir_cases _ W) A) as [(E & F)|([E|E] & F)]; rewrite E.
  - split; [|split; [intros; contradiction|split; [now apply r_eq_same|now apply r_eq_pos]]].
    intros _. unfold gd. rewrite Dx, Dy. cbn [rbind]. rewrite r_eq_same by auto.
    unfold sq, dec. cbn [nsqrt NumT_R nadd nmul ndiv Num_R nofZ]. unfold Rsqr. f_equal.
  - split; [intros; contradiction|]. split; [|split; [now apply r_eq_same|now apply r_eq_pos]].
    intros ky _ Ky P4. apply perm_gk in Ky as (ly & F1 & F2). unfold gd. rewrite E1, F1. cbn [rbind]. rewrite E2, F2, Dx, Dy. cbn [rbind].
    rewrite peaceman_r_eq by auto. split; auto. split; [now apply r_eq_pos|apply r_eq_sym].
  - split; [intros; contradiction|]. split; [|split; [now apply r_eq_same|now apply r_eq_pos]].
    intros ky _ Ky P4. apply perm_gk in Ky as (ly & F1 & F2). unfold gd. rewrite E1, F1. cbn [rbind]. rewrite E2, F2, Dx, Dy. cbn [rbind].
    rewrite peaceman_r_eq by auto. split; auto. split; [now apply r_eq_pos|apply r_eq_sym].
Qed.
Example ex_C32_case :
  exists m : bo R, build 3 1 1 None 1%R (Some 7%R) None = Ok m /\ wf (gr (geom (b_grid m))) /\ well_axes (gr (geom (b_grid m))) /\
  perm_at m AX 2%Z 1%R /\ spacing_at m AX 2%Z 1%R /\ spacing_at m AY 2%Z 1%R.
Proof.
  destruct (line3_built 1 (Some 7%R)) as (m & E & G & I & W & Wp & P & _); [lra|]. exists m. split; auto.
  unfold perm_at, spacing_at. rewrite G. cbn. split; [split; cbn; lia|]. split; [split; unfold flows; cbn; lia|].
  split; [eexists; split; reflexivity|]. split; reflexivity.
Qed.

(** The well geometry factor: the productivity with the horizontal
    permeability kx (flow along x only) or the geometric mean of kx and ky. *)
Lemma L_C32_productivity :
  forall (m : bo R) id w kx h re r, wf (gr (geom (b_grid m))) -> well_axes (gr (geom (b_grid m))) ->
  perm_at m AX id kx -> spacing_at m AZ id h -> dget id (b_wells m) = Some w -> w_req w = Some re -> w_r w = Some r ->
  let s := match w_s w with Some s => s | None => 0%R end in
  (~ flows (gr (geom (b_grid m))) AY -> calc_well_G m id = Ok (productivity (b_tconv m) kx h re r s)) /\
  (forall ky, flows (gr (geom (b_grid m))) AY -> perm_at m AY id ky ->
     calc_well_G m id = Ok (productivity (b_tconv m) (sqrt (kx * ky)) h re r s)) /\
  (forall kH, 0 < b_tconv m -> 0 < kH -> 0 < h ->
     (0 < ln (12 * re / r) + s -> 0 < productivity (b_tconv m) kH h re r s) /\
     (forall s', 0 < ln (12 * re / r) + s -> s < s' ->
        productivity (b_tconv m) kH h re r s' < productivity (b_tconv m) kH h re r s))%R.
Proof.
  intros m id w kx h re r W A Kx Dz Ew Ere Er s.
  assert (F : forall kH, well_G (b_tconv m) kH h re r (w_s w) = productivity (b_tconv m) kH h re r s).
  { intros kH. unfold well_G, productivity, s. cbn [npi nln NumT_R nadd nmul ndiv Num_R nofZ].
    change (@n2 R Num_R) with 2%R. replace (re / r * 12)%R with (12 * re / r)%R by (unfold Rdiv; ring).
    destruct (w_s w); auto. f_equal. ring. }
  clearbody s.
  unfold calc_well_G, bgrid, ggrid. apply perm_gk in Kx as (lx & E1 & E2). unfold spacing_at, dgetE in *. rewrite Ew.
  assert (P : forall kH, (0 < b_tconv m -> 0 < kH -> 0 < h -> 0 < 2 * PI * b_tconv m * kH * h)%R).
  { intros. assert (0 < PI)%R by apply PI_RGT_0. assert (0 < 2 * PI)%R by lra. apply Rmult_lt_0_compat; auto. apply Rmult_lt_0_compat; auto. apply Rmult_lt_0_compat; auto. }
  split; [|split].
  - intros Fy. destruct (proj1 (fdir_cases _ W) A) as [(E & _)|(_ & ?)]; [|contradiction]. rewrite E, E1. cbn [rbind]. rewrite E2. cbn [rbind].
    unfold gd. rewrite Dz. cbn [rbind]. rewrite Ere, Er. cbn [rbind keyE]. now rewrite F.
  - intros ky Fy Ky. apply perm_gk in Ky as (ly & F1 & F2).
    destruct (proj1 (fdir_cases _ W) A) as [(_ & ?)|([E|E] & _)]; [contradiction|..];
    rewrite E, E1, F1; cbn [rbind]; rewrite E2, F2; cbn [rbind]; unfold gd; rewrite Dz; cbn [rbind]; rewrite Ere, Er; cbn [rbind keyE]; now rewrite F.
  - intros kH P1 P2 P3. unfold productivity. split; [intros; apply Rdiv_lt_0_compat; auto|].
    intros s' H1 H2. set (l := ln _) in *. clearbody l. unfold Rdiv at 1 2. apply Rmult_lt_compat_l; auto. apply Rinv_lt_contravar; [|lra]. apply Rmult_lt_0_compat; lra.
Qed.
(** A well of radius 1 with skin 1 in the middle cell. *)
Example ex_C32_productivity_case :
  exists (m : bo R) y w re, build 3 1 1 None 1%R (Some 7%R) None = Ok m /\
  set_well (Some 2%Z) (Some 1%R) None (Some 1%R) (Some 1%R) (m, None) = (y, Ok tt) /\
  dget 2%Z (b_wells (fst y)) = Some w /\ w_req w = Some re /\ w_r w = Some 1%R /\ w_s w = Some 1%R /\
  perm_at (fst y) AX 2%Z 1%R /\ spacing_at (fst y) AZ 2%Z 1%R.
Proof.
  destruct (line3_built 1 (Some 7%R)) as (m & E & G & I & W & Wp & P & _); [lra|]. exists m.
  destruct m. cbn in G, I, W, Wp, P. subst. do 3 eexists. split; [exact E|]. split; [lazy -[sqrt ln PI IZR Rplus Rmult Rdiv Rinv Ropp]; reflexivity|].
  cbn. split; [reflexivity|]. split; [reflexivity|]. split; [reflexivity|]. split; [reflexivity|]. split; [|reflexivity]. eexists. split; reflexivity.
Qed.

(** ** Well objects *)
Definition props_of (q : R) (r s : R) (w : well R) : Prop :=
  w_q w = Some (Some q) /\ w_r w = Some r /\ w_s w = Some s.
(** the last two assignments of set_well_tail, from a well without pwf *)
Lemma tail_post id x0 q r s qsp c :
  hoare (fun x => same_elsewhere id x0 x /\ is_well (fun w => props_of q r s w /\ w_pwf w = None /\ w_qsp w = qsp /\ w_con w = c) (dget id (b_wells (fst x))))
    (set_well_tail id)
    (fun _ x => is_well (fun w => props_of q r s w /\ w_pwf w = Some (Some 0%R) /\ w_pwfsp w = Some 0%R /\ w_qsp w = qsp /\ w_con w = c /\
        exists y w' re G, same_elsewhere id x0 y /\ dget id (b_wells (fst y)) = Some w' /\ props_of q r s w' /\ w_req w' = Some re /\
          calc_well_r_eq (fst x0) id = Ok re /\ calc_well_G (fst y) id = Ok G /\ w_req w = Some re /\ w_G w = Some G) (dget id (b_wells (fst x))))
    (fun _ => True).
Proof.
  unfold set_well_tail.
  set (P1 := fun w => props_of q r s w /\ w_pwf w = None /\ w_qsp w = qsp /\ w_con w = c).
  apply h_bind with (Q := fun _ x => same_elsewhere id x0 x /\ is_well (fun w => P1 w /\ exists re, w_req w = Some re /\ calc_well_r_eq (fst x0) id = Ok re) (dget id (b_wells (fst x)))).
  { apply h_set; auto. intros x x' (S & w & Ew & Pw) Hf. cbn beta in Hf. unfold dgetE in Hf. rewrite Ew in Hf. cbn [rbind] in Hf.
    destruct (calc_well_r_eq (fst x) id) as [re|] eqn:Er; [|discriminate]. cbn [rbind] in Hf. inversion Hf; clear Hf. split.
    - eapply same_trans; [exact S|apply same_wells].
    - cbn [fst]. rewrite wells_set_wells, dget_dset_same. eexists. split; [reflexivity|]. split; [destruct w; exact Pw|].
      exists re. split; [destruct w; reflexivity|]. rewrite <- Er. unfold calc_well_r_eq, gk, gd, bgrid. now rewrite (same_grid _ _ _ S). }
  intros _.
  set (K := fun w => exists y w' re G, same_elsewhere id x0 y /\ dget id (b_wells (fst y)) = Some w' /\ props_of q r s w' /\ w_req w' = Some re /\
          calc_well_r_eq (fst x0) id = Ok re /\ calc_well_G (fst y) id = Ok G /\ w_req w = Some re /\ w_G w = Some G).
  apply h_bind with (Q := fun _ x => is_well (fun w => P1 w /\ K w) (dget id (b_wells (fst x)))).
  { apply h_set; auto. intros x x' (S & w & Ew & Pw & re & E1 & E2) Hf. cbn beta in Hf. unfold dgetE in Hf. rewrite Ew in Hf. cbn [rbind] in Hf.
    destruct (calc_well_G (fst x) id) as [G|] eqn:EG; [|discriminate]. cbn [rbind] in Hf. inversion Hf; clear Hf.
    cbn [fst]. rewrite wells_set_wells, dget_dset_same. eexists. split; [reflexivity|]. split; [destruct w; exact Pw|].
    exists x, w, re, G. split; auto. split; auto. split; [apply Pw|]. split; auto. split; auto. split; auto. destruct w; auto. }
  intros _. apply h_bind with (Q := fun w x => dget id (b_wells (fst x)) = Some w /\ P1 w /\ K w).
  { apply h_read; auto. intros x w (w' & Ew & Pw) Hw. unfold dgetE in Hw. rewrite Ew in Hw. inversion Hw. subst. auto. }
  intros w. apply h_when.
  - intros _. apply h_bind with (Q := fun _ x => is_well (fun w => props_of q r s w /\ w_pwf w = Some (Some 0%R) /\ w_pwfsp w = Some 0%R /\ w_qsp w = qsp /\ w_con w = c /\ K w) (dget id (b_wells (fst x)))).
    + apply h_set; auto. intros x x' (Ew & (Pw & Pn & Pq & Pc) & Kw) Hf. cbn beta in Hf. unfold dgetE in Hf. rewrite Ew in Hf. cbn [rbind] in Hf. inversion Hf.
      cbn [fst]. rewrite wells_set_wells, dget_dset_same. eexists. split; [reflexivity|]. destruct w; cbn in *.
      split; [exact Pw|]. split; auto.
    + intros _. apply h_set; auto. intros x x' Hw Hf. cbn beta in Hf. destruct (get_pressure x id); [|discriminate]. inversion Hf. cbn [fst].
      now rewrite wells_set_wp.
  - intros Hb x (_ & (_ & Pn & _) & _). rewrite Pn in Hb. discriminate.
Qed.
Lemma G_same id x0 q r s re y1 y2 w1 w2 : same_elsewhere id x0 y1 -> same_elsewhere id x0 y2 ->
  dget id (b_wells (fst y1)) = Some w1 -> dget id (b_wells (fst y2)) = Some w2 ->
  props_of q r s w1 -> props_of q r s w2 -> w_req w1 = Some re -> w_req w2 = Some re -> calc_well_G (fst y1) id = calc_well_G (fst y2) id.
Proof.
  intros S1 S2 E1 E2 (_ & R1 & T1) (_ & R2 & T2) Q1 Q2. unfold calc_well_G, gk, gd, bgrid, dgetE.
  rewrite (same_grid _ _ _ S1), (same_grid _ _ _ S2), E1, E2. cbn [rbind]. rewrite R1, R2, T1, T2, Q1, Q2.
  assert (T : forall y, same_elsewhere id x0 y -> b_tconv (fst y) = b_tconv (fst x0)).
  { intros y (_ & H & _). apply (f_equal (@b_tconv R)) in H. destruct (fst x0), (fst y). exact H. }
  now rewrite (T y1 S1), (T y2 S2).
Qed.
Lemma truthy_ok a : a <> 0%R -> truthy (Some a) = Some a.
Proof. intros H. unfold truthy. cbn. destruct (Reqb a 0) eqn:E; auto. apply Reqb_true in E. contradiction. Qed.

(** C33, full statement: set_well(well=SingleCell(cell_id=c, q=q, r=r, s=s)) has
    the effect of set_well(cell_id=c, q=q, r=r, s=s).  It fails (below).  What
    holds for q, r, s other than 0 in a cell without a well: the two wells have
    the same rate, radius, skin, equivalent radius, geometry factor and pressure;
    missing: the control mode and the set point of the rate. *)
Lemma L_C33_well_object_partial :
  forall (x : ws R) id q r s y1 y2, q <> 0%R -> r <> 0%R -> s <> 0%R -> dget id (b_wells (fst x)) = None ->
  set_well_obj (single_cell_new (Some id) (Some q) (Some s) (Some r) None) None x = (y1, Ok tt) ->
  set_well (Some id) (Some q) None (Some r) (Some s) x = (y2, Ok tt) ->
  exists w1 w2, dget id (b_wells (fst y1)) = Some w1 /\ dget id (b_wells (fst y2)) = Some w2 /\
    w_q w1 = w_q w2 /\ w_r w1 = w_r w2 /\ w_s w1 = w_s w2 /\ w_req w1 = w_req w2 /\ w_G w1 = w_G w2 /\
    w_pwf w1 = w_pwf w2 /\ w_pwfsp w1 = w_pwfsp w2 /\
    (w_con w1 = Some None /\ w_qsp w1 = None) /\ (w_con w2 = Some (Some "q") /\ w_qsp w2 = Some q).
Proof.
  intros x id q r s y1 y2 Nq Nr Ns N H1 H2.
  set (Post := fun (qsp : option R) (c : option (option string)) (y : ws R) => is_well (fun w => props_of q r s w /\ w_pwf w = Some (Some 0%R) /\ w_pwfsp w = Some 0%R /\ w_qsp w = qsp /\ w_con w = c /\
        exists y w' re G, same_elsewhere id x y /\ dget id (b_wells (fst y)) = Some w' /\ props_of q r s w' /\ w_req w' = Some re /\
          calc_well_r_eq (fst x) id = Ok re /\ calc_well_G (fst y) id = Ok G /\ w_req w = Some re /\ w_G w = Some G) (dget id (b_wells (fst y)))).
  assert (A1 : Post None (Some None) y1).
  { assert (H : hoare (fun y => y = x) (set_well_obj (single_cell_new (Some id) (Some q) (Some s) (Some r) None) None)
        (fun _ => Post None (Some None)) (fun _ => True)).
    2:{ specialize (H x eq_refl). rewrite H1 in H. exact H. }
    unfold set_well_obj, single_cell_new. rewrite !truthy_ok by auto.
    assert (Eid : id <> 0%Z). { intros ->. discriminate H1. }
    apply h_bind with (Q := fun i y => y = x /\ i = id).
    { apply h_read; auto. intros y i -> Hi. cbn in Hi. destruct id; cbn in Hi; try congruence; inversion Hi; auto. }
    intros i. apply h_bind with (Q := fun _ y => y = x /\ i = id). { apply h_read; auto. }
    intros _. apply h_bind with (Q := fun _ y => i = id /\ same_elsewhere id x y /\
        is_well (fun w => props_of q r s w /\ w_pwf w = None /\ w_qsp w = None /\ w_con w = Some None) (dget id (b_wells (fst y)))).
    { apply h_set; auto. intros y y' (-> & ->) Hf. inversion Hf. split; auto. split; [apply same_wells|]. cbn [fst].
      rewrite wells_set_wells, dget_dset_same. eexists. split; [reflexivity|]. cbn. repeat split; reflexivity. }
    intros _ y (-> & Hy). exact (tail_post id x q r s None (Some None) y Hy). }
  assert (A2 : Post (Some q) (Some (Some "q")) y2).
  { assert (H : hoare (fun y => y = x) (set_well (Some id) (Some q) None (Some r) (Some s))
        (fun _ => Post (Some q) (Some (Some "q"))) (fun _ => True)).
    2:{ specialize (H x eq_refl). rewrite H2 in H. exact H. }
    unfold set_well.
    set (S := fun (P : well R -> Prop) (y : ws R) => same_elsewhere id x y /\ is_well P (dget id (b_wells (fst y)))).
    assert (U : forall f (P Q : well R -> Prop), (forall m w w', P w -> f m w = Ok w' -> Q w') ->
       hoare (S P) (upd_well id f) (fun _ => S Q) (fun _ => True)).
    { intros f P Q HPQ. apply h_set; auto. intros y y' (Sy & w & Ew & Pw) Hf. cbn beta in Hf. unfold dgetE in Hf. rewrite Ew in Hf. cbn [rbind] in Hf.
      destruct (f (fst y) w) as [w'|] eqn:Ef; [|discriminate]. inversion Hf. split; [eapply same_trans; [exact Sy|apply same_wells]|].
      cbn [fst]. rewrite wells_set_wells, dget_dset_same. exists w'. split; auto. eapply HPQ; eauto. }
    apply h_bind with (Q := fun _ y => y = x). { apply h_read; auto. }
    intros _. apply h_bind with (Q := fun _ => S (fun w => w = well0)).
    { apply h_set; auto. intros y y' -> Hf. inversion Hf. unfold din. rewrite N. split; [apply same_wells|]. cbn [fst].
      rewrite wells_set_wells, dget_dset_same. eexists; split; reflexivity. }
    intros _. apply h_bind with (Q := fun _ => S (fun w => w = with_q q well0)).
    { apply U. intros m w w' -> Hf. inversion Hf. reflexivity. }
    intros _. apply h_bind with (Q := fun _ => S (fun w => w = with_q q well0)). { apply h_ret; auto. }
    intros _. apply h_bind with (Q := fun _ => S (fun w => w = with_q q well0)).
    { apply U. intros m w w' -> Hf. inversion Hf. reflexivity. }
    intros _. apply h_bind with (Q := fun _ => S (fun w => w = with_r r (with_q q well0))).
    { apply U. intros m w w' -> Hf. inversion Hf. reflexivity. }
    intros _. apply h_bind with (Q := fun _ => S (fun w => w = with_s s (with_r r (with_q q well0)))).
    { apply U. intros m w w' -> Hf. inversion Hf. reflexivity. }
    intros _ y (Sy & w & Ew & Hw). refine (tail_post id x q r s (Some q) (Some (Some "q")) y _). split; auto. exists w. split; auto.
    subst w. cbn. repeat split; reflexivity. }
  destruct A1 as (w1 & E1 & Pr1 & Pf1 & Ps1 & Pq1 & Pc1 & z1 & v1 & re1 & G1 & S1 & F1 & Q1 & R1 & C1 & D1 & I1 & J1).
  destruct A2 as (w2 & E2 & Pr2 & Pf2 & Ps2 & Pq2 & Pc2 & z2 & v2 & re2 & G2 & S2 & F2 & Q2 & R2 & C2 & D2 & I2 & J2).
  assert (re1 = re2) by congruence. subst re2. rewrite (G_same id x q r s re1 z1 z2 v1 v2) in D1 by auto.
  exists w1, w2. destruct Pr1 as (? & ? & ?), Pr2 as (? & ? & ?). repeat split; congruence.
Qed.
(** In a row of three cells both calls succeed. *)
Example ex_C33_case :
  exists (m : bo R) y1 y2, build 3 1 1 None 1%R (Some 7%R) None = Ok m /\ dget 2%Z (b_wells m) = None /\
  set_well_obj (mkSC (Some 2%Z) (Some 1%R) (Some 1%R) (Some 1%R) None) None (m, None) = (y1, Ok tt) /\
  single_cell_new (Some 2%Z) (Some 1%R) (Some 1%R) (Some 1%R) None = mkSC (Some 2%Z) (Some 1%R) (Some 1%R) (Some 1%R) None /\
  set_well (Some 2%Z) (Some 1%R) None (Some 1%R) (Some 1%R) (m, None) = (y2, Ok tt).
Proof.
  destruct (line3_built 1 (Some 7%R)) as (m & E & G & I & W & Wp & P & _); [lra|]. exists m.
  destruct m. cbn in G, I, W, Wp, P. subst. do 2 eexists. split; [exact E|]. split; [reflexivity|].
  split; [lazy -[sqrt ln PI IZR Rplus Rmult Rdiv Rinv Ropp]; reflexivity|].
  split; [unfold single_cell_new; rewrite truthy_ok by lra; reflexivity|].
  lazy -[sqrt ln PI IZR Rplus Rmult Rdiv Rinv Ropp]; reflexivity.
Qed.
(** The refutation: the well given as an object does not produce in the first
    step, with any square root and logarithm. *)
Lemma L_C33_well_object_refuted :
  exists m : bo Q, build 3 1 1 None 1%Q (Some 7%Q) None = Ok m /\
  forall NT : NumT Q, exists y1 y2,
  set_well_obj (single_cell_new (Some 2%Z) (Some 1%Q) (Some 1%Q) (Some 1%Q) None) None (m, None) = (y1, Ok tt) /\
  set_well (Some 2%Z) (Some 1%Q) None (Some 1%Q) (Some 1%Q) (m, None) = (y2, Ok tt) /\
  right_side (get_matrices_vect (fst y1, fdm_new (fst y1))) = Some [Some (-7); Some (-7); Some (-7)]%Q /\
  right_side (get_matrices_vect (fst y2, fdm_new (fst y2))) = Some [Some (-7); Some (-8); Some (-7)]%Q.
Proof.
  eexists. split; [vm_compute; reflexivity|].
  intros NT. do 2 eexists. change (single_cell_new (Some 2%Z) (Some 1%Q) (Some 1%Q) (Some 1%Q) None) with (mkSC (Some 2%Z) (Some 1%Q) (Some 1%Q) (Some 1%Q) None).
  split; [lazy -[Qplus Qmult Qdiv Qminus Qinv Qopp]; reflexivity|].
  split; [lazy -[Qplus Qmult Qdiv Qminus Qinv Qopp]; reflexivity|].
  split; lazy; reflexivity.
Qed.
