(** Calls that cannot fail. *)
From Coq Require Import String ZArith Bool Arith List Lia Reals Lra QArith.
From Verif Require Import Prelude PreludeFacts Num GridModel GridSpec GeoModel GeoSpec PropProofs PropModel PropSpec
  UnitsModel BlackOilModel FdmModel MonadFacts HistSpec InvFacts ModelSpec ModelFacts FaceFacts
  Samples SampleFacts SampleWell SampleBal SolveSpec StepSpec BalanceSpec CanonFacts NbrFacts TotalSpec TotalFacts TotalStep TotalHist TotalSet.
Import ListNotations.
Close Scope Q_scope.
Close Scope R_scope.
Open Scope nat_scope.

(** C94: in a history of proper calls no solve and no run raises anything but the
    RecursionError of a step that is solved too often. *)
Lemma L_C94_never_fails :
  forall (g : gobj R) f unit pi dt m0 x y z u dx dy dz l,
  bo_new g f unit pi dt = Ok m0 -> model m0 x y z u dx dy dz ->
  along proper (m0, None) l -> along returns (m0, None) l.
Proof.
  intros g f unit pi dt m0 x y z u dx dy dz l E K P.
  exact (proj1 (good_along K l (md_B _ _ _ _ _ _ _ _ K) (md_mu _ _ _ _ _ _ _ _ K) (m0, None) (good_new g f unit pi dt E) P)).
Qed.
(** C94: nor that, if the limit is larger than the number of wells, all wells have
    positive factors and there are no ties. *)
Lemma L_C94_succeeds :
  forall (g : gobj R) f unit pi dt m0 x y z u dx dy dz l,
  bo_new g f unit pi dt = Ok m0 -> model m0 x y z u dx dy dz ->
  along proper (m0, None) l -> along enough (m0, None) l -> along succeeds (m0, None) l.
Proof.
  intros g f unit pi dt m0 x y z u dx dy dz l E K P En.
  pose proof (proj2 (good_along K l (md_B _ _ _ _ _ _ _ _ K) (md_mu _ _ _ _ _ _ _ _ K) (m0, None) (good_new g f unit pi dt E) P)) as H.
  clear E P. revert En H. generalize (m0, @None (fs R)). induction l as [|c l IH]; intros X En H; cbn [along] in *; [exact I|].
  destruct En as (E1 & E2), H as (H1 & H2). split; [exact (H1 E1)|auto].
Qed.
Lemma along_cons (P : ws R -> call R -> Prop) X Y c l : fst (exec c X) = Y -> P X c -> along P Y l -> along P X (c :: l).
Proof. intros <- H1 H2. split; auto. Qed.
Lemma fives_complete : complete fives.
Proof. intros k A d _. eexists. split; [reflexivity|apply repeat_length]. Qed.
Lemma sides_adm c cmp pi r : Forall (admissible (line3 c cmp pi)) (sides r).
Proof.
  unfold sides. repeat constructor; try (apply side_faces; auto; fail); cbn [fst snd].
  - intros _ nb id d En Ii Ed. assert (En' : get_cell_neighbors (gr (geom (b_grid (line3 c cmp pi)))) 0 false = Ok (mkDirs [1%Z] [] [])) by (vm_compute; reflexivity). rewrite En' in En. injection En as <-.
    destruct Ii as [<-|[]]. unfold FdmModel.dz, gz in Ed. cbn in Ed. injection Ed as <-. lra.
  - discriminate.
Qed.
Example ex_C94_case : exists m0 : bo R, build 3 1 1 None 1%R (Some 10%R) None = Ok m0 /\ (exists g f unit p dt, bo_new g f unit p dt = Ok m0) /\
  (exists x y z u dx dy dz, model m0 x y z u dx dy dz) /\
  let l := [injector; Set_boundaries (sides 0); Compile; Run fives SampleWell.one 3 9 true false true true false (Some "cgs"%string)] in
  along proper (m0, None) (l ++ [Set_all_boundaries "pressure" 7%R; Solve fives SampleWell.one 0 false omb]) /\ along enough (m0, None) l /\
  length (b_wells (fst (after (m0, None) l))) = 1.
Proof.
  destruct (line3i_built (1 + 0) true) as (G & req & HG & E). exists (line3 (1 + 0) true (Some 10%R)).
  assert (El : build 3 1 1 None 1%R (Some 10%R) None = Ok (line3 (1 + 0) true (Some 10%R))) by (apply line3_pos; lra).
  split; [exact El|]. split; [eapply build_new; exact El|]. split; [do 7 eexists; apply line3_model; intros; lra|]. cbv zeta.
  assert (E2 : exists m1, exec (Set_boundaries (sides 0)) (line3i (line3 (1 + 0) true (Some 10%R)) G req (Some 10%R), None) = ((m1, None), Ok tt) /\
    b_wells m1 = b_wells (line3i (line3 (1 + 0) true (Some 10%R)) G req (Some 10%R)) /\ b_B m1 = 1%R /\ b_mu m1 = 1%R) by (eexists; split; [cbn [exec]; unfold sides; mrun|repeat split]).
  destruct E2 as (m1 & E2 & W1 & HB & Hm).
  assert (Hw : forall id w, dget id (b_wells m1) = Some w -> w_G w = Some G /\ w_qsp w = Some 1%R /\ w_pwfsp w = Some 0%R).
  { intros id w Ew. rewrite W1 in Ew. cbn in Ew. destruct (Z.eqb id 2); [|discriminate]. injection Ew as <-. auto. }
  assert (R1 : forall r, exists m2 s2, fst (exec (Run fives SampleWell.one 3 9 true false true true false (Some "cgs"%string)) (m1, r)) = (m2, match r with None => None | Some _ => Some s2 end) /\ (r <> None -> length (b_wells m2) = 1)).
  { intros [s|]; [|exists m1, (fdm_new m1); split; [reflexivity|congruence]]. cbn [exec]. unfold of_solution. cbn [fst snd].
    pose proof (WellStepFacts.fx_run fives SampleWell.one 3 9 true false true true false (Some "cgs"%string) (WellStepFacts.fixm (b_wells m1)) (m1, s) eq_refl) as H.
    destruct (run fives SampleWell.one 3 9 true false true true false (Some "cgs"%string) (m1, s)) as [[m2 s2] r2]. cbn [fst snd] in *. exists m2, s2. split; [reflexivity|]. intros _. unfold WellStepFacts.fx in H. cbn [fst] in H.
    apply (f_equal (@length _)) in H. unfold WellStepFacts.fixm in H. rewrite !map_length, W1 in H. exact H. }
  destruct (R1 (Some (fdm_new m1))) as (m2 & s2 & E4 & L). specialize (L ltac:(discriminate)). 
  assert (E3 : fst (exec Compile (m1, None)) = (m1, Some (fdm_new m1))) by reflexivity.
  assert (E1' : fst (exec injector (line3 (1 + 0) true (Some 10%R), None)) = (line3i (line3 (1 + 0) true (Some 10%R)) G req (Some 10%R), None)) by (rewrite E; reflexivity).
  assert (E2' : fst (exec (Set_boundaries (sides 0)) (line3i (line3 (1 + 0) true (Some 10%R)) G req (Some 10%R), None)) = (m1, None)) by (rewrite E2; reflexivity).
  split; [|split].
  - cbn [app]. eapply along_cons; [exact E1'| |eapply along_cons; [exact E2'| |eapply along_cons; [exact E3|exact I|eapply along_cons; [exact E4| |]]]].
    + match goal with |- proper ?X _ => change (snd (exec injector X) = Ok tt /\ draining (fst (fst (exec injector X)))) end. rewrite E. split; [reflexivity|]. cbn [fst]. intros id w G' Ew EG. cbn in Ew. destruct (Z.eqb id 2); [|discriminate]. injection Ew as <-. injection EG as <-. lra.
    + cbn [proper]. rewrite E2. split; [reflexivity|]. split; [reflexivity|]. split; [cbn; apply NoDup_cons; [cbn; intuition discriminate|apply NoDup_cons; [intros []|apply NoDup_nil]]|exact (sides_adm (1 + 0) true (Some 10%R) 0)].
    + cbn [proper snd]. split; [discriminate|]. split; [exact fives_complete|]. split; [right; right; cbn; auto 10|]. split; [reflexivity|]. split; [reflexivity|lia].
    + cbn [along proper]. split; [exact I|]. split; [|exact I]. split; [|split; [exact fives_complete|split; [now left|split; reflexivity]]].
      unfold exec. destruct (set_all_boundaries _ _ _) as [[m3 o3] r3] eqn:Ea. cbn [fst snd]. pose proof (re_all (rest (m2, Some s2)) "pressure" 7%R (m2, Some s2) eq_refl) as H. rewrite Ea in H. unfold rest in H. cbn [fst snd] in H.
      destruct o3; [discriminate|]. cbn in H. congruence.
  - eapply along_cons; [exact E1'|exact I|eapply along_cons; [exact E2'|exact I|eapply along_cons; [exact E3|exact I|eapply along_cons; [exact E4| |exact I]]]].
    cbn [enough fst]. rewrite W1. split; [cbn; lia|]. split.
    + intros k A d ps Es id w qsp G' lim i v Ew Eq EG Elim _ En. destruct (Hw id w Ew) as (H1 & H2 & H3). rewrite HB, Hm. rewrite H1 in EG. rewrite H2 in Eq. rewrite H3 in Elim. injection EG as <-. injection Eq as <-. injection Elim as <-.
      injection Es as <-. apply nth_error_In, repeat_spec in En. injection En as ->. assert (0 < / G)%R by now apply Rinv_0_lt_compat. unfold Rdiv. lra.
    + intros id w G' Ew EG. rewrite <- W1 in Ew. destruct (Hw id w Ew) as (H1 & _). congruence.
  - unfold after. cbn [fold_left]. rewrite (f_equal (fun X => length (b_wells (fst X))) (eq_trans (f_equal (fun X => fst (exec (Run fives SampleWell.one 3 9 true false true true false (Some "cgs"%string)) X))
      (eq_trans (f_equal (fun X => fst (exec Compile X)) (eq_trans (f_equal (fun X => fst (exec (Set_boundaries (sides 0)) X)) E1') E2')) E3)) E4)). exact L.
Qed.

(** C95: after proper calls set_well accepts every interior cell, with any rate and
    pressure, when a radius is given or known, exactly if the grid has flow along x,
    and along z only together with y. *)
Lemma L_C95_set_well :
  forall (g : gobj R) f unit pi dt m0 x y z u dx dy dz l id q pwf r s,
  bo_new g f unit pi dt = Ok m0 -> model m0 x y z u dx dy dz -> attached m0 -> along proper (m0, None) l -> In id (b_ids m0) ->
  (r <> None \/ exists w, dget id (b_wells (fst (after (m0, None) l))) = Some w /\ w_r w <> None) ->
  (snd (exec (Set_well (Some id) q pwf r s) (after (m0, None) l)) = Ok tt <-> drillable (gr (geom (b_grid m0)))).
Proof.
  intros g f unit pi dt m0 x y z u dx dy dz l id q pwf r s E K At P I Hr.
  pose proof (good_after K l (md_B _ _ _ _ _ _ _ _ K) (md_mu _ _ _ _ _ _ _ _ K) (m0, None) (good_new g f unit pi dt E) P) as Gd. cbn [exec]. rewrite (fine_drill K). split.
  - intros H. assert (D : forall a b : axis, {a = b} + {a <> b}) by decide equality. destruct (in_dec (list_eq_dec D) (get_fdir (gr (geom (b_grid m0)))) [[AX]; [AX; AY]; [AX; AY; AZ]]) as [J|J].
    + cbn [In] in J. unfold fine_dirs. intuition auto.
    + exfalso. revert H. apply (set_well_fails (m0 := m0)); [apply Gd|]. intros [Q|[Q|Q]]; apply J; rewrite Q; cbn; auto.
  - intros Fd. apply (set_well_total K id I At); auto. now apply good_base0.
Qed.
(** C95: and set_boundaries accepts every dictionary of conditions it knows on
    boundary cells (gradients on cells of one face). *)
Lemma L_C95_set_boundaries :
  forall (g : gobj R) f unit pi dt m0 x y z u dx dy dz l bd,
  bo_new g f unit pi dt = Ok m0 -> model m0 x y z u dx dy dz -> along proper (m0, None) l ->
  (forall e, In e bd -> acceptable m0 (fst e) (fst (snd e))) ->
  snd (exec (Set_boundaries bd) (after (m0, None) l)) = Ok tt.
Proof.
  intros g f unit pi dt m0 x y z u dx dy dz l bd E K P A.
  apply (boundaries_total K); auto. apply good_base0. apply (good_after K l (md_B _ _ _ _ _ _ _ _ K) (md_mu _ _ _ _ _ _ _ _ K)); auto. exact (good_new g f unit pi dt E).
Qed.
(** C95: and set_all_boundaries every rate and pressure. *)
Lemma L_C95_set_all_boundaries :
  forall (g : gobj R) f unit pi dt m0 x y z u dx dy dz l cond v,
  bo_new g f unit pi dt = Ok m0 -> model m0 x y z u dx dy dz -> along proper (m0, None) l ->
  smem (lower cond) RATE = true \/ smem (lower cond) PRESS = true ->
  snd (exec (Set_all_boundaries cond v) (after (m0, None) l)) = Ok tt.
Proof.
  intros g f unit pi dt m0 x y z u dx dy dz l cond v E K P A.
  apply (all_boundaries_total K); auto. apply good_base0. apply (good_after K l (md_B _ _ _ _ _ _ _ _ K) (md_mu _ _ _ _ _ _ _ _ K)); auto. exact (good_new g f unit pi dt E).
Qed.
Example ex_C95_case : exists m0 : bo R, build 3 1 1 None 1%R (Some 10%R) None = Ok m0 /\ (exists g f unit p dt, bo_new g f unit p dt = Ok m0) /\
  (exists x y z u dx dy dz, model m0 x y z u dx dy dz) /\ attached m0 /\ along proper (m0, None) [injector; Compile] /\ In 3%Z (b_ids m0) /\
  drillable (gr (geom (b_grid m0))) /\ acceptable m0 0%Z "GRADIENT" /\ acceptable m0 4%Z "P".
Proof.
  destruct (line3i_built (1 + 0) true) as (G & req & HG & E). exists (line3 (1 + 0) true (Some 10%R)).
  assert (El : build 3 1 1 None 1%R (Some 10%R) None = Ok (line3 (1 + 0) true (Some 10%R))) by (apply line3_pos; lra).
  split; [exact El|]. split; [eapply build_new; exact El|]. split; [do 7 eexists; apply line3_model; intros; lra|]. split; [intros []; reflexivity|].
  split. { cbn [along]. split; [|split; exact I]. match goal with |- proper ?X _ => change (snd (exec injector X) = Ok tt /\ draining (fst (fst (exec injector X)))) end. rewrite E. split; [reflexivity|]. cbn [fst]. intros id w G' Ew EG. cbn in Ew. destruct (Z.eqb id 2); [|discriminate]. injection Ew as <-. injection EG as <-. lra. }
  split; [cbn; auto|]. split; [split; unfold flows; cbn; lia|].
  assert (F : forall id, id = 0%Z \/ id = 4%Z -> exists c, boundary_cell (gr (geom (b_grid (line3 (1 + 0) true (Some 10%R))))) c /\ id = natural_id (gr (geom (b_grid (line3 (1 + 0) true (Some 10%R))))) c).
  { intros id H. destruct (side_faces (1 + 0) true (Some 10%R) id H) as (c & H1 & _ & H2). eauto. }
  split; (split; [apply F; auto|]); [right; right; split; [reflexivity|apply side_faces; auto]|right; left; reflexivity].
Qed.
(** C95 is false as first stated: on a line of cells along z no well can be set.
    The call that fails leaves a well behind. *)
Lemma L_C95_column_refuted :
  exists m0 : bo Q, build 1 1 3 None 1%Q (Some 10%Q) None = Ok m0 /\ In 2%Z (b_ids m0) /\
  forall NT : NumT Q, let X := exec (Set_well (Some 2%Z) (Some 1%Q) None (Some (1 # 2)%Q) None) (m0, None) in
  snd X = Err ValueError /\ dkeys (b_wells (fst (fst X))) = [2%Z].
Proof.
  eexists. split; [vm_compute; reflexivity|]. split; [vm_compute; auto|]. intros NT. vm_compute. auto.
Qed.
