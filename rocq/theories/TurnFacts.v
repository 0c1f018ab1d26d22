(** Simulations of a reservoir and of the same reservoir turned round. *)
From Coq Require Import String ZArith Bool Arith List Lia Reals Lra Permutation.
From Verif Require Import GridProofs GridNeighbors GridThm GeoThm PropProofs AgreeProofs PropThm FaceFacts Prelude PreludeFacts Num GridModel GridSpec GeoModel GeoSpec PropModel PropSpec GeoProofs TransProofs UnitsModel BlackOilModel FdmModel MonadFacts HistSpec InvFacts SumFacts ModelSpec ModelFacts VectFacts AsmFacts SolverSpec SolveSpec StepSpec StepFacts WellStepFacts MatrixProofs BalanceSpec FdmSpec CanonFacts NbrFacts SymbFacts BalFacts FormFacts StepBal SetupFacts LocalSpec LocalThm ChangeSpec ChangeFacts TotalHist TotalSpec ClosedSpec CompareSpec CompareFacts SuperSpec SuperFacts TurnSpec TurnGeo TurnRock.
Import ListNotations.
Close Scope R_scope.
Open Scope nat_scope.

Record twin (r : bool * bool * bool) (h ee : R) (m m' : bo R) : Prop := {
  tw_rock : aligned r h ee (b_grid m) (b_grid m');
  tw_k : muB m' = (ee * muB m)%R; tw_g : b_g m' = b_g m; tw_cmp : b_cmp m' = b_cmp m;
  tw_rhs : forall c, interior (gr (geom (b_grid m))) c -> nth (Z.to_nat (natural_id (gr (geom (b_grid m))) (turn (gr (geom (b_grid m))) r c))) (b_RHS m') 0%R = nth (Z.to_nat (natural_id (gr (geom (b_grid m))) c)) (b_RHS m) 0%R }.
Lemma twin_core r h ee m m' n n' : core n = core m -> core n' = core m' -> twin r h ee m m' -> twin r h ee n n'.
Proof.
  intros C C' [T M G P H]. destruct (core_fields _ _ C) as (E1 & E2 & E3 & E4 & E5 & E6 & E7 & E8 & E9 & E10 & E11). destruct (core_fields _ _ C') as (F1 & F2 & F3 & F4 & F5 & F6 & F7 & F8 & F9 & F10 & F11).
  constructor; try congruence; [unfold muB in *; congruence|]. rewrite E1, E11, F11. exact H.
Qed.
Lemma tw_inv r h ee m m' : twin r h ee m m' -> (/ muB m' = / ee * / muB m)%R.
Proof. intros T. rewrite (tw_k _ _ _ _ _ T). apply Rinv_mult. Qed.

Section twins.
Context (r : bool * bool * bool) (m m' : bo R) (h ee : R) (TW : twin r h ee m m').
Context (x y z : nat) (u : bool) (dx dy dz : dinput R) (K : model m x y z u dx dy dz).
Context (x' y' z' : nat) (u' : bool) (dx' dy' dz' : dinput R) (K' : model m' x' y' z' u' dx' dy' dz').
Notation g := (gr (geom (b_grid m))).
Notation N := (length (b_ids m)).
Notation nid := (natural_id g).
Notation tn := (turn g r).
Notation wfg := (md_wf K).
Notation hfg := (md_flow _ _ _ _ _ _ _ _ K).
Lemma tw_shape : gr (geom (b_grid m')) = g.
Proof. apply (al_shape _ _ _ _ _ (tw_rock _ _ _ _ _ TW)). Qed.
Lemma tw_ids : b_ids m' = b_ids m.
Proof. pose proof (md_ids _ _ _ _ _ _ _ _ K) as E. pose proof (md_ids _ _ _ _ _ _ _ _ K') as E'. rewrite tw_shape in E'. congruence. Qed.
Lemma tr_turned c c' : interior g c -> linked g c c' -> tr m' (nid (tn c)) (nid (tn c')) = tr m (nid c) (nid c').
Proof.
  intros I L. destruct (tr_link K c c' I L) as (_ & _ & _ & _ & iso & a & Ei & Fa & A & ->).
  pose proof (tr_link K' (tn c) (tn c')) as Q. rewrite tw_shape in Q. destruct Q as (_ & _ & _ & _ & iso' & a' & Ei' & Fa' & A' & ->); [now apply turn_interior; auto using wfg|now apply turn_linked|].
  assert (a' = a) as ->. { apply (axis_unique a' a (tn c) (tn c') A'). now apply turn_adjacent. }
  rewrite <- (iso_turned r h ee _ _ _ _ _ _ _ _ _ _ _ _ _ _ _ _ iso iso' (md_rock _ _ _ _ _ _ _ _ K) (md_rock _ _ _ _ _ _ _ _ K') (tw_rock _ _ _ _ _ TW) hfg Ei Ei').
  pose proof (al_e _ _ _ _ _ (tw_rock _ _ _ _ _ TW)) as He. unfold Rdiv. rewrite (tw_inv _ _ _ _ _ TW).
  rewrite (Gf_turned r h ee _ _ _ _ _ _ _ _ _ (md_rock _ _ _ _ _ _ _ _ K) _ _ _ _ _ _ _ (md_rock _ _ _ _ _ _ _ _ K') (tw_rock _ _ _ _ _ TW)); auto; [|apply interior_in_grid; auto using wfg|eapply (linked_grid K); eauto].
  rewrite <- (Rmult_assoc (ee * _)), (Rmult_comm ee), (Rmult_assoc _ ee), Rinv_r by lra. ring.
Qed.
Lemma z_turned c : in_grid g c -> forall zs zs', gz m = Ok zs -> gz m' = Ok zs' -> pyget zs' (nid (tn c)) = let* v := pyget zs (nid c) in Ok (v + h)%R.
Proof.
  intros I zs zs' E E'. pose proof (al_z _ _ _ _ _ (tw_rock _ _ _ _ _ TW) c I) as A. unfold held in A. unfold gz in E, E'. rewrite E, E' in A. exact A.
Qed.
Lemma height_turned c : in_grid g c -> height (m := m') (nid (tn c)) = (height (m := m) (nid c) + h)%R.
Proof.
  intros I. unfold height. destruct (md_z _ _ _ _ _ _ _ _ K) as (zs & Ez & Lz), (md_z _ _ _ _ _ _ _ _ K') as (zs' & Ez' & Lz'). rewrite Ez, Ez'. rewrite (z_turned c I zs zs' Ez Ez').
  destruct (pyget zs (nid c)) as [v|] eqn:E; [reflexivity|]. exfalso. pose proof (in_pad K c I) as P.
  destruct zs as [|d zs]; [cbn [length] in Lz; lia|]. rewrite <- (Z2Nat.id (nid c)), (pyget_nth _ _ d) in E by lia. discriminate.
Qed.
Lemma acc_turned p p' c : interior g c -> nth_error (b_ids m) p = Some (nid c) -> nth_error (b_ids m') p' = Some (nid (tn c)) -> acc m' p' = acc m p.
Proof. intros I E E'. rewrite (acc_ok K p _ E), (acc_ok K' p' _ E'). now apply (tw_rhs _ _ _ _ _ TW). Qed.
(** The flow out of a cell as a sum over the cells next to it. *)
Definition hv (mm : bo R) (v : bool) (id : Z) : R := if v then 0%R else (b_g mm * height (m := mm) id)%R.
End twins.
Lemma flux_cells m x y z u dx dy dz (K : model m x y z u dx dy dz) v p c (F : Z -> R) : let g := gr (geom (b_grid m)) in
  v = false \/ ~ three_d g -> interior g c -> nth_error (b_ids m) p = Some (natural_id g c) ->
  flux (length (b_ids m)) (Cp m v) (fun q => F (nth q (b_ids m) 0%Z) - wt m v q)%R p =
  sumR (map (fun j => tr m (natural_id g c) j * ((F j - hv m v j) - (F (natural_id g c) - hv m v (natural_id g c))))%R (map (natural_id g) (filter (interiorb g) (adjs g c)))).
Proof.
  intros g V I E. destruct (nbs_ok K c I) as (nb & _ & E1 & E2). fold g in E1, E2. rewrite <- E2, <- E1.
  rewrite (nbs_sum K p _ (fun j => (F j - hv m v j) - (F (natural_id g c) - hv m v (natural_id g c)))%R E). unfold flux. apply rsum_ext. intros q Hq.
  assert (Hp : p < length (b_ids m)) by (apply nth_error_Some; congruence).
  assert (EC : Cp m v p q = scoup m p q) by (destruct v; cbn; auto; destruct V as [V|V]; [discriminate|]; symmetry; apply (scoup_coupling K p q); auto; lia). rewrite EC.
  rewrite (nth_error_nth _ _ _ E). destruct v; cbn [wt hv]; auto. unfold weight. now rewrite (nth_error_nth _ _ _ E).
Qed.
Section twins2.
Context (r : bool * bool * bool) (m m' : bo R) (h ee : R) (TW : twin r h ee m m').
Context (x y z : nat) (u : bool) (dx dy dz : dinput R) (K : model m x y z u dx dy dz).
Context (x' y' z' : nat) (u' : bool) (dx' dy' dz' : dinput R) (K' : model m' x' y' z' u' dx' dy' dz').
Notation g := (gr (geom (b_grid m))).
Notation N := (length (b_ids m)).
Notation nid := (natural_id g).
Notation tn := (turn g r).
Notation wfg := (md_wf K).
Notation ti := (tid g r).
Notation IG := (interior_in_grid _ _ wfg).
Notation shape := (tw_shape r m m' h ee TW).
Lemma ti_in id : In id (b_ids m) -> In (ti id) (b_ids m).
Proof. intros H. apply (cell_of K) in H as (c & I & ->). rewrite tid_nid by (apply IG, I). apply (id_of K). apply turn_interior; auto using wfg. Qed.
Lemma flux_turned v p p' c (F' : Z -> R) : v = false \/ ~ three_d g -> interior g c -> nth_error (b_ids m) p = Some (nid c) -> nth_error (b_ids m') p' = Some (nid (tn c)) ->
  flux (length (b_ids m')) (Cp m' v) (fun q => F' (nth q (b_ids m') 0%Z) - wt m' v q)%R p' = flux N (Cp m v) (fun q => F' (ti (nth q (b_ids m) 0%Z)) - wt m v q)%R p.
Proof.
  intros V I E E'. rewrite (flux_cells m x y z u dx dy dz K v p c (fun j => F' (ti j)) V I E).
  pose proof (flux_cells m' x' y' z' u' dx' dy' dz' K' v p' (tn c) F') as Q. cbn zeta in Q. rewrite shape in Q. rewrite Q; auto; [|now apply turn_interior; auto using wfg]. clear Q.
  rewrite (sum_turned g r (interiorb g)); auto using wfg; [|intros d; now apply turn_interiorb, wfg].
  rewrite !map_map. f_equal. apply map_ext_in. intros d Hd. apply filter_In in Hd as (Hd & Id). apply interiorb_true in Id. apply in_adjs in Hd.
  rewrite (tr_turned r m m' h ee TW x y z u dx dy dz K x' y' z' u' dx' dy' dz' K' c d I Hd). rewrite !tid_nid by (apply IG; auto). unfold hv. rewrite !(height_turned r m m' h ee TW x y z u dx dy dz K x' y' z' u' dx' dy' dz' K') by (apply IG; auto).
  rewrite (tw_g _ _ _ _ _ TW). destruct v; [reflexivity|]. f_equal. ring.
Qed.
Lemma bns_turned c (F : Z -> R) : interior g c -> sumR (map F (bns m' (nid (tn c)))) = sumR (map (fun j => F (ti j)) (bns m (nid c))).
Proof.
  intros I. destruct (bns_ok K c I) as (nb & _ & -> & ->). pose proof (bns_ok K' (tn c)) as Q. rewrite shape in Q. destruct Q as (nb' & _ & -> & ->); [now apply turn_interior; auto using wfg|].
  rewrite (sum_turned g r (fun d => negb (interiorb g d))); auto using wfg; [|intros d; now rewrite turn_interiorb by apply wfg].
  rewrite !map_map. f_equal. apply map_ext_in. intros d Hd. apply filter_In in Hd as (Hd & _). apply in_adjs in Hd. rewrite tid_nid; auto. eapply (linked_grid K); eauto.
Qed.
(** The equation of the turned step, read on [m]. *)
Lemma turned_eq v ma mb sa sb prow rrow p id : v = false \/ ~ three_d g -> stepped m' v ma mb sa sb prow rrow -> nth_error (b_ids m) p = Some id ->
  exists old, (b_cmp m = true -> value (last (s_p sa) []) (ti id) = Some old) /\ value prow (ti id) = Some (rv prow (ti id)) /\
  (flux N (Cp m v) (fun q => rv prow (ti (nth q (b_ids m) 0%Z)) - wt m v q) p + (rv rrow (ti id) + sumR (map (fun j => rv rrow (ti j)) (bns m id))) = acc m p * (rv prow (ti id) - old))%R.
Proof.
  intros V S E. assert (I : In id (b_ids m)) by (eapply nth_error_In; eauto). destruct (cell_of K id I) as (c & Ic & ->).
  destruct (stepped_eq m' x' y' z' u' dx' dy' dz' K' _ _ _ _ _ _ _ S) as (_ & yy & old & Yv & Ov & Eq).
  assert (Et : ti (nid c) = nid (tn c)) by (apply tid_nid, IG, Ic). rewrite Et.
  assert (I' : In (nid (tn c)) (b_ids m')) by (rewrite (tw_ids r m m' h ee TW x y z u dx dy dz K x' y' z' u' dx' dy' dz' K'), <- Et; now apply ti_in).
  destruct (In_nth_error _ _ I') as (p' & E'). exists (old p'). split; [intros Cm; apply Ov; auto; now rewrite (tw_cmp _ _ _ _ _ TW)|].
  assert (Rv : rv prow (nid (tn c)) = yy p') by (unfold rv; now rewrite (Yv p' _ E')). rewrite Rv. split; [now apply Yv|].
  specialize (Eq p' _ E'). rewrite (acc_turned r m m' h ee TW x y z u dx dy dz K x' y' z' u' dx' dy' dz' K' p p' c Ic E E') in Eq.
  rewrite <- Eq. rewrite (bns_turned c (rv rrow) Ic). f_equal. rewrite <- (flux_turned v p p' c (rv prow) V Ic E E').
  apply flux_ext; auto; [|apply nth_error_Some; congruence]. intros q Hq. f_equal. destruct (nth_error (b_ids m') q) as [j|] eqn:Ej; [|apply nth_error_None in Ej; lia]. rewrite (nth_error_nth _ _ _ Ej). unfold rv. now rewrite (Yv q j Ej).
Qed.
End twins2.
Lemma grad_char m x y z u dx dy dz (K : model m x y z u dx dy dz) d v q : let g := gr (geom (b_grid m)) in
  face_id m (natural_id g d) -> in_grid g d -> gradient_rate m (natural_id g d) v q ->
  exists c a l, interior g c /\ flows g a /\ face_adjacent a d c /\ fst (edge (m := m) (natural_id g d)) = natural_id g c /\ pyget (gd m a) (natural_id g c) = Ok l /\ q = (snd (edge (m := m) (natural_id g d)) * l * v)%R.
Proof.
  intros g (d' & B & OF & Ed) Id (id & T & a & nb & l & H1 & H2 & H3 & H4 & ->). fold g in B, OF, Ed. apply natural_id_inj in Ed; [subst d'|exact Id|apply B].
  destruct (face_cell _ _ _ _ _ _ _ _ (md_rock _ _ _ _ _ _ _ _ K) (md_flow _ _ _ _ _ _ _ _ K) d B OF) as (a0 & c & iso & Fa & Ic & Ad & Ei & En & EG & Ps). fold g in Fa, Ic, Ad, En, EG.
  assert (Ee : edge (m := m) (natural_id g d) = (id, T)) by (unfold edge; rewrite H1; reflexivity). rewrite Ee. cbn [fst snd].
  change (bgrid m) with g in H2. assert (nb = dirs_of (fun b => if axis_eqb b a0 then [natural_id g c] else [])) as -> by congruence. clear H2.
  assert (Q : a = a0 /\ id = natural_id g c). { pose proof (flow_dash _ _ Fa) as Na. destruct a, a0; cbn in H3; try congruence; intuition. }
  destruct Q as (-> & ->). exists c, a0, l. auto 8.
Qed.
Section rates.
Context (r : bool * bool * bool) (m m' : bo R) (h ee : R) (TW : twin r h ee m m').
Context (x y z : nat) (u : bool) (dx dy dz : dinput R) (K : model m x y z u dx dy dz).
Context (x' y' z' : nat) (u' : bool) (dx' dy' dz' : dinput R) (K' : model m' x' y' z' u' dx' dy' dz').
Notation g := (gr (geom (b_grid m))).
Notation nid := (natural_id g).
Notation tn := (turn g r).
Notation wfg := (md_wf K).
Notation ti := (tid g r).
Notation IG := (interior_in_grid _ _ wfg).
Notation shape := (tw_shape r m m' h ee TW).
Context (mb mb' : bo R) (C : core mb = core m) (C' : core mb' = core m') (n n' rr rr' : list (fl R)) (F : follows_controls mb n rr) (F' : follows_controls mb' n' rr').
Definition gap (row row' : list (fl R)) (id : Z) : R := (rv row' (ti id) - rv row id)%R.
Lemma well_turned c v v' : wells_scaled ee r mb mb' -> interior g c -> dget (nid c) (b_bdict mb) = None -> dget (nid (tn c)) (b_bdict mb') = None -> value n (nid c) = Some v -> value n' (nid (tn c)) = Some v' ->
  (exists k, (0 <= k)%R /\ gap rr rr' (nid c) = (- k * (v' - v))%R) /\ (forall w G p, dget (nid c) (b_wells mb) = Some w -> at_bhp w G p -> (0 < G)%R -> exists k, (0 < k)%R /\ gap rr rr' (nid c) = (- k * (v' - v))%R).
Proof.
  intros W I B B' V V'. unfold gap. rewrite tid_nid by (apply IG, I). pose proof (md_mu _ _ _ _ _ _ _ _ K) as Hmu. pose proof (md_B _ _ _ _ _ _ _ _ K) as HB.
  assert (HP : (0 < / (b_B m * b_mu m))%R) by (apply Rinv_0_lt_compat, Rmult_lt_0_compat; auto).
  assert (J : In (nid c) (b_ids m)) by (apply (id_of K), I). assert (J' : In (nid (tn c)) (b_ids m')).
  { rewrite (tw_ids r m m' h ee TW x y z u dx dy dz K x' y' z' u' dx' dy' dz' K'). apply (id_of K). apply turn_interior; auto using wfg. }
  unfold wells_scaled in W. destruct (core_fields _ _ C) as (Cg & _). rewrite Cg in W. specialize (W c I).
  destruct (dget (nid c) (b_wells mb)) as [w|] eqn:E, (dget (nid (tn c)) (b_wells mb')) as [w'|] eqn:E'; try contradiction.
  - destruct W as [(q & A & A')|(G & p & A & A' & Gp)].
    + rewrite (well_rate m x y z u dx dy dz K mb n rr (nid c) q), (well_rate m' x' y' z' u' dx' dy' dz' K' mb' n' rr' (nid (tn c)) q); auto; try (unfold well_gives; rewrite E'; exact A'); try (unfold well_gives; rewrite E; exact A). split; [exists 0%R; lra|].
      intros w0 G p [= <-] A0 _. destruct A as (Q & _), A0 as (Q' & _). congruence.
    + rewrite (well_rate_bhp m mb n rr (nid c) w G p v), (well_rate_bhp m' mb' n' rr' (nid (tn c)) w' (ee * G)%R p v'); auto.
      assert (Hk : (ee * G / (b_B m' * b_mu m') = G / (b_B m * b_mu m))%R).
      { pose proof (tw_inv _ _ _ _ _ TW) as Q. unfold muB in Q. cbn in Q. rewrite (Rmult_comm (b_B m')), (Rmult_comm (b_B m)). unfold Rdiv. rewrite Q. pose proof (al_e _ _ _ _ _ (tw_rock _ _ _ _ _ TW)). field. repeat split; lra. }
      rewrite Hk. split.
      * exists (G / (b_B m * b_mu m))%R. split; [apply Rmult_le_pos; lra|ring].
      * intros w0 G' p' [= <-] A0 G0. assert (G' = G) by (destruct A as (_ & _ & Q), A0 as (_ & _ & Q'); congruence). subst G'. exists (G / (b_B m * b_mu m))%R. split; [apply Rmult_lt_0_compat; lra|ring].
  - rewrite (well_rate m x y z u dx dy dz K mb n rr (nid c) 0), (well_rate m' x' y' z' u' dx' dy' dz' K' mb' n' rr' (nid (tn c)) 0); auto; try (unfold well_gives; now rewrite E'); try (unfold well_gives; now rewrite E). split; [exists 0%R; lra|]. intros w G p Q. discriminate.
Qed.
Lemma cond_turned c d v v' : conditions_turned r mb mb' -> conditioned mb -> interior g c -> boundary_cell g d -> linked g c d -> dget (nid d) (b_wells mb) = None -> dget (nid (tn d)) (b_wells mb') = None -> value n (nid c) = Some v -> value n' (nid (tn c)) = Some v' ->
  (exists k, (0 <= k)%R /\ gap rr rr' (nid d) = (- k * (v' - v))%R) /\ (forall p, dget (nid d) (b_bdict mb) = Some ("pressure"%string, p) -> exists k, (0 < k)%R /\ gap rr rr' (nid d) = (- k * (v' - v))%R).
Proof.
  intros W Cd I B L Nw Nw' V V'. unfold gap. rewrite tid_nid by apply B.
  assert (Ic' : interior g (tn c)) by (apply turn_interior; auto using wfg). assert (B' : boundary_cell g (tn d)) by (apply turn_boundary; auto using wfg). assert (L' : linked g (tn c) (tn d)) by now apply turn_linked.
  assert (J : In (nid c) (b_ids m)) by (apply (id_of K), I). assert (J' : In (nid (tn c)) (b_ids m')).
  { rewrite (tw_ids r m m' h ee TW x y z u dx dy dz K x' y' z' u' dx' dy' dz' K'). now apply (id_of K). }
  assert (D : In (nid d) (bns m (nid c))) by (apply (in_bns K c); eauto). assert (D' : In (nid (tn d)) (bns m' (nid (tn c)))) by (pose proof (in_bns K' (tn c) (nid (tn d))) as Q; rewrite shape in Q; apply Q; eauto).
  pose proof (bns_face K _ _ J D) as Fb. pose proof (bns_face K' _ _ J' D') as Fb'.
  destruct (edge_bns K _ _ Fb J) as (Q1 & Q2). destruct (edge_bns K' _ _ Fb' J') as (Q1' & Q2'). apply Q1 in D as Q3. apply Q1' in D' as Q3'.
  assert (ET : snd (edge (m := m') (nid (tn d))) = snd (edge (m := m) (nid d))) by (rewrite <- Q2, <- Q2' by auto; exact (tr_turned r m m' h ee TW x y z u dx dy dz K x' y' z' u' dx' dy' dz' K' c d I L)).
  destruct (edge_face K _ Fb) as (_ & Tp & _).
  unfold conditions_turned in W. destruct (core_fields _ _ C) as (Cg & _). rewrite Cg in W. specialize (W d B).
  destruct (dget (nid d) (b_bdict mb)) as [e|] eqn:E.
  - pose proof (Cd _ (dget_In _ _ _ E)) as Ce. cbn [fst snd] in Ce. destruct e as [cond p]. cbn [fst snd] in Ce. destruct Ce as [->|[Ce|Ce]].
    + destruct (bound_rate_p m x y z u dx dy dz K mb n rr (nid d) (nid c) p v C F J D E V) as (zs & hd & Z0 & D0 & ->).
      destruct (bound_rate_p m' x' y' z' u' dx' dy' dz' K' mb' n' rr' (nid (tn d)) (nid (tn c)) p v' C' F' J' D' W V') as (zs' & hd' & Z0' & D0' & ->).
      assert (hd' = hd) as ->.
      { unfold entry_of in D0, D0'. rewrite (z_turned r m m' h ee TW d (proj1 B) zs zs' Z0 Z0'), (z_turned r m m' h ee TW c (IG I) zs zs' Z0 Z0') in D0'. destruct (pyget zs (nid d)) as [v1|], (pyget zs (nid c)) as [v2|]; cbn [rbind] in D0, D0'; try discriminate. cbn in D0, D0'. injection D0 as <-. injection D0' as <-. ring. }
      rewrite ET, (tw_g _ _ _ _ _ TW). split; [|intros _ _]; exists (2 * snd (edge (m := m) (nid d)))%R; (split; [lra|ring]).
    + rewrite (bound_rate m x y z u dx dy dz K mb n rr (nid d) p), (bound_rate m' x' y' z' u' dx' dy' dz' K' mb' n' rr' (nid (tn d)) p); auto; try (unfold bound_gives; first [rewrite E|rewrite W]; left; auto).
      split; [exists 0%R; lra|]. intros q [= -> ->]. discriminate.
    + destruct (proj1 (proj2 (proj2 (proj2 F))) _ _ _ (dget_In _ _ _ E) Ce) as (q & Gq & Eq). destruct (proj1 (proj2 (proj2 (proj2 F'))) _ _ _ (dget_In _ _ _ W) Ce) as (q' & Gq' & Eq').
      assert (G1 : gradient_rate m (nid d) p q) by (unfold gradient_rate in Gq |- *; rewrite (core_trans _ _ _ _ C) in Gq; unfold bgrid, gd in *; now rewrite Cg in Gq).
      assert (G2 : gradient_rate m' (nid (tn d)) p q') by (unfold gradient_rate in Gq' |- *; rewrite (core_trans _ _ _ _ C') in Gq'; destruct (core_fields _ _ C') as (Cg' & _); unfold bgrid, gd in *; now rewrite Cg' in Gq').
      destruct (grad_char m x y z u dx dy dz K d p q Fb (proj1 B) G1) as (c1 & a1 & l1 & I1 & Fa1 & A1 & Ec1 & P1 & ->).
      pose proof (grad_char m' x' y' z' u' dx' dy' dz' K' (tn d) p q') as X. cbn zeta in X. rewrite shape in X. destruct (X Fb' (proj1 B') G2) as (c2 & a2 & l2 & I2 & Fa2 & A2 & Ec2 & P2 & ->).
      rewrite Q3 in Ec1. apply natural_id_inj in Ec1; [|apply IG; auto|apply IG; auto]. rewrite Q3' in Ec2. apply natural_id_inj in Ec2; [|apply IG; auto|apply IG; auto]. subst c1 c2.
      assert (a2 = a1) as -> by (apply (axis_unique a2 a1 (tn d) (tn c) A2); now apply turn_adjacent).
      assert (l2 = l1) as ->.
      { pose proof (al_d _ _ _ _ _ (tw_rock _ _ _ _ _ TW) a1 c (flow_dash _ _ Fa1) (IG I)) as X1. unfold get_cell_d, cell_lookup in X1. unfold gd in P1, P2. rewrite P1, P2 in X1. congruence. }
      unfold rv. rewrite Eq, Eq', ET. split; [exists 0%R; lra|]. intros q [= -> ->]. discriminate.
  - rewrite (bound_rate m x y z u dx dy dz K mb n rr (nid d) 0), (bound_rate m' x' y' z' u' dx' dy' dz' K' mb' n' rr' (nid (tn d)) 0); auto; try (unfold bound_gives; first [rewrite E|rewrite W]; reflexivity).
    split; [exists 0%R; lra|]. intros q Q. discriminate.
Qed.
End rates.

Lemma sumR_diff {A} (f h : A -> R) l : sumR (map (fun a => f a - h a)%R l) = (sumR (map f l) - sumR (map h l))%R.
Proof. induction l as [|a l IH]; cbn [map sumR]; [lra|]. rewrite IH. lra. Qed.
Section step.
Context (r : bool * bool * bool) (m m' : bo R) (h ee : R) (TW : twin r h ee m m').
Context (x y z : nat) (u : bool) (dx dy dz : dinput R) (K : model m x y z u dx dy dz).
Context (x' y' z' : nat) (u' : bool) (dx' dy' dz' : dinput R) (K' : model m' x' y' z' u' dx' dy' dz').
Notation g := (gr (geom (b_grid m))).
Notation N := (length (b_ids m)).
Notation nid := (natural_id g).
Notation tn := (turn g r).
Notation wfg := (md_wf K).
Notation ti := (tid g r).
Notation IG := (interior_in_grid _ _ wfg).
Notation shape := (tw_shape r m m' h ee TW).
Lemma row_full m1 v ma mb sa sb n rr id : stepped m1 v ma mb sa sb n rr -> (0 <= id < Z.of_nat (get_n (gr (geom (b_grid m1))) true))%Z -> exists q, value rr id = Some q.
Proof.
  intros S I. destruct (sp_rows _ _ _ _ _ _ _ _ S) as (o & _ & _ & yy & Cx & wx & _ & _ & _ & Hw & Hb & Hn & _). destruct (core_fields _ _ (sp_ca _ _ _ _ _ _ _ _ S)) as (Cg & _).
  destruct (in_dec Z.eq_dec id (dkeys (b_wells ma))) as [W|W]; [destruct (Hw id W) as (w' & _ & Q & _); eauto|].
  destruct (in_dec Z.eq_dec id (dkeys (b_bdict ma))) as [B|B].
  - unfold dkeys in B. apply in_map_iff in B as (e & <- & B). eexists. exact (Hb e B).
  - exists 0%R. apply Hn; auto; [lia|rewrite Cg; lia].
Qed.
Lemma turn_step v ma mb sa sb n rr ma' mb' sa' sb' n' rr' :
  stepped m v ma mb sa sb n rr -> stepped m' v ma' mb' sa' sb' n' rr' -> wells_scaled ee r mb mb' -> conditions_turned r mb mb' -> conditioned mb ->
  (b_cmp m = true /\ row_turned g r (last (s_p sa) []) (last (s_p sa') []) /\ (v = false \/ ~ three_d g) \/ b_cmp m = false /\ anchored mb /\ (v = false \/ ~ three_d g)) ->
  row_turned g r n n' /\ rates_turned g r rr rr'.
Proof.
  intros S0 S1 Hw Hc Cd Hs. assert (V : v = false \/ ~ three_d g) by tauto.
  destruct (stepped_eq m x y z u dx dy dz K _ _ _ _ _ _ _ S0) as (F0 & y0 & o0 & Y0 & O0 & E0). pose proof (proj1 (stepped_eq m' x' y' z' u' dx' dy' dz' K' _ _ _ _ _ _ _ S1)) as F1.
  assert (C0 := sp_cb _ _ _ _ _ _ _ _ S0). assert (C1 := sp_cb _ _ _ _ _ _ _ _ S1). assert (R0 := sp_rb _ _ _ _ _ _ _ _ S0). assert (R1 := sp_rb _ _ _ _ _ _ _ _ S1).
  pose proof (model_core _ _ _ _ _ _ _ _ _ (eq_sym C0) K) as K0. destruct (core_fields _ _ C0) as (Cg0 & Ci0 & _). destruct (core_fields _ _ C1) as (Cg1 & Ci1 & _).
  set (cell := fun p => nth p (b_ids m) 0%Z). set (uu := fun p => (rv n' (ti (cell p)) - y0 p)%R). set (W := gap r m rr rr').
  set (hh := fun p => (W (cell p) + sumR (map W (bns m (cell p))))%R).
  assert (Nbd : forall id, In id (b_ids m) -> dget id (b_bdict mb) = None).
  { intros id I. destruct (dget id (b_bdict mb)) as [e|] eqn:Q; auto. exfalso. apply dget_In in Q. apply (face_facts K0 _ (r_bf _ R0 _ Q)). now rewrite Ci0. }
  assert (Nbd' : forall id, In id (b_ids m') -> dget id (b_bdict mb') = None).
  { intros id I. pose proof (model_core _ _ _ _ _ _ _ _ _ (eq_sym C1) K') as K1. destruct (dget id (b_bdict mb')) as [e|] eqn:Q; auto. exfalso. apply dget_In in Q. apply (face_facts K1 _ (r_bf _ R1 _ Q)). now rewrite Ci1. }
  assert (Nwl : forall idb, face_id m idb -> dget idb (b_wells mb) = None).
  { intros idb Fb. destruct (dget idb (b_wells mb)) as [w|] eqn:Q; auto. exfalso. apply (face_facts K idb Fb). rewrite <- Ci0. apply (r_wi _ R0). apply dget_keys. congruence. }
  assert (Nwl' : forall idb, face_id m' idb -> dget idb (b_wells mb') = None).
  { intros idb Fb. destruct (dget idb (b_wells mb')) as [w|] eqn:Q; auto. exfalso. apply (face_facts K' idb Fb). rewrite <- Ci1. apply (r_wi _ R1). apply dget_keys. congruence. }
  assert (Teq := fun p id => turned_eq r m m' h ee TW x y z u dx dy dz K x' y' z' u' dx' dy' dz' K' v ma' mb' sa' sb' n' rr' p id V S1).
  assert (Vals : forall p c, nth_error (b_ids m) p = Some (nid c) -> interior g c -> value n (nid c) = Some (y0 p) /\ value n' (nid (tn c)) = Some (rv n' (ti (cell p)))).
  { intros p c E Ic. split; [now apply Y0|]. destruct (Teq p _ E) as (old & _ & Vn & _). unfold cell. rewrite (nth_error_nth _ _ _ E). rewrite tid_nid in Vn |- * by (apply IG, Ic). exact Vn. }
  assert (Hwl : forall p c, nth_error (b_ids m) p = Some (nid c) -> interior g c -> (exists k, (0 <= k)%R /\ W (nid c) = (- k * uu p)%R) /\ (forall w G pw, dget (nid c) (b_wells mb) = Some w -> at_bhp w G pw -> (0 < G)%R -> exists k, (0 < k)%R /\ W (nid c) = (- k * uu p)%R)).
  { intros p c E Ic. destruct (Vals p c E Ic) as (V0 & V1). assert (I : In (nid c) (b_ids m)) by (eapply nth_error_In; eauto).
    apply (well_turned r m m' h ee TW x y z u dx dy dz K x' y' z' u' dx' dy' dz' K' mb mb' C0 C1 n n' rr rr' F0 F1 c); auto. apply Nbd'. rewrite (tw_ids r m m' h ee TW x y z u dx dy dz K x' y' z' u' dx' dy' dz' K'). apply (id_of K). now apply turn_interior; auto using wfg. }
  assert (Hbl : forall p c j, nth_error (b_ids m) p = Some (nid c) -> interior g c -> In j (bns m (nid c)) -> (exists k, (0 <= k)%R /\ W j = (- k * uu p)%R) /\ (forall q, dget j (b_bdict mb) = Some ("pressure"%string, q) -> exists k, (0 < k)%R /\ W j = (- k * uu p)%R)).
  { intros p c j E Ic J. destruct (Vals p c E Ic) as (V0 & V1). assert (I : In (nid c) (b_ids m)) by (eapply nth_error_In; eauto). pose proof (bns_face K _ j I J) as Fj. apply (in_bns K c) in J as (d & Bd & L & ->); auto.
    assert (Fd' : face_id m' (nid (tn d))). { destruct Fj as (d2 & Bd2 & OF & Ed). apply natural_id_inj in Ed; [subst d2|apply Bd|apply Bd2]. exists (tn d). rewrite shape. split; [now apply turn_boundary; auto using wfg|]. split; [now apply turn_face|reflexivity]. }
    apply (cond_turned r m m' h ee TW x y z u dx dy dz K x' y' z' u' dx' dy' dz' K' mb mb' C0 C1 n n' rr rr' F0 F1 c d); auto. }
  assert (Hs0 : forall p id, nth_error (b_ids m) p = Some id -> hh p = (W id + sumR (map W (bns m id)))%R) by (intros p id E; unfold hh, cell; now rewrite (nth_error_nth _ _ _ E)).
  assert (H0 : forall p, p < N -> exists k, (0 <= k)%R /\ hh p = (- k * uu p)%R).
  { intros p Hp. destruct (nth_error (b_ids m) p) as [id|] eqn:E; [|apply nth_error_None in E; lia]. rewrite (Hs0 p id E). assert (I : In id (b_ids m)) by (eapply nth_error_In; eauto). destruct (cell_of K id I) as (c & Ic & ->).
    destruct (proj1 (Hwl p c E Ic)) as (k1 & P1 & ->). destruct (sumR_pull W (uu p) (bns m (nid c)) (fun j J => proj1 (Hbl p c j E Ic J))) as (k2 & P2 & ->). exists (k1 + k2)%R. lra. }
  assert (Eq : forall p, p < N -> exists o1, (b_cmp m = true -> value (last (s_p sa') []) (ti (cell p)) = Some o1) /\ (flux N (Cp m v) uu p + hh p = acc m p * (uu p - (o1 - o0 p)))%R).
  { intros p Hp. destruct (nth_error (b_ids m) p) as [id|] eqn:E; [|apply nth_error_None in E; lia]. specialize (E0 p id E). destruct (Teq p id E) as (o1 & Q1 & _ & Q2). exists o1. unfold cell. rewrite (nth_error_nth _ _ _ E). split; auto.
    rewrite (Hs0 p id E). unfold W, gap. rewrite sumR_diff.
    assert (Fd : flux N (Cp m v) uu p = (flux N (Cp m v) (fun q => rv n' (ti (nth q (b_ids m) 0%Z)) - wt m v q) p - flux N (Cp m v) (fun q => y0 q - wt m v q) p)%R).
    { unfold flux. rewrite <- rsum_minus. apply rsum_ext. intros q Hq. unfold uu, cell. ring. }
    rewrite Fd. unfold uu, cell. rewrite (nth_error_nth _ _ _ E). lra. }
  assert (Up : forall p, p < N -> uu p = 0%R).
  { destruct Hs as [(Cm & Bl & _)|(Cm & An & _)].
    - apply (zero_acc N (Cp m v) (Cp_nonneg m x y z u dx dy dz K v) uu (acc m) hh); auto.
      + intros p Hp. pose proof (acc_sign K p Hp) as Q. now rewrite Cm in Q.
      + intros p Hp. destruct (Eq p Hp) as (o1 & Q1 & ->). destruct (nth_error (b_ids m) p) as [id|] eqn:E; [|apply nth_error_None in E; lia]. assert (I : In id (b_ids m)) by (eapply nth_error_In; eauto). destruct (cell_of K id I) as (c & Ic & ->).
        destruct (Bl c Ic) as (v0 & A0 & A1). specialize (Q1 Cm). unfold cell in Q1. rewrite (nth_error_nth _ _ _ E), tid_nid in Q1 by (apply IG, Ic). rewrite (O0 Cm p _ E) in A0. assert (o1 = o0 p) by congruence. subst. lra.
    - assert (Z : forall p, p < N -> acc m p = 0%R) by (intros p Hp; pose proof (acc_sign K p Hp) as Q; now rewrite Cm in Q).
      assert (Pz : exists p0, p0 < N /\ exists k, (0 < k)%R /\ hh p0 = (- k * uu p0)%R).
      { destruct An as [(id & w & G & pw & Ew & At & Gp)|(idb & w & Ib)].
        - assert (I : In id (b_ids m)). { rewrite <- Ci0. apply (r_wi _ R0), dget_keys. congruence. }
          destruct (cell_of K id I) as (c & Ic & ->). destruct (In_nth_error _ _ I) as (p & E). assert (Hp : p < N) by (apply nth_error_Some; congruence). exists p. split; auto. rewrite (Hs0 p _ E).
          destruct (proj2 (Hwl p c E Ic) w G pw Ew At Gp) as (k1 & P1 & ->). destruct (sumR_pull W (uu p) (bns m (nid c)) (fun j J => proj1 (Hbl p c j E Ic J))) as (k2 & P2 & ->). exists (k1 + k2)%R. lra.
        - pose proof (r_bf _ R0 _ Ib) as Fb. cbn [fst] in Fb. destruct (edge_face K0 idb Fb) as (_ & _ & Ie & _). set (id := fst (edge (m := mb) idb)) in *.
          pose proof (proj2 (proj1 (edge_bns K0 idb id Fb Ie)) eq_refl) as J. rewrite (bns_core mb m id C0) in J. rewrite Ci0 in Ie. clearbody id.
          destruct (cell_of K id Ie) as (c & Ic & ->). destruct (In_nth_error _ _ Ie) as (p & E). assert (Hp : p < N) by (apply nth_error_Some; congruence). exists p. split; auto. rewrite (Hs0 p _ E).
          destruct (proj1 (Hwl p c E Ic)) as (k1 & P1 & ->). destruct (sumR_pull_pos W (uu p) (bns m (nid c)) idb (fun j J => proj1 (Hbl p c j E Ic J)) J (proj2 (Hbl p c idb E Ic J) w (dget_In_nodup _ _ _ (r_bk _ R0) Ib))) as (k2 & P2 & ->). exists (k1 + k2)%R. lra. }
      destruct Pz as (p0 & Hp0 & Ps). apply (zero_tied N (Cp m v) (Cp_nonneg m x y z u dx dy dz K v) (Cp_connected m x y z u dx dy dz K v) uu hh p0); auto. intros p Hp. destruct (Eq p Hp) as (o1 & _ & ->). rewrite (Z p Hp). lra. }
  split; [|assert (Same : forall c, in_grid g c -> W (nid c) = 0%R -> exists q, value rr (nid c) = Some q /\ value rr' (nid (tn c)) = Some q)].
  { intros c Ic. pose proof (id_of K c Ic) as I. destruct (In_nth_error _ _ I) as (p & E). assert (Hp : p < N) by (apply nth_error_Some; congruence). exists (y0 p). destruct (Vals p c E Ic) as (V0 & V1). split; auto. rewrite V1. specialize (Up p Hp). unfold uu in Up. f_equal. lra. }
  { intros c Ig Z. assert (Ig' : in_grid g (tn c)) by (apply turn_in_grid; auto using wfg). unfold W, gap in Z. rewrite tid_nid in Z by exact Ig.
    destruct (row_full m v ma mb sa sb n rr (nid c) S0) as (q & Q); [apply natural_id_range; auto using wfg|]. destruct (row_full m' v ma' mb' sa' sb' n' rr' (nid (tn c)) S1) as (q' & Q'); [rewrite shape; apply natural_id_range; auto using wfg|].
    exists q. split; auto. unfold rv in Z. rewrite Q, Q' in Z. rewrite Q'. f_equal. lra. }
  intros c Ig. destruct (interior_dec g c) as [Ic|Ic].
  - apply Same; auto. pose proof (id_of K c Ic) as I. destruct (In_nth_error _ _ I) as (p & E). assert (Hp : p < N) by (apply nth_error_Some; congruence). destruct (proj1 (Hwl p c E Ic)) as (k & _ & ->). rewrite (Up p Hp). lra.
  - assert (Fc : face_id m (nid c) \/ (dget (nid c) (b_bdict mb) = None /\ dget (nid (tn c)) (b_bdict mb') = None)).
    { destruct (dget (nid c) (b_bdict mb)) as [e|] eqn:Q.
      - left. apply dget_In in Q. pose proof (r_bf _ R0 _ Q) as Fb. cbn [fst] in Fb. unfold face_id in *. now rewrite Cg0 in Fb.
      - destruct (dget (nid (tn c)) (b_bdict mb')) as [e|] eqn:Q'; auto. left. apply dget_In in Q'. pose proof (r_bf _ R1 _ Q') as Fb. cbn [fst] in Fb. destruct Fb as (d & Bd & OF & Ed). rewrite Cg1, shape in Bd, OF, Ed.
        apply natural_id_inj in Ed; [subst d|now apply turn_in_grid|apply Bd]. apply turn_face with (r := r) in OF. rewrite turn_invol in OF. exists c. split; [split; auto|auto]. }
    destruct Fc as [Fb|(Nb & Nb')].
    + destruct (edge_face K (nid c) Fb) as (_ & _ & Ie & _). set (id := fst (edge (m := m) (nid c))) in *.
      pose proof (proj2 (proj1 (edge_bns K (nid c) id Fb Ie)) eq_refl) as J. clearbody id.
      destruct (cell_of K id Ie) as (c1 & Ic1 & ->). destruct (In_nth_error _ _ Ie) as (p & E). assert (Hp : p < N) by (apply nth_error_Some; congruence).
      apply Same; auto. destruct (proj1 (Hbl p c1 (nid c) E Ic1 J)) as (k & _ & ->). rewrite (Up p Hp). lra.
    + apply Same; auto. unfold W, gap. rewrite tid_nid by exact Ig. assert (Ig' : in_grid g (tn c)) by (apply turn_in_grid; auto using wfg).
      assert (X0 : rv rr (nid c) = 0%R).
      { apply (no_rate m mb n rr (nid c)); auto; [apply natural_id_range; auto using wfg|].
        destruct (dget (nid c) (b_wells mb)) as [w|] eqn:Q; auto. exfalso. apply Ic. assert (I : In (nid c) (b_ids m)) by (rewrite <- Ci0; apply (r_wi _ R0), dget_keys; congruence). destruct (cell_of K _ I) as (c1 & Ic1 & Ec). apply natural_id_inj in Ec; [now subst|exact Ig|apply IG, Ic1].
        }
      assert (X1 : rv rr' (nid (tn c)) = 0%R).
      { apply (no_rate m' mb' n' rr' (nid (tn c))); auto; [rewrite shape; apply natural_id_range; auto using wfg|].
        destruct (dget (nid (tn c)) (b_wells mb')) as [w|] eqn:Q; auto. exfalso. apply Ic. assert (I : In (nid (tn c)) (b_ids m)) by (rewrite <- (tw_ids r m m' h ee TW x y z u dx dy dz K x' y' z' u' dx' dy' dz' K'), <- Ci1; apply (r_wi _ R1), dget_keys; congruence). destruct (cell_of K _ I) as (c1 & Ic1 & Ec). apply natural_id_inj in Ec; [subst c1|exact Ig'|apply IG, Ic1]. apply turn_interior with (r := r) in Ic1; auto using wfg. now rewrite turn_invol in Ic1.
        }
      lra.
Qed.
End step.

(** ** Histories *)
Lemma wells_scaled_kept ee r m m' n n' : core n = core m -> same_controls m n -> same_controls m' n' -> wells_scaled ee r m m' -> wells_scaled ee r n n'.
Proof.
  intros C S S' W. unfold wells_scaled in *. destruct (core_fields _ _ C) as (-> & _). intros c I. specialize (W c I). cbn zeta in W.
  set (id := natural_id _ c) in *. set (id' := natural_id _ (turn _ r c)) in *. pose proof (controls_get m n id S) as Q. pose proof (controls_get m' n' id' S') as Q'.
  destruct (dget id (b_wells m)), (dget id (b_wells n)), (dget id' (b_wells m')), (dget id' (b_wells n')); try contradiction; auto.
  destruct Q as (Q1 & Q2), Q' as (Q1' & Q2'). destruct W as [(q & A & A')|(G & p & A & A' & Gp)]; [left; exists q; split; [now apply Q1|now apply Q1']|right; exists G, p; split; [now apply Q2|split; [now apply Q2'|auto]]].
Qed.
Lemma conditions_turned_kept r m m' n n' : core n = core m -> same_controls m n -> same_controls m' n' -> conditions_turned r m m' -> conditions_turned r n n'.
Proof. intros C (E & _) (E' & _) W. unfold conditions_turned in *. destruct (core_fields _ _ C) as (-> & _). rewrite E, E'. exact W. Qed.
Section histories.
Context (r : bool * bool * bool) (m m' : bo R) (h ee : R) (TW : twin r h ee m m').
Context (x y z : nat) (u : bool) (dx dy dz : dinput R) (K : model m x y z u dx dy dz).
Context (x' y' z' : nat) (u' : bool) (dx' dy' dz' : dinput R) (K' : model m' x' y' z' u' dx' dy' dz').
Notation g := (gr (geom (b_grid m))).
Lemma turn_history : forall st st', Forall2 same_path st st' -> forall ma sa ma' sa' mb sb mb' sb',
  core ma = core m -> core ma' = core m' -> ready (m := ma) sa -> ready (m := ma') sa' -> wells_scaled ee r ma ma' -> conditions_turned r ma ma' -> conditioned ma ->
  (b_cmp m = true /\ row_turned g r (last (s_p sa) []) (last (s_p sa') []) /\ (Forall (path false) st \/ ~ three_d g) \/ b_cmp m = false /\ anchored ma /\ (Forall (path false) st \/ ~ three_d g)) ->
  all_ok (ma, Some sa) st -> all_ok (ma', Some sa') st' -> along balanced_step (ma, Some sa) st -> along balanced_step (ma', Some sa') st' ->
  after (ma, Some sa) st = (mb, Some sb) -> after (ma', Some sa') st' = (mb', Some sb') ->
  exists P P' Q Q', s_p sb = (s_p sa ++ P)%list /\ s_p sb' = (s_p sa' ++ P')%list /\ Forall2 (row_turned g r) P P' /\
    s_r sb = (s_r sa ++ Q)%list /\ s_r sb' = (s_r sa' ++ Q')%list /\ Forall2 (rates_turned g r) Q Q' /\ length Q = length P.
Proof.
  induction 1 as [|c1 c2 st1 st2 Sp Sps IH]; intros ma1 sa1 ma2 sa2 mb1 sb1 mb2 sb2 C1 C2 R1 R2 Tw Tc Cd Hc A1 A2 L1 L2 E1 E2.
  - injection E1 as <- <-. injection E2 as <- <-. exists [], [], [], []. rewrite !app_nil_r. repeat (split; auto).
  - cbn [all_ok along after fold_left] in *. destruct A1 as (A1 & A1'), A2 as (A2 & A2'), L1 as (L1 & L1'), L2 as (L2 & L2').
    destruct (solve_stepped m x y z u dx dy dz K c1 ma1 sa1 C1 R1 A1 L1) as (slv1 & sc1 & fu1 & spr1 & o1 & mc1 & sc1' & n1 & r1 & Ec1 & F1 & S1 & SC1).
    destruct (solve_stepped m' x' y' z' u' dx' dy' dz' K' c2 ma2 sa2 C2 R2 A2 L2) as (slv2 & sc2 & fu2 & spr2 & o2 & mc2 & sc2' & n2 & r2 & Ec2 & F2 & S2 & SC2).
    rewrite F1 in *. rewrite F2 in *. subst c1 c2. cbn [same_path] in Sp. rewrite <- Sp in S2.
    assert (D1 := sp_cb _ _ _ _ _ _ _ _ S1). assert (D2 := sp_cb _ _ _ _ _ _ _ _ S2).
    assert (Tw' : wells_scaled ee r mc1 mc2) by (apply (wells_scaled_kept ee r ma1 ma2); auto; congruence). assert (Tc' : conditions_turned r mc1 mc2) by (apply (conditions_turned_kept r ma1 ma2); auto; congruence).
    assert (Cd' : conditioned mc1) by (unfold conditioned in *; destruct SC1 as (-> & _); exact Cd).
    assert (Bl : row_turned g r n1 n2 /\ rates_turned g r r1 r2).
    { apply (turn_step r m m' h ee TW x y z u dx dy dz K x' y' z' u' dx' dy' dz' K' (o_vect o1) ma1 mc1 sa1 sc1' n1 r1 ma2 mc2 sa2 sc2' n2 r2); auto.
      destruct Hc as [(Cm & Hc & V)|(Cm & An & V)]; [left|right]; (split; [exact Cm|]).
      - split; auto. destruct V as [V|V]; auto. inversion V; subst. left. auto.
      - split; [now apply (anchored_kept ma1)|]. destruct V as [V|V]; auto. inversion V; subst. left. auto. }
    destruct Bl as (Bl & Br). destruct (IH mc1 sc1' mc2 sc2' mb1 sb1 mb2 sb2) as (P1 & P2 & Y1 & Y2 & Q1 & Q2 & Q3 & Q4 & Q5 & Q6 & Q7); auto; [apply S1|apply S2| |].
    + destruct Hc as [(Cm & Hc & V)|(Cm & An & V)]; [left|right]; (split; [exact Cm|]).
      * rewrite (sp_p _ _ _ _ _ _ _ _ S1), (sp_p _ _ _ _ _ _ _ _ S2), !last_last. split; [exact Bl|]. destruct V as [V|V]; auto. inversion V; subst. auto.
      * split; [now apply (anchored_kept ma1)|]. destruct V as [V|V]; auto. inversion V; subst. auto.
    + exists (n1 :: P1), (n2 :: P2), (r1 :: Y1), (r2 :: Y2). rewrite Q1, Q2, Q4, Q5, (sp_p _ _ _ _ _ _ _ _ S1), (sp_p _ _ _ _ _ _ _ _ S2), (sp_r _ _ _ _ _ _ _ _ S1), (sp_r _ _ _ _ _ _ _ _ S2), <- !app_assoc. cbn [app length]. repeat (split; auto).
Qed.
End histories.

(** ** Models made of grids turned round *)
Lemma pyget_map2 {A B C} (f : A -> B -> C) l l' i d : (0 <= i)%Z -> Z.to_nat i < length l -> Z.to_nat i < length l' -> exists a b, pyget l i = Ok a /\ pyget l' i = Ok b /\ nth (Z.to_nat i) (map2 f l l') d = f a b.
Proof.
  intros P H H'. destruct (nth_error l (Z.to_nat i)) as [a|] eqn:E; [|apply nth_error_None in E; lia]. destruct (nth_error l' (Z.to_nat i)) as [b|] eqn:E'; [|apply nth_error_None in E'; lia].
  exists a, b. rewrite !pyget_nat by auto. rewrite E, E'. split; auto. split; auto. apply nth_error_nth. unfold map2. rewrite nth_error_map.
  assert (Q : nth_error (combine l l') (Z.to_nat i) = Some (a, b)).
  { clear P H H'. revert l l' E E'. induction (Z.to_nat i) as [|k IH]; intros [|a0 l] [|b0 l'] E E'; cbn in *; try discriminate; [congruence|auto]. }
  now rewrite Q.
Qed.
(** The storage coefficients of a model. *)
Lemma rhs_new (o : gobj R) f unit pi dt m x y z u dx dy dz c : bo_new o f unit pi dt = Ok m -> model m x y z u dx dy dz -> b_cmp m = true -> in_grid (gr (geom o)) c ->
  exists vc V phi, (exists uo, set_units uobj0 unit = (uo, Ok tt) /\ factor uo "volume conversion" = Ok vc) /\ pyget (cV (geom o)) (natural_id (gr (geom o)) c) = Ok V /\ held o PHI (natural_id (gr (geom o)) c) = Ok phi /\
    nth (Z.to_nat (natural_id (gr (geom o)) c)) (b_RHS m) 0%R = (V * phi * b_comp m / (vc * b_B m * dt))%R.
Proof.
  intros H K. pose proof (md_RHS _ _ _ _ _ _ _ _ K) as Ln. pose proof (fun c => in_pad K c) as Pad. unfold bo_new in H. destruct (set_units uobj0 unit) as [uo [[]|e]]; [|discriminate].
  destruct (factor uo "transmissibility conversion") as [tc|]; [|discriminate]. cbn [rbind] in H.
  destruct (factor uo "volume conversion") as [vc|] eqn:Ev; [|discriminate]. cbn [rbind] in H.
  destruct (get_cells_id (ggrid o) false) as [ids|]; [|discriminate]. cbn [rbind] in H.
  match type of H with rbind ?t _ = _ => destruct t as [ip|]; [|discriminate] end. cbn [rbind] in H.
  destruct (calc_comp o f) as [[cc b]|]; [|discriminate]. cbn [rbind fst snd] in H.
  destruct (attrE (f_mu f)) as [mu|]; [|discriminate]. cbn [rbind] in H. destruct (attrE (f_B f)) as [B|]; [|discriminate]. cbn [rbind] in H. destruct (attrE (f_g f)) as [gr0|]; [|discriminate]. cbn [rbind] in H.
  destruct (calc_RHS o b cc vc B dt) as [RHS|] eqn:E; [|discriminate]. cbn [rbind] in H.
  injection H as <-. cbn [b_grid b_mu b_B b_g b_cmp b_RHS b_comp] in *. intros -> I.
  pose proof (Pad c I) as P. unfold calc_RHS in E. unfold held. destruct (attrE (att (pget PHI (prs o)))) as [phi|]; [|discriminate]. cbn [rbind] in E |- *.
  set (fn := fun V p => ndiv (nmul (nmul V p) cc) (nmul (nmul vc B) dt)) in *. assert (E1 : RHS = map2 fn (cV (geom o)) phi) by congruence. rewrite E1 in *. clear E E1.
  unfold map2 in Ln. rewrite map_length, combine_length in Ln.
  destruct (pyget_map2 fn (cV (geom o)) phi _ 0%R (proj1 P)) as (v1 & p1 & V1 & P1 & ->); [lia|lia|]. exists vc, v1, p1. split; [exists uo; split; auto|]. auto.
Qed.
Lemma rhs_zero (o : gobj R) f unit pi dt m x y z u dx dy dz i : bo_new o f unit pi dt = Ok m -> model m x y z u dx dy dz -> b_cmp m = false -> nth i (b_RHS m) 0%R = 0%R.
Proof.
  intros H K. unfold bo_new in H. destruct (set_units uobj0 unit) as [uo [[]|e]]; [|discriminate].
  destruct (factor uo "transmissibility conversion") as [tc|]; [|discriminate]. cbn [rbind] in H.
  destruct (factor uo "volume conversion") as [vc|] eqn:Ev; [|discriminate]. cbn [rbind] in H.
  destruct (get_cells_id (ggrid o) false) as [ids|]; [|discriminate]. cbn [rbind] in H.
  match type of H with rbind ?t _ = _ => destruct t as [ip|]; [|discriminate] end. cbn [rbind] in H.
  destruct (calc_comp o f) as [[cc b]|]; [|discriminate]. cbn [rbind fst snd] in H.
  destruct (attrE (f_mu f)) as [mu|]; [|discriminate]. cbn [rbind] in H. destruct (attrE (f_B f)) as [B|]; [|discriminate]. cbn [rbind] in H. destruct (attrE (f_g f)) as [gr0|]; [|discriminate]. cbn [rbind] in H.
  destruct (calc_RHS o b cc vc B dt) as [RHS|] eqn:E; [|discriminate]. cbn [rbind] in H.
  injection H as <-. cbn [b_cmp b_RHS]. intros ->. unfold calc_RHS in E. injection E as <-. apply nth_repeat.
Qed.
Lemma fluid_facts (o : gobj R) f unit pi dt m : bo_new o f unit pi dt = Ok m -> b_grid m = o /\ b_dt m = dt /\ f_mu f = Some (b_mu m) /\ f_B f = Some (b_B m) /\ f_g f = Some (b_g m) /\ calc_comp o f = Ok (b_comp m, b_cmp m).
Proof.
  intros H. unfold bo_new in H. destruct (set_units uobj0 unit) as [uo [[]|e]]; [|discriminate].
  destruct (factor uo "transmissibility conversion") as [tc|]; [|discriminate]. cbn [rbind] in H.
  destruct (factor uo "volume conversion") as [vc|] eqn:Ev; [|discriminate]. cbn [rbind] in H.
  destruct (get_cells_id (ggrid o) false) as [ids|]; [|discriminate]. cbn [rbind] in H.
  match type of H with rbind ?t _ = _ => destruct t as [ip|]; [|discriminate] end. cbn [rbind] in H.
  destruct (calc_comp o f) as [[cc b]|]; [|discriminate]. cbn [rbind fst snd] in H.
  destruct (f_mu f) as [mu|]; [|discriminate]. cbn [attrE rbind] in H. destruct (f_B f) as [B|]; [|discriminate]. cbn [attrE rbind] in H. destruct (f_g f) as [gr0|]; [|discriminate]. cbn [attrE rbind] in H.
  destruct (calc_RHS o b cc vc B dt) as [RHS|] eqn:E; [|discriminate]. cbn [rbind] in H.
  injection H as <-. auto 10.
Qed.
Lemma twin_new r o o' f unit pi pi' dt m m' x y z u dx dy dz x' y' z' u' dx' dy' dz' : turned r o o' -> bo_new o f unit pi dt = Ok m -> bo_new o' f unit pi' dt = Ok m' ->
  model m x y z u dx dy dz -> model m' x' y' z' u' dx' dy' dz' -> twin r 0 1 m m'.
Proof.
  intros T H H' K K'. pose proof (aligned_turned _ _ _ T) as Al. destruct (fluid_facts _ _ _ _ _ _ H) as (G1 & D1 & M1 & B1 & W1 & C1). destruct (fluid_facts _ _ _ _ _ _ H') as (G2 & D2 & M2 & B2 & W2 & C2).
  assert (Cc : calc_comp o' f = calc_comp o f) by (unfold calc_comp; destruct (tn_comp _ _ _ T) as (-> & ->); reflexivity). rewrite Cc, C1 in C2. injection C2 as C2 C3.
  constructor; try congruence; [unfold muB; cbn; rewrite Rmult_1_l; congruence|]. intros c I. rewrite G1 in *. pose proof (fun c => interior_in_grid _ c (rk_wf _ _ _ _ _ _ _ _ (md_rock _ _ _ _ _ _ _ _ K))) as IG. rewrite G1 in IG. specialize (IG _ I). destruct (b_cmp m) eqn:Cm.
  - destruct (rhs_new _ _ _ _ _ _ _ _ _ _ _ _ _ c H K Cm IG) as (vc & V & phi & (uo & U & Fv) & Ev & Ep & ->).
    pose proof (rhs_new _ _ _ _ _ _ _ _ _ _ _ _ _ (turn (gr (geom o)) r c) H' K' (eq_sym C3)) as Q. rewrite (tn_shape _ _ _ T) in Q. destruct (Q (turn_in_grid _ _ _ IG)) as (vc' & V' & phi' & (uo' & U' & Fv') & Ev' & Ep' & ->).
    pose proof (md_rock _ _ _ _ _ _ _ _ K) as Rk. pose proof (md_rock _ _ _ _ _ _ _ _ K') as Rk'. rewrite G1 in Rk. rewrite G2 in Rk'.
    rewrite (cV_turned r 0 1 o o' _ _ _ _ _ _ _ Rk _ _ _ _ _ _ _ Rk' Al c IG) in Ev'. rewrite (tn_a _ _ _ T PHI c IG) in Ep'. assert (vc' = vc) by congruence. assert (V' = V) by congruence. assert (phi' = phi) by congruence. subst. rewrite <- C2. congruence.
  - rewrite (rhs_zero _ _ _ _ _ _ _ _ _ _ _ _ _ _ H K Cm), (rhs_zero _ _ _ _ _ _ _ _ _ _ _ _ _ _ H' K' (eq_sym C3)). reflexivity.
Qed.
Lemma twin_eased ee h o o' f f' unit pi pi' dt dt' m m' x y z u dx dy dz x' y' z' u' dx' dy' dz' : eased ee h o o' -> thicker ee f f' -> bo_new o f unit pi dt = Ok m -> bo_new o' f' unit pi' dt' = Ok m' ->
  model m x y z u dx dy dz -> model m' x' y' z' u' dx' dy' dz' -> b_cmp m' = b_cmp m -> (b_cmp m = true -> same_storage_out m m') -> twin (false, false, false) h ee m m'.
Proof.
  intros T (mu & B & mu' & B' & F1 & F2 & F3 & F4 & F5 & F6) H H' K K' C3 Ss. pose proof (aligned_eased _ _ _ _ T) as Al. destruct (fluid_facts _ _ _ _ _ _ H) as (G1 & D1 & M1 & B1 & W1 & C1). destruct (fluid_facts _ _ _ _ _ _ H') as (G2 & D2 & M2 & B2 & W2 & C2).
  constructor; try congruence. { unfold muB. cbn. replace (b_mu m') with mu' by congruence. replace (b_B m') with B' by congruence. replace (b_mu m) with mu by congruence. replace (b_B m) with B by congruence. exact F5. }
  intros c I. rewrite turn_id. rewrite G1 in *. pose proof (fun c => interior_in_grid _ c (rk_wf _ _ _ _ _ _ _ _ (md_rock _ _ _ _ _ _ _ _ K))) as IG. rewrite G1 in IG. specialize (IG _ I). destruct (b_cmp m) eqn:Cm.
  - destruct (rhs_new _ _ _ _ _ _ _ _ _ _ _ _ _ c H K Cm IG) as (vc & V & phi & (uo & U & Fv) & Ev & Ep & ->).
    pose proof (rhs_new _ _ _ _ _ _ _ _ _ _ _ _ _ c H' K' C3) as Q. rewrite (ea_shape _ _ _ _ T) in Q. destruct (Q IG) as (vc' & V' & phi' & (uo' & U' & Fv') & Ev' & Ep' & ->).
    pose proof (md_rock _ _ _ _ _ _ _ _ K) as Rk. pose proof (md_rock _ _ _ _ _ _ _ _ K') as Rk'. rewrite G1 in Rk. rewrite G2 in Rk'.
    pose proof (cV_turned _ h ee o o' _ _ _ _ _ _ _ Rk _ _ _ _ _ _ _ Rk' Al c IG) as EV. rewrite turn_id, Ev, Ev' in EV. injection EV as ->.
    assert (vc' = vc) by congruence. subst vc'.
    unfold same_storage_out in Ss. rewrite G1 in Ss. destruct (Ss eq_refl c I) as (v & (p1 & S1 & E1) & (p2 & S2 & E2)). rewrite G1 in S1. rewrite G2, (ea_shape _ _ _ _ T) in S2. assert (p1 = phi) by congruence. assert (p2 = phi') by congruence. subst p1 p2.
    rewrite D1 in E1. rewrite D2 in E2.
    replace (V * phi' * b_comp m' / (vc * b_B m' * dt'))%R with (V / vc * (phi' * b_comp m' / (b_B m' * dt')))%R. 2:{ unfold Rdiv. rewrite !Rinv_mult. ring. }
    replace (V * phi * b_comp m / (vc * b_B m * dt))%R with (V / vc * (phi * b_comp m / (b_B m * dt)))%R. 2:{ unfold Rdiv. rewrite !Rinv_mult. ring. } congruence.
  - rewrite (rhs_zero _ _ _ _ _ _ _ _ _ _ _ _ _ _ H K Cm), (rhs_zero _ _ _ _ _ _ _ _ _ _ _ _ _ _ H' K' C3). reflexivity.
Qed.
Lemma twin_raised h o o' f f' unit pi pi' dt dt' m m' x y z u dx dy dz x' y' z' u' dx' dy' dz' : raised h o o' -> flow_alike f f' -> bo_new o f unit pi dt = Ok m -> bo_new o' f' unit pi' dt' = Ok m' ->
  model m x y z u dx dy dz -> model m' x' y' z' u' dx' dy' dz' -> b_cmp m' = b_cmp m -> (b_cmp m = true -> same_storage m m') -> twin (false, false, false) h 1 m m'.
Proof.
  intros T (F1 & F2 & F3) H H' K K' C3 Ss. destruct (fluid_facts _ _ _ _ _ _ H) as (G1 & D1 & M1 & B1 & W1 & C1). destruct (fluid_facts _ _ _ _ _ _ H') as (G2 & D2 & M2 & B2 & W2 & C2).
  apply (twin_eased 1 h o o' f f' unit pi pi' dt dt' m m' x y z u dx dy dz x' y' z' u' dx' dy' dz'); auto using raised_eased.
  - exists (b_mu m), (b_B m), (b_mu m'), (b_B m'). repeat (split; [assumption|]). split; [|assumption]. replace (b_mu m') with (b_mu m) by congruence. replace (b_B m') with (b_B m) by congruence. ring.
  - intros Cm c I. destruct (Ss Cm c I) as (v & (p1 & S1 & E1) & (p2 & S2 & E2)). exists (v / b_B m)%R. assert (EB : b_B m' = b_B m) by congruence.
    split; [exists p1|exists p2]; (split; [assumption|]); [rewrite E1|rewrite E2, EB]; unfold Rdiv; rewrite Rinv_mult; ring.
Qed.
Lemma wells_one r m m' : wells_turned r m m' -> wells_scaled 1 r m m'.
Proof.
  intros W c I. specialize (W c I). cbn zeta in W. destruct (dget _ (b_wells m)) as [w|], (dget _ (b_wells m')) as [w'|]; auto.
  destruct W as [(q & A & A')|(G & p & A & A' & L)]; [left; eauto|right; exists G, p]. now rewrite Rmult_1_l.
Qed.
