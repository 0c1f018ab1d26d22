(** Sums over neighbours, and assembly by either path in a closed model. *)
From Coq Require Import String ZArith Bool Arith List Lia Reals Lra.
From Verif Require Import Prelude PreludeFacts Num GridModel GridSpec GridProofs GeoModel GeoSpec GeoProofs
  PropModel PropSpec MatrixProofs BlackOilModel FdmModel MonadFacts HistSpec InvFacts SumFacts ModelSpec ModelFacts VectFacts FaceFacts AsmFacts BalanceSpec
  StepSpec SolverSpec StepFacts WellStepFacts FdmSpec CanonFacts LinFacts NbrFacts SymbFacts BalFacts FormFacts.
Import ListNotations.
Close Scope R_scope.
Open Scope nat_scope.

Section mix.
Context {m : bo R} {x y z : nat} {u : bool} {dx dy dz : dinput R} (K : model m x y z u dx dy dz).
Notation g := (gr (geom (b_grid m))).
Notation N := (length (b_ids m)).

(** In a closed model the symbolic equations are flow equations of the
    potential. *)
Lemma inflow_closed p id (yy : list R) : closed m -> nth_error (b_ids m) p = Some id ->
  inflow m id (at_cells (m := m) yy) = flux N (scoup m) (fun q => nth q yy 0 - weight (m := m) q)%R p.
Proof.
  intros (C1 & C2 & _) E. unfold inflow. replace (wsrc m id (at_cells (m := m) yy id)) with 0%R by (unfold wsrc; now rewrite C1).
  assert (I : In id (b_ids m)) by (eapply nth_error_In; eauto).
  rewrite (sumR_ext (fun j => bsrc m id j _) (fun _ => 0%R) (bns m id)) by (intros; unfold bsrc; now rewrite C2).
  replace (sumR (map (fun _ => 0%R) (bns m id))) with 0%R by (induction (bns m id); cbn; lra).
  rewrite (nbs_sum K p id (fun j => (at_cells (m := m) yy j - at_cells (m := m) yy id) - b_g m * (height (m := m) j - height (m := m) id))%R E).
  unfold flux. rewrite !Rplus_0_r. apply rsum_ext. intros q Hq. apply Rmult_eq_compat_l.
  assert (Hq' : q < N) by lia. destruct (nth_id q Hq') as (j & Eq & J). unfold weight. rewrite (nth_error_nth _ _ _ Eq), (nth_error_nth _ _ _ E). unfold at_cells, pos.
  rewrite (cell_i_ok K q j Eq), (cell_i_ok K p id E). ring.
Qed.

(** What the solution keeps between steps. *)
Definition CI (s : fs R) : Prop := shaped s /\ TI (m := m) m /\
  (s_sym s = None \/ exists A d, s_sym s = Some (A, d) /\ banded (m := m) A /\ length d = N) /\ (s_A s = None \/ DI3 (m := m) s).
Lemma system_closed sc o s X A d : closed m -> CI s -> o_print o = false -> (o_vect o = true \/ (o_thr o = false /\ forall id, sc id <> 0%R)) ->
  get_system sc o (m, s) = (X, Ok (A, d)) ->
  (exists T, fst X = set_terms T m /\ TI (m := m) (set_terms T m)) /\ CI (snd X) /\ (s_tstep (snd X) = s_tstep s /\ s_p (snd X) = s_p s /\ s_r (snd X) = s_r s) /\
  exists Cp w, (forall p q, p < N -> q < N -> (0 <= Cp p q)%R) /\ (if o_vect o then forall p, w p = 0%R else w = weight (m := m)) /\
  (b_cmp m = true -> forall p id, nth_error (b_ids m) p = Some id -> forall yy, solves A d yy -> at2 (s_p s) (s_tstep s) id = Ok (Some (oldp (m := m) s p))) /\
  forall yy, solves A d yy -> length yy = N /\ forall p, p < N -> flux N Cp (fun q => nth q yy 0 - w q)%R p = (acc m p * (nth p yy 0 - oldp (m := m) s p))%R.
Proof.
  intros Cl (Sh & Ti & Sy & Di) Op Ov E. pose proof Cl as (C1 & C2 & C3). pose proof (system_pub sc o (m, s)) as Pb. rewrite E in Pb. unfold pub in Pb. cbn [fst snd] in Pb.
  assert (Pr : results (snd X) = results s) by congruence. unfold results in Pr.
  assert (Rp : s_p (snd X) = s_p s) by congruence. assert (Rr : s_r (snd X) = s_r s) by congruence. assert (Rt : s_tstep (snd X) = s_tstep s) by congruence. clear Pb Pr.
  assert (Sh' : shaped (snd X)) by (unfold shaped in *; now rewrite Rp, Rr, Rt).
  unfold get_system in E. rewrite Op in E. destruct (o_vect o) eqn:Ev.
  - assert (Wk : NoDup (dkeys (b_wells m))) by (rewrite C1; constructor).
    assert (Ws : forall id w, dget id (b_wells m) = Some w -> settled w) by (rewrite C1; discriminate).
    assert (Bk : NoDup (dkeys (b_bdict m))) by (rewrite C2; constructor).
    assert (Bf : forall e, In e (b_bdict m) -> face_id m (fst e)) by (rewrite C2; intros e []).
    assert (Bu : b_bup m = pressured (b_bdict m)) by (rewrite C3, C2; reflexivity).
    assert (Lv : level m \/ forall id w, dget id (b_wells m) = Some w -> con w <> "q"%string) by (right; rewrite C1; discriminate).
    destruct (assemble K Wk Ws Bk Bf Bu Lv s X A d ltac:(right; exact Di) E) as (G1 & G2 & G3 & G4 & _ & G5).
    assert (Q := vect_sym (s_sym s) (m, s) eq_refl). rewrite E in Q. cbn [fst] in Q.
    split; [exists (b_terms m); replace (set_terms (b_terms m) m) with m by (destruct m; reflexivity); auto|]. split; [split; auto; split; auto; split; [now rewrite Q|now right]|]. split; auto.
    exists (coupling m), (fun _ => 0%R). split; [intros; now apply (cp_nonneg K)|]. split; [auto|].
    assert (V : forall yy, solves A d yy -> vals (m := m) d (times A yy)) by (intros yy (_ & L & S); destruct G4 as (G4 & _); rewrite G4 in *; split; auto).
    split.
    + intros Cm p id Ep yy S. destruct (G5 _ (V yy S)) as (_ & F & _). now apply F.
    + intros yy S. split; [destruct S as (S & _); destruct G4 as (G4 & _); congruence|]. intros p Hp. destruct (G5 _ (V yy S)) as (F & _ & _). specialize (F p Hp).
      rewrite (times_form K A _ yy p G4 Hp) in F. rewrite C1, C2, C3 in F. unfold over in F. cbn [map sumR dkeys] in F.
      replace (flux N (coupling m) (fun q => nth q yy 0 - 0)%R p) with (flux N (coupling m) (fun q => nth q yy 0)%R p) by (apply rsum_ext; intros; ring). lra.
  - destruct Ov as [Ov|(Ot & Sc)]; [discriminate|]. rewrite Ot in E.
    assert (Pd : productive m) by (intros id w G; rewrite C1; discriminate).
    assert (Lk : like (m := m) m) by (exists (b_terms m); split; auto; now destruct m).
    destruct (symbolic K Pd sc s X A d Sc Lk ltac:(right; exact Sy) E) as ((T & G1 & G1') & G2 & G3 & G4 & G5 & G6 & G7).
    split; [exists T; rewrite G1 in G1'; auto|]. split.
    { split; auto. split; auto. split; [right; exists A, d; rewrite G2; destruct s; auto|]. rewrite G2. destruct Di as [Di|Di]; [left; destruct s; auto|right]. destruct s. exact Di. }
    split; auto. exists (scoup m), (weight (m := m)). split; [intros; now apply (scoup_sym K)|]. split; auto. split.
    + intros Cm p id Ep yy _. assert (I : In id (b_ids m)) by (eapply nth_error_In; eauto). rewrite (G5 Cm id I). unfold oldv, oldp. now rewrite Ep.
    + intros yy S. assert (Ly : length yy = N) by (destruct S as (S & _); destruct G3 as (G3 & _); congruence). split; auto.
      intros p Hp. destruct (nth_id p Hp) as (id & Ep & I). pose proof (proj1 (G7 yy Ly) S id I) as Q. rewrite (inflow_closed p id yy Cl Ep) in Q. rewrite Q.
      unfold uptake. rewrite (acc_ok K p id Ep). fold (rhs m id). unfold at_cells, pos. rewrite (cell_i_ok K p id Ep).
      destruct (b_cmp m) eqn:Cm.
      * unfold oldv, oldp. now rewrite Ep.
      * pose proof (acc_sign K p Hp) as Ac. rewrite Cm, (acc_ok K p id Ep) in Ac. unfold rhs. rewrite Ac. ring.
Qed.

(** A whole step. *)
Lemma sym_MB v : inv (fun X : st R => s_sym (snd X) = v) check_MB.
Proof. unfold check_MB. apply i_set. intros [m1 []] [? ?] Hx E. cbn [fst snd] in *. destruct (b_cmp m1); fin; auto. Qed.
Lemma closed_step slv sc fuel sparse o s X : closed m -> CI s -> exact slv -> o_upd o = true -> o_print o = false ->
  (o_vect o = true \/ (o_thr o = false /\ forall id, sc id <> 0%R)) -> solve slv sc fuel sparse o (m, s) = (X, Ok tt) ->
  (exists T, fst X = set_terms T m /\ TI (m := m) (set_terms T m)) /\ CI (snd X) /\ s_tstep (snd X) = S (s_tstep s) /\
  exists prow yy Cp w, s_p (snd X) = s_p s ++ [prow] /\ (forall p id, nth_error (b_ids m) p = Some id -> value prow id = Some (nth p yy 0%R)) /\
  (forall p q, p < N -> q < N -> (0 <= Cp p q)%R) /\ (if o_vect o then forall p, w p = 0%R else w = weight (m := m)) /\
  (b_cmp m = true -> forall p id, nth_error (b_ids m) p = Some id -> value (last (s_p s) []) id = Some (oldp (m := m) s p)) /\
  forall p, p < N -> flux N Cp (fun q => nth q yy 0 - w q)%R p = (acc m p * (nth p yy 0 - oldp (m := m) s p))%R.
Proof.
  intros Cl Ci Ex U Vp Vv E. pose proof Cl as (C1 & C2 & C3). pose proof Ci as (Sh & _).
  destruct fuel as [|fuel]; [discriminate|]. cbn [solve] in E.
  apply mbind_ok in E as ([A d] & [m1 s1] & E1 & E).
  apply mbind_ok in E as (p & X2 & E2 & E). apply mread_ok in E2 as (-> & E2). cbn [fst snd] in E2.
  destruct (pick_solver sparse (o_iso o)) as [k|] eqn:Ek; [|discriminate]. cbn [rbind] in E2.
  rewrite U in E. cbv beta match in E. apply mbind_ok in E as ([] & X3 & E3 & E).
  destruct (system_closed sc o s _ A d Cl Ci Vp Vv E1) as ((T & G1 & G2) & (L' & G3 & G4 & G5) & (Rt & Rp & Rr) & Cp & w & G6 & G7 & G8 & G9).
  cbn [fst snd] in *. subst m1.
  destruct (Ex _ _ _ _ E2) as (yy & -> & Sv). destruct (G9 yy Sv) as (Ly & Fx).
  destruct (StepFacts.rows_ok _ _ _ _ _ _ L' E3) as (prow & R1 & Rm & R2 & R3 & R4 & R5 & R6 & R7). destruct X3 as [m3 s3]. cbn [fst snd] in *. subst m3.
  rewrite Rp in R1. rewrite Rp, Rr in R2. destruct R2 as (P3 & (rr3 & P4 & _) & T3 & _). cbn [fst snd] in *.
  assert (Et : b_ids (set_terms T m) = b_ids m /\ b_bup (set_terms T m) = [] /\ b_wells (set_terms T m) = []) by (destruct m; cbn in *; auto). destruct Et as (Et1 & Et2 & Et3).
  apply mbind_ok in E as ([] & X4 & E4 & E). unfold update_boundaries in E4. apply mbind_ok in E4 as (l & X5 & Q & E4). apply mread_ok in Q as (-> & Q). cbn [fst] in Q. rewrite Et2 in Q. inversion Q; subst l; clear Q.
  cbn [miter] in E4. inversion E4; subst X4; clear E4.
  apply mbind_ok in E as (again & X5 & E5 & E). unfold update_wells in E5. apply mbind_ok in E5 as (l & X6 & Q & E5). apply mread_ok in Q as (-> & Q). cbn [fst] in Q. rewrite Et3 in Q. inversion Q; subst l; clear Q.
  cbn in E5. inversion E5; subst X5 again; clear E5. cbn [mwhen] in E. apply mbind_ok in E as ([] & X6 & E6 & E). inversion E6; subst X6; clear E6.
  destruct (MB_keeps _ _ _ E) as (K1 & K2 & K3 & K4 & _). cbn [fst snd] in *.
  assert (H6 : hid X = hid (set_terms T m, s3) /\ s_sym (snd X) = s_sym s3).
  { destruct (o_mb o); cbn [mwhen] in E; [|inversion E; auto]. split.
    - assert (H := hd_MB (hid (set_terms T m, s3)) (set_terms T m, s3) eq_refl). rewrite E in H. exact H.
    - assert (H := sym_MB (s_sym s3) (set_terms T m, s3) eq_refl). rewrite E in H. exact H. }
  destruct H6 as (H6 & H7). unfold hid in H6. cbn [fst snd] in H6.
  assert (HA : s_A (snd X) = s_A s1) by congruence. assert (HR : s_res (snd X) = s_res s1) by congruence. assert (HB : s_bv (snd X) = s_bv s1) by congruence. clear H6.
  destruct Sh as (Sh1 & Sh2).
  split; [exists T; auto|]. split.
  { split; [unfold shaped; rewrite K2, K3, K4, P3, T3, P4, !app_length; cbn; lia|]. split; auto. split; [rewrite H7, R7; exact G4|]. rewrite HA. destruct G5 as [G5|G5]; [now left|right].
    unfold DI3, EI, bv_ok in *. rewrite HA, HR, HB. exact G5. }
  split; [rewrite K4, T3; lia|]. exists prow, yy, Cp, w. split; [congruence|]. split.
  { intros p id Ei. rewrite Et1 in R1. unfold set_many in R1. match type of R1 with (if ?b then _ else _) = _ => destruct b eqn:Ln end; [|discriminate]. apply Nat.eqb_eq in Ln.
    pose proof (many_get (b_ids m) (map Some yy) _ _ (proj1 (ids_facts K)) (fun i h => proj1 (proj1 (proj2 (ids_facts K)) i h)) Ln R1) as G.
    destruct (rmap_nth' _ _ _ _ _ G Ei) as (b & Nb & Gb).
    assert (I : In id (b_ids m)) by (eapply nth_error_In; eauto). pose proof (proj1 (proj2 (ids_facts K)) id I).
    apply pyget_value in Gb as (Gb & _); [|lia]. rewrite Gb. pose proof (eq_trans (eq_sym (nth_error_map _ _ _)) Nb) as Nb'.
    destruct (nth_error yy p) eqn:Ny; [|discriminate]. cbn in Nb'. inversion Nb'; subst. now rewrite (nth_error_nth _ _ _ Ny). }
  split; auto. split; auto. split; auto.
  intros Cm p id Ep. specialize (G8 Cm p id Ep yy Sv). unfold at2 in G8. rewrite (proj1 (last_at s (conj Sh1 Sh2))) in G8.
  assert (I : In id (b_ids m)) by (eapply nth_error_In; eauto). pose proof (proj1 (proj2 (ids_facts K)) id I). apply pyget_value in G8 as (G8 & _); auto. lia.
Qed.
End mix.

(** Cached terms do not matter for what is kept. *)
Lemma CI_terms (m : bo R) T s : CI (m := m) s -> TI (m := m) (set_terms T m) -> CI (m := set_terms T m) s.
Proof. intros (H1 & _ & H3 & H4) H2. destruct m. split; [exact H1|]. split; [exact H2|]. split; [exact H3|exact H4]. Qed.
