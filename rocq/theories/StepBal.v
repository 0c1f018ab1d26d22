(** Material balance of one step, by either path. *)
From Coq Require Import String ZArith Bool Arith List Lia Reals Lra.
From Verif Require Import Prelude PreludeFacts Num GridModel GridSpec GridThm GeoModel GeoSpec GeoProofs
  GridProofs GridNeighbors PropModel PropSpec MatrixProofs BlackOilModel FdmModel MonadFacts HistSpec InvFacts SumFacts ModelSpec ModelFacts VectFacts FaceFacts AsmFacts
  SolverSpec StepSpec StepFacts WellStepFacts BalanceSpec FdmSpec CanonFacts LinFacts NbrFacts SymbFacts BalFacts FormFacts.
Import ListNotations.
Close Scope R_scope.
Open Scope nat_scope.

Section ready.
Context {m : bo R}.
Notation g := (gr (geom (b_grid m))).
Record ready (s : fs R) : Prop := {
  r_wk : NoDup (dkeys (b_wells m));
  r_wi : forall id, In id (dkeys (b_wells m)) -> In id (b_ids m);
  r_wg : forall id w, dget id (b_wells m) = Some w -> wgood w;
  r_wp : forall id w, dget id (b_wells m) = Some w -> w_con w = Some (Some "pwf"%string) -> w_pwfsp w <> Some 0%R;
  r_bk : NoDup (dkeys (b_bdict m));
  r_bf : forall e, In e (b_bdict m) -> face_id m (fst e);
  r_bu : b_bup m = pressured (b_bdict m);
  r_lv : level m \/ forall id w, dget id (b_wells m) = Some w -> con w <> "q"%string;
  r_sh : shaped s;
  r_ln : length (last (s_r s) []) = get_n g true;
  r_q : forall id, (0 <= id)%Z -> Z.to_nat id < get_n g true -> ~ In id (dkeys (b_wells m)) -> ~ In id (dkeys (b_bdict m)) -> value (last (s_r s) []) id = Some 0%R;
  r_kp : kept (m := m) s;
  r_ti : TI (m := m) m;
  r_rt : forall e v, In e (b_bdict m) -> prescribes m e v -> value (last (s_r s) []) (fst e) = Some v }.

End ready.

Lemma rate_press c : smem c RATE = true -> smem c PRESS = false.
Proof. unfold smem, RATE, PRESS. cbn. destruct (String.eqb_spec c "rate") as [->|]; [reflexivity|]. destruct (String.eqb_spec c "q") as [->|]; [reflexivity|discriminate]. Qed.
Lemma grad_core (m m' : bo R) id v : core m = core m' -> grad_rate m id v = grad_rate m' id v.
Proof.
  intros C. unfold grad_rate. rewrite (core_trans _ _ _ _ C). destruct (core_fields _ _ C) as (Cg & _). unfold bgrid, gd. now rewrite Cg.
Qed.
Lemma prescribes_core (m m' : bo R) e v : core m = core m' -> prescribes m e v -> prescribes m' e v.
Proof. intros C. unfold prescribes. now rewrite (grad_core m m' _ _ C). Qed.
Lemma ready_terms (m : bo R) T s : ready (m := m) s -> TI (m := m) (set_terms T m) -> ready (m := set_terms T m) s.
Proof. intros [H1 H2 H3 H4 H5 H6 H7 H8 H9 H10 H11 H12 H13 H14] Ti. assert (C : core (set_terms T m) = core m) by (now destruct m). assert (H14' : forall e v, In e (b_bdict m) -> prescribes (set_terms T m) e v -> value (last (s_r s) []) (fst e) = Some v) by (intros e v I P; apply H14; auto; now apply (prescribes_core _ _ _ _ C)). destruct m. constructor; auto. Qed.

(** The flow terms of the symbolic path depend on the model, the boundaries and
    the mode of the well. *)
Lemma new_f_same (m m' : bo R) id : core m = core m' -> b_bdict m = b_bdict m' -> wlin m id = wlin m' id -> new_f m id = new_f m' id.
Proof.
  intros C B W. unfold new_f. rewrite W. clear W.
  destruct (core_fields _ _ C) as (C1 & C2 & C3 & C4 & C5 & _).
  destruct m, m'. cbn in C1, C2, C3, C4, C5, B |- *. subst. reflexivity.
Qed.
Lemma scoup_core (m m' : bo R) : core m = core m' -> scoup m = scoup m'.
Proof.
  intros C. destruct (core_fields _ _ C) as (C1 & C2 & C3 & C4 & C5 & _).
  destruct m, m'. cbn in C1, C2, C3, C4, C5. subst. reflexivity.
Qed.
Lemma wlin_same (m m' : bo R) id : core m = core m' -> (dget id (b_wells m) = None -> dget id (b_wells m') = None) ->
  (forall w, dget id (b_wells m) = Some w -> exists w', dget id (b_wells m') = Some w' /\ w_mode m w' = w_mode m w) -> wlin m id = wlin m' id.
Proof.
  intros C H0 H. unfold wlin. destruct (dget id (b_wells m)) as [w|] eqn:E; [|now rewrite H0].
  destruct (H w eq_refl) as (w' & -> & Ew). destruct (core_fields _ _ C) as (_ & _ & C3 & C4 & _).
  assert (Q : w_mode m' w' = w_mode m w') by (unfold w_mode; now rewrite C3, C4). unfold w_term. now rewrite Q, Ew.
Qed.
Lemma pass_mode (m : bo R) p w w' q b pw : wgood w -> w_con w' = w_con w -> pass1 m p w w' q b pw -> w_mode m w' = w_mode m w.
Proof.
  intros (Gq & Gp) Cw (est & lim & H1 & H2 & H3 & H4 & H5 & ->). destruct w as [wq wqsp wpwf wsp wc wr ws' wre wG].
  unfold mid, con_of, pwf_of in *. cbn [with_con with_pwf_est with_q_est w_con w_q w_qsp w_pwf w_pwfsp w_G] in *.
  destruct (fltb (Some lim) est); subst wc.
  - destruct (Gq eq_refl) as (q0 & -> & Q0). unfold w_num, w_mode, con_is in *. cbn in H5 |- *. inversion H5; subst q. reflexivity.
  - destruct (Gp eq_refl) as (p0 & -> & Q0). rewrite H2 in Q0. inversion Q0; subst p0; clear Q0. subst wsp.
    unfold w_mode, con_is. cbn [w_q w_con w_G w_pwf has].
    replace (if has wq then let* c := keyE (Some (Some "pwf"%string)) in Ok (match c with Some c => String.eqb c "q" | None => false end) else Ok false) with (@Ok bool false) by (destruct (has wq); reflexivity).
    reflexivity.
Qed.

(** A well after a step that kept its mode: its rate. *)
Definition well_rate (m : bo R) (p : R) (w : well R) (r : fl R) : Prop :=
  (w_con w = Some (Some "q"%string) /\ exists q, w_q w = Some (Some q) /\ w_qsp w = Some q /\ r = Some q) \/
  (w_con w = Some (Some "pwf"%string) /\ exists G pw, w_G w = Some G /\ w_pwf w = Some (Some pw) /\ w_pwfsp w = Some pw /\ r = Some (- (G / (b_B m * b_mu m)) * (p - pw))%R).
Lemma pass_final (m : bo R) p w w' q b pw : (0 < b_B m)%R -> (0 < b_mu m)%R -> wgood w -> w_con w' = w_con w -> pass1 m (Some p) w w' q b pw -> well_rate m p w' q.
Proof.
  intros HB Hm (Gq & Gp) Cw (est & lim & H1 & H2 & H3 & H4 & H5 & ->). destruct w as [wq wqsp wpwf wsp wc wr ws' wre wG].
  unfold mid, con_of, pwf_of, well_rate in *. cbn [with_con with_pwf_est with_q_est w_con w_q w_qsp w_pwf w_pwfsp w_G] in *.
  destruct (fltb (Some lim) est); subst wc.
  - destruct (Gq eq_refl) as (q0 & -> & Q0). unfold w_num, w_mode, con_is in *. cbn in H5 |- *. inversion H5; subst q. left. eauto.
  - destruct (Gp eq_refl) as (p0 & -> & Q0). rewrite H2 in Q0. inversion Q0; subst p0; clear Q0. subst wsp.
    right. split; [reflexivity|]. unfold w_num, w_mode, con_is in H5. cbn [w_q w_con w_G w_pwf has] in H5.
    replace (if has wq then let* c := keyE (Some (Some "pwf"%string)) in Ok (match c with Some c => String.eqb c "q" | None => false end) else Ok false) with (@Ok bool false) in H5 by (destruct (has wq); reflexivity).
    cbn [rbind] in H5. destruct wG as [G|]; [|discriminate]. cbn in H5. exists G, lim. split; [reflexivity|]. split; [reflexivity|]. split; [reflexivity|]. inversion H5. f_equal. field. lra.
Qed.
(** Everything about the rows a step adds. *)
Definition step_rows (m mx : bo R) (o : sopts) (s : fs R) (prow rrow : list (fl R)) : Prop :=
  dkeys (b_wells mx) = dkeys (b_wells m) /\
  exists yy Cp wt, length yy = length (b_ids m) /\ (if o_vect o then Cp = coupling m /\ wt = (fun _ => 0%R) else Cp = scoup m /\ wt = weight (m := m)) /\
  (forall p id, nth_error (b_ids m) p = Some id -> value prow id = Some (nth p yy 0%R)) /\
  (forall id, In id (dkeys (b_wells m)) -> exists w', dget id (b_wells mx) = Some w' /\ value rrow id = Some (hw (m := m) yy id) /\
     well_rate m (nth (pos (m := m) id) yy 0%R) w' (value rrow id)) /\
  (forall e, In e (b_bdict m) -> value rrow (fst e) = Some (hb (m := m) s yy e)) /\
  (forall id, (0 <= id)%Z -> Z.to_nat id < get_n (gr (geom (b_grid m))) true -> ~ In id (dkeys (b_wells m)) -> ~ In id (dkeys (b_bdict m)) -> value rrow id = Some 0%R) /\
  (b_cmp m = true -> forall p id, nth_error (b_ids m) p = Some id -> value (last (s_p s) []) id = Some (oldp (m := m) s p)) /\
  forall p, p < length (b_ids m) -> (flux (length (b_ids m)) Cp (fun q => nth q yy 0 - wt q) p + over (dkeys (b_wells m)) (pos (m := m)) (hw (m := m) yy) p + over (b_bdict m) (fun e => bpos (m := m) (fst e)) (hb (m := m) s yy) p
        = acc m p * (nth p yy 0 - oldp (m := m) s p))%R.

Section step.
Context {m : bo R} {x y z : nat} {u : bool} {dx dy dz : dinput R} (K : model m x y z u dx dy dz).
Notation g := (gr (geom (b_grid m))).
Notation N := (length (b_ids m)).
Context (slv : solver_kind -> @mat R -> list (fl R) -> res (list (fl R))) (sc : Z -> R).

Theorem step_ok fuel sparse o s X : ready (m := m) s -> exact slv -> o_upd o = true -> o_print o = false ->
  (o_vect o = true \/ (o_thr o = false /\ (forall id, sc id <> 0%R) /\ canonical (b_bdict m) /\ productive m)) ->
  solve slv sc fuel sparse o (m, s) = (X, Ok tt) -> length (s_As (snd X)) = S (length (s_As s)) -> same_modes m (fst X) ->
  (core (fst X) = core m /\ b_bdict (fst X) = b_bdict m /\ s_tstep (snd X) = S (s_tstep s)) /\ ready (m := fst X) (snd X) /\
  exists prow rrow, s_p (snd X) = s_p s ++ [prow] /\ s_r (snd X) = s_r s ++ [rrow] /\ step_rows m (fst X) o s prow rrow /\
    if b_cmp m then exists G, gain m (last (s_p s) []) prow = Some G /\ fsum rrow = Some G else fsum rrow = Some 0%R.
Proof.
  intros RD Ex U Vp Vv E One SM. pose proof RD as [Rwk Rwi Rwg Rwp Rbk Rbf Rbu Rlv Rsh Rln Rq Rkp Rti Rrt].
  assert (Wpos : forall id, In id (dkeys (b_wells m)) -> (0 <= id)%Z) by (intros id Hi; pose proof (proj1 (proj2 (ids_facts K)) id (Rwi id Hi)); lia).
  (* every well has a mode *)
  assert (St : forall id w, dget id (b_wells m) = Some w -> settled w).
  { destruct (solve_last slv sc _ _ _ _ _ _ Rsh U E) as (Y & Y' & Y1 & Y2 & Y3 & Y4 & Y5 & Y6 & Y7 & Y8 & Y9 & Y10). specialize (Y10 One).
  destruct (update_wells_ok Y Y' false) as (Zz & t & L1 & L2 & L3 & L4 & _); [rewrite Y10; auto|rewrite Y10; auto|auto|].
  destruct Y as [my sy]. cbn [fst snd] in *. rewrite Y10 in L1.
  destruct (WellStepFacts.loop_ok (dkeys (b_wells m)) [] my sy Zz t Rwk Wpos L1) as (done & rest & D1 & _ & _ & _ & _ & _ & D2 & _ & _ & D3 & D4).
  assert (t <> None) as Nt by (now apply L4). destruct t as [tb|]; [|congruence]. destruct D4 as (-> & _). rewrite app_nil_r in D1. subst done.
    intros id w Ew. assert (I : In id (dkeys (b_wells m))) by (apply dget_keys; congruence).
    destruct (D3 id I) as (w1 & w' & p & q & b & pw & W1 & W2 & _ & W3 & _). rewrite Y10, Ew in W1. inversion W1; subst w1.
    assert (Cw : w_con w' = w_con w) by (apply (SM id); auto; rewrite Y5, L2; exact W2).
    destruct (Rwg id w Ew) as (Gq & Gp). destruct (pass_con _ _ _ _ _ _ _ W3) as [C|C]; rewrite Cw in C; [left; split; auto; destruct (Gq C) as (q0 & Q1 & _); eauto|right; split; auto].
    destruct (Gp C) as (p0 & P1 & P2). exists p0. repeat split; auto. intros ->. exact (Rwp id w Ew C P2). }
  destruct fuel as [|fuel]; [discriminate|]. cbn [solve] in E.
  apply mbind_ok in E as ([A d] & [m1 s1] & E1 & E). pose proof (system_pub sc o (m, s)) as P1. rewrite E1 in P1. cbn [fst snd] in P1.
  apply mbind_ok in E as (p & X2 & E2 & E). apply mread_ok in E2 as (-> & E2). cbn [fst snd] in E2.
  destruct (pick_solver sparse (o_iso o)) as [k|] eqn:Ek; [|discriminate]. cbn [rbind] in E2.
  rewrite U in E. cbv beta match in E. apply mbind_ok in E as ([] & X3 & E3 & E).
  assert (Pt : pathed (m := m) sc o s).
  { destruct Vv as [V|(V1 & V2 & V3 & V4)]; [now left|right]. split; auto. split; auto. split; auto. intros e Ie. destruct (V3 e Ie) as [Ce|Ce]; [now left|right].
    split; [now apply rate_press|]. unfold at2. rewrite (proj2 (last_at s Rsh)). pose proof (face_facts K _ (Rbf e Ie)) as (Fe & _).
    rewrite value_pyget by (rewrite ?Rln; lia). f_equal. apply Rrt; auto. now left. }
  destruct (system_form K Rwk Rwi St Rbk Rbf Rbu sc o s _ A d Rti Rkp Rlv Vp Pt E1) as ((T & M1 & Ti1) & Kp1 & Fm). cbn [fst snd] in M1, Kp1.
  destruct (Ex _ _ _ _ E2) as (yy & -> & Sv). destruct (Fm yy Sv) as (Ly & F2 & F3 & Cp & wt & Cpw & Cs & F1). clear Fm.
  assert (Eq : core m1 = core m /\ b_bdict m1 = b_bdict m /\ b_wells m1 = b_wells m /\ b_cmp m1 = b_cmp m /\ b_RHS m1 = b_RHS m /\ b_ids m1 = b_ids m) by (subst m1; destruct m; repeat split).
  destruct Eq as (Eq1 & Eq2 & Eq3 & Eq4 & Eq5 & Eq6).
  pose proof (ready_terms m T s RD Ti1) as RD1. rewrite <- M1 in RD1.
  assert (Kq : kept (m := m1) s1) by (subst m1; destruct m; exact Kp1).
  assert (Sq : forall id w, dget id (b_wells m1) = Some w -> settled w) by (rewrite Eq3; exact St).
  assert (Fq : length yy = length (b_ids m1) /\
     (b_cmp m1 = true -> forall p id, nth_error (b_ids m1) p = Some id -> at2 (s_p s) (s_tstep s) id = Ok (Some (oldp (m := m1) s p))) /\
     (forall e, In e (b_bdict m1) -> fst (snd e) <> "pressure"%string -> exists r, at2 (s_r s) (s_tstep s) (fst e) = Ok (Some r)) /\
     (if o_vect o then Cp = coupling m1 /\ wt = (fun _ => 0%R) else Cp = scoup m1 /\ wt = weight (m := m1)) /\
     (forall p q, p < length (b_ids m1) -> q < length (b_ids m1) -> Cp p q = Cp q p) /\
     forall p, p < length (b_ids m1) -> (flux (length (b_ids m1)) Cp (fun q => nth q yy 0 - wt q) p + over (dkeys (b_wells m1)) (pos (m := m1)) (hw (m := m1) yy) p + over (b_bdict m1) (fun e => bpos (m := m1) (fst e)) (hb (m := m1) s yy) p
        = acc m1 p * (nth p yy 0 - oldp (m := m1) s p))%R).
  { subst m1. destruct m. split; [exact Ly|]. split; [exact F2|]. split; [exact F3|]. split; [exact Cpw|]. split; [exact Cs|exact F1]. }
  assert (SR : forall prow rrow, step_rows m1 (fst X) o s prow rrow -> step_rows m (fst X) o s prow rrow) by (clear - M1; subst m1; destruct m; auto).
  clear Ly F1 F2 F3 Cpw Cs. destruct Fq as (Ly & F2 & F3 & Cpw & Cs & F1).
  assert (K' : model m1 x y z u dx dy dz) by (apply (model_core m m1); auto).
  assert (Gn : gain m (last (s_p s) []) = gain m1 (last (s_p s) [])) by (unfold gain; now rewrite Eq5, Eq6).
  rewrite <- Eq1, <- Eq2, <- Eq4, Gn. unfold same_modes in SM. rewrite <- Eq3 in SM, Wpos. clear Gn Eq1 Eq2 Eq3 Eq4 Eq5 Eq6 M1 Ti1 Kp1 Pt Vv RD K St Rwk Rwi Rwg Rwp Rbk Rbf Rbu Rlv Rsh Rln Rq Rkp Rti Rrt.
  rename K' into K, Sq into St. pose proof RD1 as [Rwk Rwi Rwg Rwp Rbk Rbf Rbu Rlv Rsh Rln Rq Rkp Rti Rrt].
  unfold pub in P1. cbn [fst snd] in P1. assert (Pr : results s1 = results s) by congruence. unfold results in Pr.
  assert (Rp : s_p s1 = s_p s) by congruence. assert (Rr : s_r s1 = s_r s) by congruence. assert (Rt : s_tstep s1 = s_tstep s) by congruence.
  assert (Rn : s_nsteps s1 = s_nsteps s) by congruence. assert (RA : s_As s1 = s_As s) by congruence. assert (Rd : s_ds s1 = s_ds s) by congruence.
  clear P1 Pr.
  assert (L' : shaped s1) by (unfold shaped in *; rewrite Rp, Rr, Rt; exact Rsh).
  destruct (StepFacts.rows_ok _ _ _ _ _ _ L' E3) as (prow & R1 & Rm & R2 & R3 & R4 & R5 & R6 & Rsy). destruct X3 as [m3 s3]. cbn [fst snd] in *. subst m3.
  rewrite Rp in R1. rewrite Rp, Rr, RA, Rd, Rn in R2. rewrite Rr in R3.
  (* boundaries *)
  apply mbind_ok in E as ([] & X4 & E4 & E). pose proof (ta_ub _ _ _ _ _ _ _ _ R2) as R7. rewrite E4 in R7. cbn [fst] in R7.
  assert (H4 := hd_ub (hid (m1, s3)) (m1, s3) eq_refl). rewrite E4 in H4. cbn [fst snd] in H4.
  unfold update_boundaries in E4. apply mbind_ok in E4 as (l & X3 & Q & E4). apply mread_ok in Q as (-> & Q). cbn [fst] in Q. inversion Q; subst l; clear Q.
  destruct (ub_ok K (b_bup m1) s3 X4 (bup_nodup Rbk Rbu)) as (B1 & B2 & B3 & B4 & B5); auto.
  { intros idb I. destruct (bup_spec Rbk Rbf Rbu idb I) as (Fc & At). split; auto. split; auto. pose proof (proj1 (face_facts K _ Fc)); lia. }
  destruct X4 as [m4 s4]. cbn [fst snd] in *. subst m4.
  (* wells *)
  apply mbind_ok in E as (again & X5 & E5 & E). pose proof (ta_update_wells _ _ _ _ _ _ _ _ R7) as R8. rewrite E5 in R8. cbn [fst] in R8.
  assert (H5 := hd_wells (hid (m1, s3)) (m1, s4) H4). rewrite E5 in H5. cbn [fst snd] in H5.
  apply mbind_ok in E as ([] & X6 & E6 & E). destruct (MB_keeps _ _ _ E) as (K1 & K2 & K3 & K4 & K5).
  assert (H6 : hid X = hid X6).
  { destruct (o_mb o); cbn [mwhen] in E; [|inversion E; auto]. assert (H := hd_MB (hid X6) X6 eq_refl). rewrite E in H. exact H. }
  assert (again = false) as ->.
  { destruct again; auto. exfalso. cbn [mwhen] in E6. apply mbind_ok in E6 as ([] & X7 & E7 & E8). apply mset_ok in E7. inversion E7; subst X7; clear E7.
    destruct X5 as [m5 s5]. cbn [fst snd] in *. destruct (drop_ok m5 s prow s5 _ _ _ _ _ _ _ Rsh eq_refl eq_refl R8) as (D1 & D5 & D6 & D7 & D8).
    assert (L5 : shaped (drop_rows s5)) by (unfold shaped in *; rewrite D1, D5, D6; exact Rsh).
    destruct (solve_ok slv sc _ _ (cgs_opts o) _ _ _ L5 eq_refl E8) as (n & (k' & A' & d' & p' & row' & la & lb & _ & _ & _ & Nl & _ & TT) & _).
    destruct TT as (_ & _ & _ & TT & _). inversion TT as [[TA Td]]. inversion D7 as [[DA Dd]]. rewrite K5, TA, DA, !app_length in One. cbn in One. lia. }
  cbn [mwhen] in E6. inversion E6; subst X6; clear E6.
  destruct (update_wells_ok (m1, s4) X5 false) as (Zz & t & L1 & L2 & L3 & L4 & _); auto. cbn [fst snd] in L1.
  destruct (WellStepFacts.loop_ok (dkeys (b_wells m1)) [] m1 s4 Zz t Rwk Wpos L1) as (done & rest & D1 & _ & D5 & D6 & _ & _ & D2 & _ & D7 & D3 & D4).
  assert (t <> None) as Nt by (now apply L4). destruct t as [tb|]; [|congruence]. destruct D4 as (-> & _). rewrite app_nil_r in D1. subst done. clear Nt L4.
  (* rows *)
  destruct R2 as (P3 & (rr3 & _) & T3 & _). destruct R7 as (P4 & (rr4 & RR4 & LR4) & T4 & _). destruct R8 as (P5 & (rrow & RR5 & LR5) & T5 & Ad5 & _ & C5 & Bd5 & Bp5). cbn [fst snd] in *.
  assert (LL : length (s_r s) = S (s_tstep s)) by apply Rsh.
  assert (Yv : forall p id, nth_error (b_ids m1) p = Some id -> pyget prow id = Ok (Some (nth p yy 0%R))).
  { intros p id Ei. unfold set_many in R1. match type of R1 with (if ?b then _ else _) = _ => destruct b eqn:Ln end; [|discriminate]. apply Nat.eqb_eq in Ln.
    pose proof (many_get (b_ids m1) (map Some yy) _ _ (proj1 (ids_facts K)) (fun i h => proj1 (proj1 (proj2 (ids_facts K)) i h)) Ln R1) as G.
    destruct (rmap_nth' _ _ _ _ _ G Ei) as (b & Nb & Gb). refine (eq_trans Gb _). f_equal. pose proof (eq_trans (eq_sym (nth_error_map _ _ _)) Nb) as Nb'.
    destruct (nth_error yy p) eqn:Ny; [|discriminate]. cbn in Nb'. inversion Nb'; subst. now rewrite (nth_error_nth _ _ _ Ny). }
  assert (Yw : forall id, In id (b_ids m1) -> at2 (s_p s4) (s_tstep s4) id = Ok (Some (nth (pos (m := m1) id) yy 0%R))).
  { intros id I. rewrite P4, T4, LL. replace (S (s_tstep s)) with (length (s_p s)) by apply Rsh. rewrite at2_last. apply Yv. now apply (pos_nth K). }
  assert (Wrow : forall id, In id (dkeys (b_wells m1)) -> exists w', dget id (b_wells m1) = Some (wof (m := m1) id) /\ dget id (b_wells (fst X5)) = Some w' /\
      wk2 (m := m1) w' = wk2 (m := m1) (wof (m := m1) id) /\ con w' = con (wof (m := m1) id) /\ wgood w' /\ w_con w' = w_con (wof (m := m1) id) /\ w_pwfsp w' = w_pwfsp (wof (m := m1) id) /\
      w_mode m1 w' = w_mode m1 (wof (m := m1) id) /\ value rrow id = Some (hw (m := m1) yy id) /\ well_rate m1 (nth (pos (m := m1) id) yy 0%R) w' (value rrow id)).
  { intros id I. destruct (D3 id I) as (w & w' & p & q & b & pw & W1 & W2 & W3 & W4 & W5 & _). pose proof (wof_some id I) as Wo. rewrite W1 in Wo. inversion Wo as [Wo']. rewrite <- Wo'.
    rewrite (Yw id (Rwi id I)) in W3. inversion W3; subst p. rewrite <- L2 in W2.
    assert (Cw : w_con w' = w_con w) by (apply (SM id); auto; rewrite K1; exact W2).
    pose proof (pass_final _ _ _ _ _ _ _ (md_B _ _ _ _ _ _ _ _ K) (md_mu _ _ _ _ _ _ _ _ K) (Rwg id w W1) Cw W4) as Wf.
    destruct (pass_rate _ _ _ _ _ _ (Rwg id w W1) Cw W4) as (-> & G1 & G2 & G3 & G4).
    exists w'. rewrite W1. do 7 (split; [now auto|]). split; [exact (pass_mode _ _ _ _ _ _ _ (Rwg id w W1) Cw W4)|]. unfold hw. rewrite <- Wo'. rewrite <- L3, RR5, T4, at2_last in W5. pose proof (proj1 (pyget_value _ _ _ (Wpos id I) W5)) as Wv. rewrite Wv. split; [reflexivity|exact Wf]. }
  assert (Brow : forall e, In e (b_bdict m1) -> value rrow (fst e) = Some (hb (m := m1) s yy e)).
  { intros e I. pose proof (Rbf e I) as Fc. destruct (face_facts K _ Fc) as (P0 & NI).
    assert (Nw : ~ In (fst e) (dkeys (b_wells m1))) by (intros J; apply NI, Rwi, J).
    assert (V : at2 (s_r (snd X5)) (s_tstep s4) (fst e) = at2 (s_r s4) (s_tstep s4) (fst e)) by (rewrite L3; apply D7; auto; lia).
    rewrite RR5, T4, at2_last in V. rewrite <- T4 in V.
    destruct (String.eqb_spec (fst (snd e)) "pressure") as [Ep|Ep].
    - pose proof (in_bup Rbu e I Ep) as Ib. destruct (B5 _ Ib) as (p & B6 & B7). rewrite <- B2, <- B3 in B6. rewrite Yw in B6 by now apply (edge_face K). inversion B6; subst p; clear B6.
      rewrite B3 in V. rewrite B7 in V. apply pyget_value in V as (-> & _); [|lia]. f_equal. unfold hb, bk1. rewrite Ep. cbn. unfold bpos. lra.
    - assert (Nb : ~ In (fst e) (b_bup m1)).
      { intros J. destruct (bup_spec Rbk Rbf Rbu _ J) as (_ & v & Ev). destruct e as [ke [ce ve]]. cbn [fst snd] in *. rewrite (dget_In_nodup _ _ _ Rbk I) in Ev. congruence. }
      rewrite B3 in V. rewrite B4 in V by (auto; lia). rewrite R3, T3, at2_last in V.
      destruct (F3 e I Ep) as (r & Er). unfold at2 in Er. rewrite (proj2 (last_at s Rsh)) in Er. rewrite Er in V. apply pyget_value in V as (-> & _); [|lia].
      f_equal. unfold hb, bk1, brate, at2. rewrite (proj2 (last_at s Rsh)), Er. destruct (String.eqb_spec (fst (snd e)) "pressure"); [congruence|]. lra. }
  assert (Orow : forall id, (0 <= id)%Z -> Z.to_nat id < get_n (gr (geom (b_grid m1))) true -> ~ In id (dkeys (b_wells m1)) -> ~ In id (dkeys (b_bdict m1)) -> value rrow id = Some 0%R).
  { intros id P0 Lt Nw Nb.
    assert (V : at2 (s_r (snd X5)) (s_tstep s4) id = at2 (s_r s4) (s_tstep s4) id) by (rewrite L3; apply D7; auto).
    rewrite RR5, T4, at2_last in V. rewrite <- T4, B3 in V.
    rewrite B4 in V; auto. 2:{ intros J. apply Nb. rewrite Rbu in J. unfold pressured in J. apply in_map_iff in J as (e & <- & J). apply filter_In in J as (J & _). now apply in_map. }
    rewrite R3, T3, at2_last in V. rewrite (value_pyget (last (s_r s) []) id P0) in V by (rewrite Rln; auto). rewrite (Rq id P0 Lt Nw Nb) in V. exact (proj1 (pyget_value _ _ _ P0 V)). }
  (* the sum of the row *)
  assert (Lr : length rrow = get_n (gr (geom (b_grid m1))) true) by congruence.
  assert (Bpos : forall id, In id (dkeys (b_bdict m1)) -> (0 <= id < Z.of_nat (get_n (gr (geom (b_grid m1))) true))%Z /\ ~ In id (b_ids m1)).
  { intros id I. apply in_map_iff in I as (e & <- & I). apply (face_facts K); auto. }
  assert (Nw : NoDup (map Z.to_nat (dkeys (b_wells m1)))) by (apply nodup_tonat; auto).
  assert (Nb : NoDup (map (fun e : Z * (string * R) => Z.to_nat (fst e)) (b_bdict m1))).
  { rewrite <- (map_map fst Z.to_nat). apply nodup_tonat; auto. intros id I. apply Bpos in I. lia. }
  assert (Sum : fsum rrow = Some (sumR (map (hw (m := m1) yy) (dkeys (b_wells m1))) + sumR (map (hb (m := m1) s yy) (b_bdict m1)))%R).
  { rewrite (fsum_nth rrow (fun i => over (dkeys (b_wells m1)) Z.to_nat (hw (m := m1) yy) i + over (b_bdict m1) (fun e => Z.to_nat (fst e)) (hb (m := m1) s yy) i)%R).
    - f_equal. rewrite rsum_plus, Lr. rewrite !rsum_over; auto.
      + intros e I. assert (Q : In (fst e) (dkeys (b_bdict m1))) by (now apply in_map). apply Bpos in Q. lia.
      + intros id I. pose proof (proj1 (proj2 (ids_facts K)) id (Rwi id I)). lia.
    - intros i Hi. rewrite Lr in Hi. change (nth i rrow None) with (nth i rrow (@None R)). replace (nth i rrow None) with (value rrow (Z.of_nat i)) by (unfold value; now rewrite Nat2Z.id).
      destruct (in_dec Z.eq_dec (Z.of_nat i) (dkeys (b_wells m1))) as [Iw|Iw].
      + destruct (Wrow _ Iw) as (w' & _ & _ & _ & _ & _ & _ & _ & _ & -> & _). f_equal.
        rewrite (over_miss (b_bdict m1)). 2:{ intros e Ie Q. assert (Q2 : In (fst e) (dkeys (b_bdict m1))) by (now apply in_map). pose proof (Bpos _ Q2) as (B6 & B7).
          apply B7. replace (fst e) with (Z.of_nat i) by lia. auto. }
        pose proof (over_hit (dkeys (b_wells m1)) Z.to_nat (hw (m := m1) yy) (Z.of_nat i) Nw Iw) as Q. rewrite Nat2Z.id in Q. rewrite Q. lra.
      + rewrite (over_miss (dkeys (b_wells m1))). 2:{ intros id Ii Q. apply Iw. replace (Z.of_nat i) with id; auto. rewrite <- Q, Z2Nat.id; auto. }
        destruct (in_dec Z.eq_dec (Z.of_nat i) (dkeys (b_bdict m1))) as [Ib|Ib].
        * apply in_map_iff in Ib as (e & Q & Ib). rewrite <- Q. rewrite (Brow e Ib). f_equal. pose proof (over_hit (b_bdict m1) (fun e => Z.to_nat (fst e)) (hb (m := m1) s yy) e Nb Ib) as Q2.
          cbv beta in Q2. replace (Z.to_nat (fst e)) with i in Q2 by (rewrite Q; now rewrite Nat2Z.id). rewrite Q2. lra.
        * rewrite over_miss. 2:{ intros e Ie Q. apply Ib. replace (Z.of_nat i) with (fst e); [now apply in_map|]. assert (Q2 : In (fst e) (dkeys (b_bdict m1))) by (now apply in_map). apply Bpos in Q2. lia. }
          rewrite Orow; auto; [f_equal; lra|lia|now rewrite Nat2Z.id]. }
  (* the sum of the equations *)
  assert (Tot : rsum (fun p => acc m1 p * (nth p yy 0 - oldp (m := m1) s p))%R 0 (length (b_ids m1)) = (sumR (map (hw (m := m1) yy) (dkeys (b_wells m1))) + sumR (map (hb (m := m1) s yy) (b_bdict m1)))%R).
  { rewrite (rsum_ext _ (fun p => flux (length (b_ids m1)) Cp (fun q => nth q yy 0 - wt q) p + over (dkeys (b_wells m1)) (pos (m := m1)) (hw (m := m1) yy) p + over (b_bdict m1) (fun e => bpos (m := m1) (fst e)) (hb (m := m1) s yy) p)%R)
      by (intros p Hp; symmetry; apply F1; lia).
    rewrite !rsum_plus. rewrite flux_total by (intros; now apply Cs).
    rewrite (rsum_over (dkeys (b_wells m1))) by (intros id I; apply (pos_in K); auto).
    rewrite (rsum_over (b_bdict m1)) by (intros e I; apply (bpos_lt K); auto). lra. }
  assert (Inv : ready (m := fst X) (snd X)).
  { rewrite K1. pose proof (core_fields _ _ C5) as CF. destruct CF as (Cg & Ci & _).
    assert (Kw : dkeys (b_wells (fst X5)) = dkeys (b_wells m1)) by congruence.
    assert (Gw : forall id w', dget id (b_wells (fst X5)) = Some w' -> In id (dkeys (b_wells m1))) by (intros id w' Q; rewrite <- Kw; apply dget_keys; congruence).
    constructor; rewrite ?Kw, ?Ci, ?Cg, ?Bd5, ?Bp5; auto.
    - intros id w' Q. destruct (Wrow id (Gw id w' Q)) as (w2 & _ & W2 & _ & _ & W3 & _). rewrite Q in W2. inversion W2; subst. exact W3.
    - intros id w' Q Cq. destruct (Wrow id (Gw id w' Q)) as (w2 & W1 & W2 & _ & _ & _ & W3 & W4 & _). rewrite Q in W2. inversion W2; subst. rewrite W4. apply (Rwp id _ W1). congruence.
    - intros e I. destruct (Rbf e I) as (c & F). exists c. rewrite Cg. exact F.
    - destruct Rlv as [(zs & h & Lz & Lh)|L]; [left; exists zs, h; rewrite (core_z _ _ C5), Ci; auto|right].
      intros id w' Q. destruct (Wrow id (Gw id w' Q)) as (w2 & W1 & W2 & _ & W3 & _). rewrite Q in W2. inversion W2; subst. rewrite W3. exact (L id _ W1).
    - unfold shaped. rewrite K2, K3, K4, P5, RR5, T5, !app_length. cbn. destruct Rsh as (R9 & R10). lia.
    - rewrite K3, RR5, last_last. congruence.
    - rewrite K3, RR5, last_last. intros id P0 Lt. now apply Orow.
    - assert (Hh : hid X = hid (m1, s1)) by (rewrite H6, H5; unfold hid; cbn [fst snd]; congruence). unfold hid in Hh. cbn [fst snd] in Hh.
      assert (HA : s_A (snd X) = s_A s1) by congruence. assert (HR : s_res (snd X) = s_res s1) by congruence. assert (HB : s_bv (snd X) = s_bv s1) by congruence. assert (HS : s_sym (snd X) = s_sym s1) by congruence.
      destruct Kq as (Kq1 & Kq2). split.
      + destruct Kq1 as [Kq1|Kq1]; [left; congruence|right]. apply (same_DI3 (m := m1)) with (s := s1); try congruence; auto.
        intros id I. destruct (Wrow id I) as (w2 & W1 & W2 & W3 & W4 & _). assert (Wo : wof (m := fst X5) id = w2) by (unfold wof; now rewrite W2). rewrite Wo.
        split; [|now rewrite W4]. rewrite <- W3. apply (same_wk (eq_sym C5)).
      + rewrite HS. unfold banded in *. rewrite Ci, (scoup_core _ _ C5). exact Kq2.
    - assert (Hh : hid X = hid (m1, s1)) by (rewrite H6, H5; unfold hid; cbn [fst snd]; congruence). unfold hid in Hh. cbn [fst snd] in Hh.
      assert (HT : b_terms (fst X5) = b_terms m1) by (rewrite <- K1; congruence). intros id t Et. rewrite HT in Et. destruct (Rti id t Et) as (T1 & T2).
      split; [|destruct (core_fields _ _ C5) as (_ & _ & _ & _ & _ & _ & _ & _ & _ & -> & _); exact T2]. rewrite <- T1. symmetry. apply new_f_same; auto. apply wlin_same; auto.
      + intros N0. destruct (dget id (b_wells (fst X5))) eqn:Q; auto. exfalso. pose proof (Gw id _ Q) as G0. apply dget_keys in G0. exact (G0 N0).
      + intros w0 Q. assert (I : In id (dkeys (b_wells m1))) by (apply dget_keys; congruence). destruct (Wrow id I) as (w2 & W1 & W2 & _ & _ & _ & _ & _ & W3 & _). exists w2. split; auto. refine (eq_trans W3 _). f_equal. pose proof (eq_trans (eq_sym W1) Q) as Q'. now inversion Q'.
    - intros e v I Er. apply (prescribes_core _ m1) in Er; auto. rewrite K3, RR5, last_last. assert (Ne : fst (snd e) <> "pressure"%string) by (intros J; unfold prescribes in Er; rewrite J in Er; destruct Er as [(Er & _)|(Er & _)]; discriminate). rewrite (Brow e I). f_equal. unfold hb, bk1, brate.
      destruct (String.eqb_spec (fst (snd e)) "pressure"); [contradiction|]. unfold at2. rewrite (proj2 (last_at s Rsh)). pose proof (face_facts K _ (Rbf e I)) as (Fe & _).
      rewrite value_pyget by (rewrite ?Rln; lia). rewrite (Rrt e v I Er). lra. }
  split; [|split; auto].
  { rewrite K1, K4, T5. repeat split; auto. }
  exists prow, rrow. rewrite K2, K3. split; auto. split; auto. split.
  { apply SR. split; [rewrite K1; congruence|]. exists yy, Cp, wt. split; [exact Ly|]. split; [exact Cpw|]. split.
    { intros p id Ei. assert (Ii : In id (b_ids m1)) by (eapply nth_error_In; eauto). assert (P0 : (0 <= id)%Z) by (pose proof (proj1 (proj2 (ids_facts K)) id Ii); lia).
      exact (proj1 (pyget_value _ _ _ P0 (Yv p id Ei))). }
    split. { intros id I. destruct (Wrow id I) as (w' & _ & W2 & _ & _ & _ & _ & _ & _ & W3 & W4). exists w'. rewrite K1. auto. }
    split; [exact Brow|]. split; [exact Orow|]. split; [|exact F1].
    intros Cm p id Ei. assert (Ii : In id (b_ids m1)) by (eapply nth_error_In; eauto). assert (P0 : (0 <= id)%Z) by (pose proof (proj1 (proj2 (ids_facts K)) id Ii); lia).
    pose proof (F2 Cm p id Ei) as Fo. unfold at2 in Fo. rewrite (proj1 (last_at s Rsh)) in Fo. exact (proj1 (pyget_value _ _ _ P0 Fo)). }
  rewrite Sum, <- Tot. destruct (b_cmp m1) eqn:Cm.
  - exists (rsum (fun p => acc m1 p * (nth p yy 0 - oldp (m := m1) s p))%R 0 (length (b_ids m1))). split; auto.
    unfold gain. rewrite (fsum_nth _ (fun p => acc m1 p * (nth p yy 0 - oldp (m := m1) s p))%R); [now rewrite map_length|].
    rewrite map_length. intros p Hp. destruct (nth_id p Hp) as (id & Ei & Ii). assert (P0 : (0 <= id)%Z) by (pose proof (proj1 (proj2 (ids_facts K)) id Ii); lia).
    refine (eq_trans (nth_map' _ _ _ 0%Z _ Hp) _).
    rewrite (nth_error_nth _ _ _ Ei). rewrite <- (acc_ok K p id Ei). rewrite (proj1 (pyget_value _ _ _ P0 (Yv p id Ei))).
    pose proof (F2 eq_refl p id Ei) as Fo. unfold at2 in Fo. rewrite (proj1 (last_at s Rsh)) in Fo. rewrite (proj1 (pyget_value _ _ _ P0 Fo)). reflexivity.
  - f_equal. apply rsum_zero. intros p Hp. pose proof (acc_sign K p) as Q. rewrite Cm in Q. rewrite Q by lia. lra.
Qed.
End step.
