(** The number of times a step is solved again. *)
From Coq Require Import String ZArith Bool Arith List Lia Reals Lra.
From Verif Require Import Prelude PreludeFacts Num GridModel GeoModel PropModel BlackOilModel FdmModel
  MonadFacts HistSpec InvFacts StepSpec StepFacts WellStepFacts SolveSpec.
Import ListNotations.
Close Scope R_scope.
Open Scope nat_scope.

(** A well that may still ask for solving again. *)
Definition may_ask (w : well R) : bool :=
  match w_qsp w with
  | None => false
  | Some qsp => match w_q w with Some q => feqb q (Some qsp) | None => true end
  end.
Definition askers (d : list (Z * well R)) : nat := length (filter (fun kv => may_ask (snd kv)) d).
Lemma askers_le d : askers d <= length d.
Proof. unfold askers. induction d as [|a d IH]; cbn; [lia|]. destruct (may_ask (snd a)); cbn; lia. Qed.
(** Fewer askers, well by well. *)
Lemma askers_mono d d' : dkeys d = dkeys d' -> NoDup (dkeys d) ->
  (forall id w w', dget id d = Some w -> dget id d' = Some w' -> may_ask w' = true -> may_ask w = true) ->
  askers d' <= askers d /\
  ((exists id w w', dget id d = Some w /\ dget id d' = Some w' /\ may_ask w = true /\ may_ask w' = false) -> askers d' < askers d).
Proof.
  revert d'. induction d as [|[k w] d IH]; intros [|[k' w'] d'] E N H; cbn in E; try discriminate; [split; auto; intros (? & ? & ? & ? & _); discriminate|].
  injection E as -> E. inversion N as [|? ? N1 N2]; subst. fold (dkeys d) in *. fold (dkeys d') in *.
  assert (Hh : may_ask w' = true -> may_ask w = true) by (intros; apply (H k' w w'); cbn; rewrite ?Z.eqb_refl; auto).
  assert (Ht : forall id a a', dget id d = Some a -> dget id d' = Some a' -> may_ask a' = true -> may_ask a = true).
  { intros id a a' Ha Ha'. assert (id <> k') by (intros ->; apply N1; apply dget_keys; congruence). apply (H id); cbn; destruct (Z.eqb_spec id k'); congruence. }
  destruct (IH d' E N2 Ht) as (I1 & I2). unfold askers in *. cbn [filter snd].
  split.
  - destruct (may_ask w') eqn:E1, (may_ask w) eqn:E2; cbn; try lia; specialize (Hh eq_refl); discriminate.
  - intros (id & a & a' & A1 & A2 & A3 & A4). cbn in A1, A2. destruct (Z.eqb_spec id k').
    + inversion A1; inversion A2; subst. rewrite A3, A4. cbn. lia.
    + assert (length (filter (fun kv => may_ask (snd kv)) d') < length (filter (fun kv => may_ask (snd kv)) d)) by (apply I2; eauto 8).
      destruct (may_ask w') eqn:E1, (may_ask w) eqn:E2; cbn; try lia; specialize (Hh eq_refl); discriminate.
Qed.

(** One well in a pass. *)
Section one.
Context (m : bo R) (p : fl R) (w w' : well R) (q : fl R) (b : bool) (pw : fl R).
Hypothesis (Hp : pass1 m p w w' q b pw) (HB : (0 < b_B m)%R) (Hmu : (0 < b_mu m)%R) (HG : forall G, w_G w = Some G -> (0 < G)%R)
  (Ht : forall qsp G lim v, w_qsp w = Some qsp -> w_G w = Some G -> w_pwfsp w = Some lim -> p = Some v -> (v + qsp * b_B m * b_mu m / G <> lim)%R).
Lemma rate_ne qsp G lim v : (0 < G)%R -> (v + qsp * b_B m * b_mu m / G < lim)%R -> (- G / (b_B m * b_mu m) * (v - lim))%R <> qsp.
Proof.
  intros G0 H E. assert (v = lim - qsp * b_B m * b_mu m / G)%R; [|lra]. rewrite <- E. field. lra.
Qed.
Lemma one_keeps : may_ask w' = true -> may_ask w = true.
Proof.
  destruct Hp as (est & lim & H1 & H2 & H3 & H4 & H5 & H6). intros M. rewrite H6 in M. unfold may_ask in *.
  assert (Q : w_qsp (with_q_est q (mid w lim est)) = w_qsp w /\ w_q (with_q_est q (mid w lim est)) = Some q) by (unfold mid; destruct w; auto).
  destruct Q as (Q1 & Q2). rewrite Q1, Q2 in M. destruct (w_qsp w) as [qsp|] eqn:Eq; [|discriminate].
  destruct (w_q w) as [q0|] eqn:Eq0; [|reflexivity].
  unfold est_of in H1. rewrite Eq in H1. unfold keyE in H1. destruct (w_G w) as [G|] eqn:EG; [|discriminate]. cbn [rbind] in H1. injection H1 as H1.
  unfold w_num, w_mode, mid, con_of, pwf_of in H5. specialize (HG G eq_refl). assert (RG : Reqb G 0 = false) by (unfold Reqb; destruct (Req_EM_T G 0); [lra|reflexivity]).
  destruct (fltb (Some lim) est) eqn:Ef.
  - destruct w; cbn in *. subst w_q. cbn in H5. injection H5 as <-. exact M.
  - destruct w; cbn in *. subst w_q w_G. cbn in H5. injection H5 as <-. destruct p as [v|]; [|cbn in M; discriminate]. cbn in H1. rewrite RG in H1. subst est.
    exfalso. cbn in Ef, M. unfold Reqb in M. destruct (Req_EM_T (- G / (b_B m * b_mu m) * (v - lim))%R qsp) as [e|]; [|discriminate].
    specialize (Ht qsp G lim v eq_refl eq_refl H2 eq_refl). apply (rate_ne qsp G lim v); auto.
    unfold Rltb in Ef. destruct (Rlt_dec lim (v + qsp * b_B m * b_mu m / G)%R) as [J|J]; [discriminate|].
    apply Rnot_lt_le in J. destruct J as [J|J]; auto. congruence.
Qed.
Lemma one_drops : b = true -> may_ask w = true /\ may_ask w' = false.
Proof.
  destruct Hp as (est & lim & H1 & H2 & H3 & H4 & H5 & H6). intros ->. unfold asks in H3.
  destruct (fltb (Some lim) est) eqn:Ef; [discriminate|]. destruct (fltb est (Some lim)) eqn:Ef'; [|discriminate].
  unfold keyE in H3. destruct (w_q w) as [q0|] eqn:Eq0; [|discriminate]. destruct (w_qsp w) as [qsp|] eqn:Eq; [|discriminate]. cbn [rbind] in H3. injection H3 as H3.
  split; [unfold may_ask; now rewrite Eq, Eq0|].
  unfold est_of in H1. rewrite Eq in H1. unfold keyE in H1. destruct (w_G w) as [G|] eqn:EG; [|discriminate]. cbn [rbind] in H1. injection H1 as H1.
  unfold w_num, w_mode, mid, con_of, pwf_of in H5. rewrite Ef in H5. specialize (HG G eq_refl). assert (RG : Reqb G 0 = false) by (unfold Reqb; destruct (Req_EM_T G 0); [lra|reflexivity]).
  rewrite H6. unfold may_ask, mid. destruct w; cbn in *. subst. cbn in *. inversion H5; subst. destruct p as [v|]; [|reflexivity]. cbn in *. rewrite RG in *. cbn in *.
  unfold Rltb in Ef'. destruct (Rlt_dec (v + qsp * b_B m * b_mu m / G)%R lim) as [J|J]; [|discriminate].
  unfold Reqb. destruct (Req_EM_T (- G / (b_B m * b_mu m) * (v - lim))%R qsp) as [e|]; auto. exfalso. eapply rate_ne; eauto.
Qed.
End one.

(** All wells in a pass. *)
Lemma rmap_nth {A B} (f : A -> res B) l ps i a : rmapM f l = Ok ps -> nth_error l i = Some a -> exists b, nth_error ps i = Some b /\ f a = Ok b.
Proof.
  revert ps i. induction l as [|x l IH]; intros ps [|i] E H; cbn in *; try discriminate; destruct (f x) as [y|] eqn:Ef; try discriminate; cbn [rbind] in E;
    destruct (rmapM f l) as [ys|]; try discriminate; cbn [rbind] in E; inversion E; subst.
  - inversion H; subst. exists y. auto.
  - cbn. eauto.
Qed.
Section pass.
Context (slv : solver_kind -> @mat R -> list (fl R) -> res (list (fl R))) (sc : Z -> R) (ids0 : list Z).
Definition gfix (m : bo R) : Prop :=
  (0 < b_B m)%R /\ (0 < b_mu m)%R /\ (forall id w G, dget id (b_wells m) = Some w -> w_G w = Some G -> (0 < G)%R) /\
  b_ids m = ids0 /\ NoDup (dkeys (b_wells m)) /\ (forall id, In id (dkeys (b_wells m)) -> In id ids0) /\ no_tie m slv.
Hypothesis (Ni : NoDup ids0) (Pi : forall id, In id ids0 -> (0 <= id)%Z).
Lemma gfix_fix (m m' : bo R) : core m = core m' -> fixm (b_wells m) = fixm (b_wells m') -> gfix m -> gfix m'.
Proof.
  intros C Fm (H1 & H2 & H3 & H4 & H5 & H6 & H7). destruct (core_fields _ _ C) as (_ & C1 & C2 & C3 & _). unfold gfix. rewrite <- C1, <- C2, <- C3.
  assert (K : dkeys (b_wells m') = dkeys (b_wells m)) by now rewrite fixm_keys, <- Fm, <- fixm_keys. rewrite K.
  split; auto. split; auto. split.
  { intros id w G E1 E2. destruct (fixm_get _ _ _ _ (eq_sym Fm) E1) as (w' & E3 & E4). apply (H3 id w' G); auto. unfold fixedw in E4. congruence. }
  do 3 (split; auto). intros k A d ps Es id w qsp G lim i v E1 E2 E3 E4 E5 E6. destruct (fixm_get _ _ _ _ (eq_sym Fm) E1) as (w' & F1 & F2).
  rewrite <- C2, <- C3. rewrite <- C1 in E5. apply (H7 k A d ps Es id w' qsp G lim i v); auto; unfold fixedw in F2; congruence.
Qed.
Lemma pass_askers (m : bo R) s k A d ps row X5 again : gfix m -> slv k A d = Ok ps -> set_many ids0 ps (last (s_p s) []) = Ok row ->
  shaped s -> forall X4 r Ad n c bd up, tailed (s_p s ++ [row]) r Ad n c bd up X4 -> length r = S (s_tstep s) -> core (fst X4) = core m -> wellsof (fst X4) = wellsof m ->
  update_wells X4 = (X5, Ok again) ->
  askers (b_wells (fst X5)) <= askers (b_wells m) /\ (again = true -> askers (b_wells (fst X5)) < askers (b_wells m)).
Proof.
  intros (G1 & G2 & G3 & G4 & G5 & G6 & G7) Es Em (Sh & _) [m4 s4] r Ad n c bd up T Lr C W E. cbn [fst snd] in *.
  assert (W4 : b_wells m4 = b_wells m) by (unfold wellsof in W; congruence).
  destruct T as (T1 & _ & T3 & _). cbn [fst snd] in *.
  destruct (core_fields _ _ C) as (_ & _ & Cm & CB & _).
  assert (Pr : forall id w p, dget id (b_wells m) = Some w -> at2 (s_p s4) (s_tstep s4) id = Ok p ->
    forall qsp G lim v, w_qsp w = Some qsp -> w_G w = Some G -> w_pwfsp w = Some lim -> p = Some v -> (v + qsp * b_B m4 * b_mu m4 / G <> lim)%R).
  { intros id w p E1 E2 qsp G lim v Q1 Q2 Q3 ->. rewrite CB, Cm. assert (Iid : In id ids0) by (apply G6; apply dget_keys; congruence).
    destruct (In_nth_error _ _ Iid) as (i & Hi). unfold at2 in E2. rewrite T1, T3, Lr, <- Sh, nth_error_last in E2.
    unfold set_many in Em. destruct (Nat.eqb_spec (length ids0) (length ps)) as [Hl|]; [|discriminate].
    pose proof (many_get _ _ _ _ Ni Pi Hl Em) as Hm. destruct (rmap_nth _ _ _ _ _ Hm Hi) as (b & B1 & B2). rewrite E2 in B2. inversion B2; subst b.
    apply (G7 k A d ps Es id w qsp G lim i v); auto. now rewrite G4. }
  destruct (update_wells_ok (m4, s4) X5 again) as (Z & t & U1 & U2 & U3 & U4 & _ & U6); cbn [fst]; try (rewrite W4; auto; fail); auto.
  cbn [fst] in U1. destruct (loop_ok (dkeys (b_wells m4)) [] m4 s4 Z t) as (dn & rest & L0 & L1 & L2 & L3 & L4 & L5 & L6 & L7 & L8 & L9 & L10); auto; try (rewrite W4; auto; fail).
  rewrite U2. rewrite W4 in *.
  assert (Gp : forall id w G, dget id (b_wells m) = Some w -> w_G w = Some G -> (0 < G)%R) by exact G3.
  destruct (askers_mono (b_wells m) (b_wells (fst Z))) as (Am1 & Am2); [now rewrite L6|auto| |].
  { intros id w w' E1 E2 Ma. destruct (in_dec Z.eq_dec id dn) as [I|I].
    - destruct (L9 id I) as (w1 & w1' & p & q & b & pw & Q1 & Q2 & Q3 & Q4 & _). rewrite E1 in Q1. rewrite E2 in Q2. inversion Q1; inversion Q2; subst w1 w1'.
      eapply (one_keeps m4 p w w' q b pw); eauto; rewrite ?CB, ?Cm; auto.
    - rewrite (L7 id I) in E2. congruence. }
  split; auto. intros ->. apply Am2. destruct t as [t|]; [exfalso; assert (true = false) by (apply U4; discriminate); discriminate|].
  destruct L10 as (d0 & id & w & w' & p & q & pw & Q0 & Q1 & Q2 & Q3 & Q4 & _). exists id, w, w'. split; auto. split; auto.
  eapply (one_drops m4 p w w' q true pw); eauto; rewrite ?CB, ?Cm; auto.
Qed.

Lemma fuel_enough sparse : forall k n o m s, gfix m -> shaped s -> askers (b_wells m) <= k ->
  solve slv sc (S k + n) sparse o (m, s) = solve slv sc (S k) sparse o (m, s).
Proof.
  induction k as [|k IH]; intros n o m s Gf Sh Ha; cbn [Nat.add solve].
  all: apply mbind_eq; [reflexivity|]; intros [A d] [m1 s1] E1; apply mbind_eq; [reflexivity|]; intros p X2 E2;
    apply mread_ok in E2 as (-> & E2); cbn [fst snd] in E2; destruct (o_upd o); [|reflexivity];
    apply mbind_eq; [reflexivity|]; intros [] X3 E3; apply mbind_eq; [reflexivity|]; intros [] X4 E4;
    destruct (pick_solver sparse (o_iso o)) as [kk|] eqn:Ek; [|discriminate]; cbn [rbind] in E2;
    destruct (prefix_ok sc _ _ _ _ _ _ _ _ _ _ Sh E1 E3 E4) as (row & R1 & R4 & W4);
    apply mbind_eq; [reflexivity|]; intros again X5 E5;
    pose proof R4 as (_ & _ & _ & _ & _ & C4 & _);
    assert (Gi : b_ids m = ids0) by apply Gf; rewrite Gi in R1;
    destruct (pass_askers m s kk A d p row X5 again Gf E2 R1 Sh X4 _ _ _ _ _ _ R4 (proj2 Sh) C4 W4 E5) as (P1 & P2).
  - destruct again; [specialize (P2 eq_refl); lia|reflexivity].
  - apply mbind_eq; [|reflexivity]. destruct again; [|reflexivity]. specialize (P2 eq_refl). cbn [mwhen]. apply mbind_eq; [reflexivity|].
    intros [] [m6 s6] E6. apply mset_ok in E6. inversion E6; subst m6 s6; clear E6. destruct X5 as [m5 s5].
    pose proof (ta_update_wells _ _ _ _ _ _ _ X4 R4) as R5. rewrite E5 in R5. cbn [fst snd] in *.
    destruct (drop_ok m5 s row s5 _ _ _ _ _ _ _ Sh eq_refl eq_refl R5) as (D1 & D2 & D3 & D4 & D5).
    apply IH; [|unfold shaped in *; rewrite D1, D2, D3; exact Sh|lia].
    apply (gfix_fix m); auto; [symmetry; apply R5|].
    pose proof (fx_wells (fixm (b_wells m)) X4) as H. rewrite E5 in H. symmetry. apply H. unfold fx. unfold wellsof in W4. congruence.
Qed.
Lemma systems_bound fuel sparse : forall o m s X, gfix m -> shaped s -> o_upd o = true -> solve slv sc fuel sparse o (m, s) = (X, Ok tt) ->
  length (s_As (snd X)) <= S (length (s_As s)) + askers (b_wells m).
Proof.
  induction fuel as [|fuel IH]; intros o m s X Gf Sh U E; [discriminate|].
  destruct (solve_cases slv sc _ _ _ _ _ _ Sh U E) as (A & d & p & k & row & X4 & again & X5 & X6 & C1 & C2 & C3 & C4 & C5 & C6 & C7 & C8 & C9 & C10).
  destruct (MB_keeps _ _ _ C10) as (K1 & K2 & K3 & K4 & K5). rewrite K5.
  pose proof C5 as (_ & _ & _ & _ & _ & Cc & _). assert (Gi : b_ids m = ids0) by apply Gf. rewrite Gi in C3.
  destruct (pass_askers m s k A d p row X5 again Gf C2 C3 Sh X4 _ _ _ _ _ _ C5 (proj2 Sh) Cc C6 C7) as (P1 & P2).
  destruct X5 as [m5 s5]. cbn [fst snd] in *. destruct again.
  - specialize (P2 eq_refl). destruct (drop_ok m5 s row s5 _ _ _ _ _ _ _ Sh eq_refl eq_refl C8) as (D1 & D2 & D3 & D4 & D5).
    apply IH in C9; auto; [|apply (gfix_fix m); auto; [symmetry; apply C8|]|unfold shaped in *; rewrite D1, D2, D3; exact Sh].
    + inversion D4 as [[DA Dd]]. rewrite DA, app_length in C9. cbn [length] in C9. lia.
    + pose proof (fx_wells (fixm (b_wells m)) X4) as H. rewrite C7 in H. symmetry. apply H. unfold fx. unfold wellsof in C6. congruence.
  - subst X6. cbn [snd]. destruct C8 as (_ & _ & _ & C8 & _). cbn [fst snd] in C8. inversion C8 as [[DA Dd]]. rewrite DA, app_length. cbn. lia.
Qed.
End pass.
