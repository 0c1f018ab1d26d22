(** Material balance of one step of the vectorised path. *)
From Coq Require Import String ZArith Bool Arith List Lia Reals Lra.
From Verif Require Import Prelude PreludeFacts Num GridModel GridSpec GridThm GeoModel GeoSpec GeoProofs
  GridProofs GridNeighbors PropModel PropSpec MatrixProofs BlackOilModel FdmModel MonadFacts HistSpec InvFacts SumFacts ModelSpec ModelFacts VectFacts FaceFacts AsmFacts
  SolverSpec StepSpec StepFacts WellStepFacts BalanceSpec CanonFacts.
Import ListNotations.
Close Scope R_scope.
Open Scope nat_scope.

(** ** Sums *)
Lemma fsum_acc (l : list (fl R)) : forall a, fold_left fadd l (Some a) = match fsum l with Some s => Some (a + s)%R | None => None end.
Proof.
  assert (N : forall k, fold_left fadd k (@None R) = None) by (induction k as [|[b|] k IH]; cbn; auto).
  unfold fsum. induction l as [|[b|] l IH]; intros a; cbn [fold_left].
  - cbn. f_equal. lra.
  - change (fold_left fadd l (Some (a + b)%R) = match fold_left fadd l (Some (0 + b)%R) with Some s => Some (a + s)%R | None => None end). rewrite (IH (a + b)%R), (IH (0 + b)%R). destruct (fold_left fadd l (Some n0)); auto. f_equal. lra.
  - cbn. now rewrite !N.
Qed.
Lemma fsum_cons a (l : list (fl R)) : fsum (Some a :: l) = match fsum l with Some s => Some (a + s)%R | None => None end.
Proof. unfold fsum at 1. cbn [fold_left fadd lift2]. cbn. rewrite fsum_acc. destruct (fsum l); auto. f_equal. lra. Qed.
Lemma rsum_shift' (h : nat -> R) n : forall k, rsum h (S k) n = rsum (fun i => h (S i)) k n.
Proof. induction n as [|n IH]; intros k; cbn; [reflexivity|]. now rewrite IH. Qed.
Lemma fsum_nth (l : list (fl R)) : forall h, (forall i, i < length l -> nth i l None = Some (h i)) -> fsum l = Some (rsum h 0 (length l)).
Proof.
  induction l as [|a l IH]; intros h H; [reflexivity|]. pose proof (H 0 ltac:(cbn; lia)) as H0. cbn in H0. subst a. rewrite fsum_cons.
  rewrite (IH (fun i => h (S i))) by (intros i Hi; exact (H (S i) ltac:(cbn; lia))). cbn [length rsum]. now rewrite rsum_shift'.
Qed.
Lemma over_miss {A} (l : list A) i v p : (forall a, In a l -> i a <> p) -> over l i v p = 0%R.
Proof.
  unfold over, one. induction l as [|a l IH]; intros H; cbn [map sumR]; [reflexivity|]. rewrite IH by (intros; apply H; now right).
  destruct (Nat.eqb_spec (i a) p) as [E|]; [exfalso; exact (H a (or_introl eq_refl) E)|lra].
Qed.
Lemma over_hit {A} (l : list A) i v a : NoDup (map i l) -> In a l -> over l i v (i a) = v a.
Proof.
  induction l as [|b l IH]; intros D I; [destruct I|]. cbn [map] in D. inversion D; subst. unfold over. cbn [map sumR].
  change (sumR (map (fun a0 => one (i a0) (v a0) (i a)) l)) with (over l i v (i a)). destruct I as [->|I].
  - unfold one. rewrite Nat.eqb_refl, over_miss; [lra|]. intros c Ic E. apply H1. rewrite <- E. now apply in_map.
  - rewrite IH by auto. unfold one. destruct (Nat.eqb_spec (i b) (i a)) as [E|]; [|lra]. exfalso. apply H1. rewrite E. now apply in_map.
Qed.

(** ** States between steps *)
Section ready.
Context {m : bo R} {x y z : nat} {u : bool} {dx dy dz : dinput R} (K : model m x y z u dx dy dz).
Notation g := (gr (geom (b_grid m))).
Notation N := (length (b_ids m)).

(** What set_well and the steps keep true of a well. *)
Definition wgood (w : well R) : Prop :=
  (w_con w = Some (Some "q"%string) -> exists q, w_q w = Some (Some q) /\ w_qsp w = Some q) /\
  (w_con w = Some (Some "pwf"%string) -> exists p, w_pwf w = Some (Some p) /\ w_pwfsp w = Some p).
(** Recording the rates of the pressure boundaries. *)
Definition hid (X : st R) := (s_A (snd X), s_res (snd X), s_bv (snd X), s_sym (snd X), b_terms (fst X)).
Lemma hd_put v id q : inv (fun X : st R => hid X = v) (put_r id q).
Proof. unfold put_r. apply i_set. intros [m1 []] [m2 s2] H E. cbn [fst snd] in *. fin; auto. Qed.
Lemma hd_uw v id f : inv (fun X : st R => hid X = v) (upd_wells id f).
Proof. unfold upd_wells. apply i_set. intros [[] []] [m2 s2] H E. cbn [fst snd] in *. fin; auto. Qed.
Lemma hd_ub v : inv (fun X : st R => hid X = v) update_boundaries.
Proof. unfold update_boundaries, update_boundary. isplit; auto using hd_put. Qed.
Lemma hd_well v id : inv (fun X : st R => hid X = v) (update_well id).
Proof. unfold update_well. isplit; auto using hd_put, hd_uw. Qed.
Lemma hd_loop v l : forall acc, inv (fun X : st R => hid X = v) (update_wells_loop l acc).
Proof. induction l as [|i l IH]; intros acc; cbn [update_wells_loop]; isplit; auto using hd_well. Qed.
Lemma hd_wells v : inv (fun X : st R => hid X = v) update_wells.
Proof. unfold update_wells. isplit; auto using hd_loop. destruct a0; isplit. apply i_set. intros [[] s] [? ?] Hx E. fin; auto. Qed.
Lemma hd_MB v : inv (fun X : st R => hid X = v) check_MB.
Proof. unfold check_MB. apply i_set. intros [m1 []] [? ?] Hx E. cbn [fst snd] in *. destruct (b_cmp m1); fin; auto. Qed.

Lemma ub_ok l : forall s X, NoDup l -> (forall idb, In idb l -> face_id m idb /\ at_pressure (m := m) idb /\ (0 <= idb)%Z) ->
  miter update_boundary l (m, s) = (X, Ok tt) ->
  fst X = m /\ s_p (snd X) = s_p s /\ s_tstep (snd X) = s_tstep s /\
  (forall id, (0 <= id)%Z -> ~ In id l -> at2 (s_r (snd X)) (s_tstep s) id = at2 (s_r s) (s_tstep s) id) /\
  (forall idb, In idb l -> exists p, at2 (s_p s) (s_tstep s) (fst (edge (m := m) idb)) = Ok p /\
     at2 (s_r (snd X)) (s_tstep s) idb = Ok (match p with Some p => Some (bconst (m := m) idb - bT (m := m) idb * p)%R | None => None end)).
Proof.
  induction l as [|i l IH]; intros s X D H E; cbn [miter] in E.
  - inversion E; subst. repeat split; auto. intros ? [].
  - apply mbind_ok in E as ([] & X1 & E1 & E). inversion D as [|? ? D1 D2]; subst. destruct (H i (or_introl eq_refl)) as (Fc & (v & Ev) & P0).
    destruct (edge_face K _ Fc) as (Ee & Pe & Ie & _). unfold update_boundary in E1.
    apply mbind_ok in E1 as (T & X2 & Q1 & E1). apply mread_ok in Q1 as (-> & Q1). cbn [fst snd] in Q1. rewrite Ee in Q1. inversion Q1; subst T; clear Q1.
    apply mbind_ok in E1 as (p & X2 & Q1 & E1). apply mread_ok in Q1 as (-> & Q1). cbn [fst snd] in Q1.
    apply mbind_ok in E1 as (b & X2 & Q2 & E1). apply mread_ok in Q2 as (-> & Q2). cbn [fst snd] in Q2.
    unfold b_num in Q2. rewrite Ev in Q2. replace (smem (lower "pressure") PRESS) with true in Q2 by reflexivity.
    destruct (FdmModel.dz m (fst (edge (m := m) i)) i) as [d|] eqn:Ed; cbn [rbind] in Q2; [|discriminate].
    assert (Hb : b = match p with Some p => Some (bconst (m := m) i - bT (m := m) i * p)%R | None => None end).
    { inversion Q2. unfold bconst, bT, bval. rewrite Ev, Ed. destruct p as [p|]; cbn; auto. unfold n2. cbn. f_equal. lra. }
    unfold put_r in E1. apply mset_ok in E1. cbn [fst snd] in E1. unfold set2 in E1.
    destruct (nth_error (s_r s) (s_tstep s)) as [row|] eqn:Er; cbn [rbind] in E1; [|discriminate].
    destruct (pyset row i b) as [row'|] eqn:Ep; cbn [rbind] in E1; [|discriminate]. inversion E1; subst X1; clear E1.
    set (s' := set_r (upd (s_r s) (s_tstep s) row') s) in *.
    assert (S' : s_p s' = s_p s /\ s_tstep s' = s_tstep s /\ s_r s' = upd (s_r s) (s_tstep s) row') by (unfold s'; destruct s; repeat split).
    destruct S' as (S1 & S2 & S3). assert (Lt : s_tstep s < length (s_r s)) by (apply nth_error_Some; congruence).
    assert (Ro : forall j, (0 <= j)%Z -> j <> i -> at2 (s_r s') (s_tstep s) j = at2 (s_r s) (s_tstep s) j).
    { intros j Hj Nj. rewrite S3. unfold at2. rewrite nth_error_upd_same, Er by auto. eapply (pyget_pyset_other row row' i j b); auto. }
    assert (Rs : at2 (s_r s') (s_tstep s) i = Ok b).
    { rewrite S3. unfold at2. rewrite nth_error_upd_same by auto. eapply pyget_pyset_same; eauto. }
    destruct (IH s' X D2 (fun j h => H j (or_intror h)) E) as (G1 & G2 & G3 & G4 & G5). rewrite S1, S2 in *.
    split; auto. split; auto. split; auto. split.
    + intros j Hj Nj. rewrite G4 by (auto; intros ?; apply Nj; now right). apply Ro; auto. intros ->. apply Nj. now left.
    + intros j [<-|Hj]; [|now apply G5]. exists p. split; auto. rewrite G4 by auto. rewrite Rs. now rewrite Hb.
Qed.

Lemma face_facts idb : face_id m idb -> (0 <= idb < Z.of_nat (get_n g true))%Z /\ ~ In idb (b_ids m).
Proof.
  intros (c & (I & NI) & _ & ->). split; [apply natural_id_range; auto; apply (md_wf K)|]. intros H. apply (ids_facts K) in H as (c' & I' & E).
  apply natural_id_inj in E; auto; [now subst|]. apply interior_in_grid; auto. apply (md_wf K).
Qed.
Lemma pass_con (m1 : bo R) p w w' q b pw : pass1 m1 p w w' q b pw -> w_con w' = Some (Some "q"%string) \/ w_con w' = Some (Some "pwf"%string).
Proof. intros (est & lim & _ & _ & _ & _ & _ & ->). destruct w. cbn. unfold con_of. destruct (fltb _ _); auto. Qed.
(** The recorded rate of a well that keeps its mode is the one of the assembly. *)
Lemma pass_rate p w w' q b pw : wgood w -> w_con w' = w_con w -> pass1 m (Some p) w w' q b pw ->
  q = Some (wk1 (m := m) w - wk2 (m := m) w * p)%R /\ wgood w' /\ wk2 (m := m) w' = wk2 (m := m) w /\ con w' = con w /\ w_pwfsp w' = w_pwfsp w.
Proof.
  intros (Gq & Gp) Cw (est & lim & H1 & H2 & H3 & H4 & H5 & ->). destruct w as [wq wqsp wpwf wsp wc wr ws' wre wG].
  unfold mid, con_of, pwf_of in *. cbn [with_con with_pwf_est with_q_est w_con w_q w_qsp w_pwf w_pwfsp w_G] in *.
  destruct (fltb (Some lim) est); subst wc.
  - destruct (Gq eq_refl) as (q0 & -> & Q0). unfold w_num, w_mode, con_is in H5. cbn in H5. inversion H5; subst q.
    unfold wk1, wk2, con, rate_of, wgood. cbn. repeat split; try discriminate; [f_equal; lra|eauto].
  - destruct (Gp eq_refl) as (p0 & -> & Q0). rewrite H2 in Q0. inversion Q0; subst p0; clear Q0. subst wsp.
    unfold w_num, w_mode, con_is in H5. cbn [w_q w_con w_G w_pwf] in H5.
    replace (if has wq then let* c := keyE (Some (Some "pwf"%string)) in Ok (match c with Some c => String.eqb c "q" | None => false end) else Ok false) with (@Ok bool false) in H5 by (destruct (has wq); reflexivity).
    cbn [rbind] in H5. destruct wG as [G|]; cbn [keyE rbind] in H5; [|discriminate].
    unfold wk1, wk2, con, pwf_set, wgood, Jw. cbn. repeat split; try discriminate; [|eauto].
    inversion H5. cbn. f_equal. unfold Rdiv. lra.
Qed.
End ready.

Definition same_modes (m m' : bo R) : Prop :=
  forall id w w', dget id (b_wells m) = Some w -> dget id (b_wells m') = Some w' -> w_con w' = w_con w.
Lemma at2_last {A} (l : list (list A)) a id : at2 (l ++ [a]) (length l) id = pyget a id.
Proof. unfold at2. now rewrite nth_error_last. Qed.
Lemma last_at (s : fs R) : shaped s -> nth_error (s_p s) (s_tstep s) = Some (last (s_p s) []) /\ nth_error (s_r s) (s_tstep s) = Some (last (s_r s) []).
Proof.
  intros (L1 & L2).
  assert (H : forall (l : list (list (fl R))) n, length l = S n -> nth_error l n = Some (last l [])).
  { intros l n Hl. destruct (exists_last (l := l)) as (l' & a & ->); [intros ->; discriminate|]. rewrite last_last. rewrite app_length in Hl. cbn in Hl.
    replace n with (length l') by lia. apply nth_error_last. }
  split; apply H; auto.
Qed.
Lemma pyget_value (row : list (fl R)) id v : (0 <= id)%Z -> pyget row id = Ok v -> value row id = v /\ Z.to_nat id < length row.
Proof.
  intros P E. rewrite pyget_nat in E by auto. destruct (nth_error row (Z.to_nat id)) eqn:En; inversion E; subst. split; [unfold value; now apply nth_error_nth|].
  apply nth_error_Some. congruence.
Qed.
Lemma value_pyget (row : list (fl R)) id : (0 <= id)%Z -> Z.to_nat id < length row -> pyget row id = Ok (value row id).
Proof.
  intros P L. rewrite pyget_nat by auto. destruct (nth_error row (Z.to_nat id)) eqn:En; [unfold value; now rewrite (nth_error_nth _ _ _ En)|].
  apply nth_error_None in En. lia.
Qed.

Lemma nodup_tonat l : NoDup l -> (forall id, In id l -> (0 <= id)%Z) -> NoDup (map Z.to_nat l).
Proof.
  induction l as [|a l IH]; intros D P; cbn [map]; [constructor|]. inversion D; subst. constructor; [|apply IH; auto; intros; apply P; now right].
  intros J. apply in_map_iff in J as (b & E & J). apply Z2Nat.inj in E; [subst; contradiction|apply P; now right|apply P; now left].
Qed.
Lemma rsum_sumR (h : nat -> R) (l : list Z) (f : Z -> R) : (forall p id, nth_error l p = Some id -> h p = f id) -> rsum h 0 (length l) = sumR (map f l).
Proof.
  revert h. induction l as [|a l IH]; intros h H; [reflexivity|]. cbn [length rsum map sumR]. rewrite rsum_shift'. rewrite (IH (fun i => h (S i))) by (intros p id Hp; exact (H (S p) id Hp)).
  now rewrite (H 0 a eq_refl).
Qed.
