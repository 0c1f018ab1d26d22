(** Setting up a model: what set_well and set_boundaries leave behind. *)
From Coq Require Import String ZArith Bool Arith List Lia Reals Lra.
From Verif Require Import Prelude PreludeFacts Num GridModel GridSpec GridThm GeoModel GeoSpec GeoProofs
  GridProofs GridNeighbors PropModel PropSpec MatrixProofs BlackOilModel FdmModel MonadFacts HistSpec InvFacts SumFacts ModelSpec ModelFacts VectFacts FaceFacts AsmFacts
  UnitsModel SolverSpec SolveSpec StepSpec StepFacts WellStepFacts BalanceSpec CanonFacts SymbFacts BalFacts FormFacts StepBal.
Import ListNotations.
Close Scope R_scope.
Open Scope nat_scope.

Lemma nth_repeat_lt {A} (a d : A) n i : i < n -> nth i (repeat a n) d = a.
Proof. revert i. induction n as [|n IH]; intros [|i] H; cbn; auto; try lia. apply IH. lia. Qed.

Section setup.
Context (m0 : bo R) (n : nat).
Definition quiet (keys : list Z) (x : ws R) : Prop :=
  length (b_ir (fst x)) = n /\ forall id, (0 <= id)%Z -> Z.to_nat id < n -> ~ In id keys -> value (b_ir (fst x)) id = Some 0%R.
Definition fine (x : ws R) : Prop :=
  snd x = None /\ core (fst x) = core m0 /\ forall id w, dget id (b_wells (fst x)) = Some w -> wgood w.
Definition SU (B : list (Z * (string * R))) (U : list Z) (x : ws R) : Prop :=
  fine x /\ wkeys (b_ids m0) x /\ b_bdict (fst x) = B /\ b_bup (fst x) = U /\ quiet (dkeys B) x.

Lemma fields_set_wells (m : bo R) w : b_wells (set_wells w m) = w /\ b_bdict (set_wells w m) = b_bdict m /\ b_bup (set_wells w m) = b_bup m /\ b_ir (set_wells w m) = b_ir m.
Proof. destruct m; auto. Qed.
Definition P1 B U (x : ws R) : Prop := fine x /\ b_bdict (fst x) = B /\ b_bup (fst x) = U /\ quiet (dkeys B) x.
Lemma p_set B U id w (x : ws R) : P1 B U x -> wgood w -> P1 B U (set_wells (dset id w (b_wells (fst x))) (fst x), snd x).
Proof.
  intros ((H1 & H2 & H3) & H4 & H5 & H6) G. destruct (fields_set_wells (fst x) (dset id w (b_wells (fst x)))) as (F1 & F2 & F3 & F4).
  unfold P1, fine, quiet. cbn [fst snd]. rewrite F1, F2, F3, F4, core_wells. repeat split; auto; try apply H6.
  all: match goal with |- _ => idtac end.
  all: rewrite dget_dset_z in H; destruct (Z.eqb id0 id); [inversion H; subst; apply G|apply (H3 id0); exact H].
Qed.
Lemma p_upd B U id f : (forall m w w', f m w = Ok w' -> wgood w -> wgood w') -> inv (P1 B U) (upd_well id f).
Proof.
  intros Hf. unfold upd_well. apply i_set. intros x x' Hx E. unfold dgetE in E. destruct (dget id (b_wells (fst x))) as [w|] eqn:Ew; [|discriminate]. cbn [rbind] in E.
  destruct (f (fst x) w) as [w'|] eqn:Ef; [|discriminate]. cbn [rbind] in E. inversion E; subst. apply p_set; auto. apply (Hf _ _ _ Ef). now apply Hx in Ew.
Qed.
Lemma p_log B U id : inv (P1 B U) (log_pressure id).
Proof. unfold log_pressure. apply i_set. intros [[] o] [? ?] Hx E. cbn [fst snd] in *. fin. exact Hx. Qed.
Lemma g_other (w w' : well R) : w_con w' = w_con w -> w_q w' = w_q w -> w_qsp w' = w_qsp w -> w_pwf w' = w_pwf w -> w_pwfsp w' = w_pwfsp w -> wgood w -> wgood w'.
Proof. unfold wgood. intros -> -> -> -> ->. auto. Qed.
Lemma g_pwf p (w : well R) : wgood w -> wgood (with_pwf p w).
Proof. destruct w; unfold wgood; cbn. intros (H & _). split; auto. eauto. Qed.
Lemma p_tail B U id : inv (P1 B U) (set_well_tail id).
Proof.
  unfold set_well_tail. isplit; auto using p_log; apply p_upd; intros m w w' E G; fin; auto using g_pwf;
    (eapply g_other; [..|exact G]; now destruct w).
Qed.
Lemma p_set_well B U cell q pwf r s : inv (P1 B U) (set_well cell q pwf r s).
Proof.
  unfold set_well. destruct cell as [id|]; [|apply i_read]. unfold assert_inside. isplit; auto using p_log, p_tail.
  - apply i_set. intros x x' Hx E. destruct (din id (b_wells (fst x))); inversion E; subst; auto. apply p_set; auto. split; discriminate.
  - apply p_upd. intros m w w' E G. inversion E; subst. destruct w; unfold wgood; cbn. split; [eauto|discriminate].
  - apply p_upd. intros m w w' E G. inversion E; subst. clear E. apply (g_pwf a2) in G. cbn zeta.
    destruct (has (w_q (with_pwf a2 w))); auto. destruct w; unfold wgood in *; cbn in *. split; [discriminate|eauto].
  - apply p_upd. intros m w w' E G. inversion E; subst. destruct (has (w_con w)); auto. destruct w; unfold wgood; cbn. split; discriminate.
  - apply p_upd. intros m w w' E G. inversion E; subst. eapply g_other; [..|exact G]; now destruct w.
  - apply p_upd. intros m w w' E G. inversion E; subst. eapply g_other; [..|exact G]; now destruct w.
Qed.
Lemma su_split B U x : SU B U x <-> P1 B U x /\ wkeys (b_ids m0) x.
Proof. unfold SU, P1. tauto. Qed.
Lemma su_wells B U l : forall x, Forall sets_well l -> SU B U x -> SU B U (after x l).
Proof.
  induction l as [|c l IH]; intros x F H; cbn [after fold_left]; auto. inversion F; subst. apply IH; auto. destruct c; try contradiction.
  apply su_split in H as (H & H'). apply su_split. split; [now apply p_set_well|now apply wk_set_well].
Qed.

(** Boundaries: only the rates of the cells named change. *)
Lemma value_upd (l : list (fl R)) i v id : (0 <= i)%Z -> (0 <= id)%Z -> id <> i -> value (upd l (Z.to_nat i) v) id = value l id.
Proof. intros. unfold value. apply nth_upd_other. lia. Qed.
Definition P2 (B : list (Z * (string * R))) (keys : list Z) (x : ws R) : Prop := fine x /\ wkeys (b_ids m0) x /\ b_bdict (fst x) = B /\ quiet keys x.
Lemma p2_rate B keys id v : (0 <= id)%Z -> In id keys -> inv (P2 B keys) (put_rate id v).
Proof.
  intros Hi I. unfold put_rate. apply i_set. intros [m o] [m' o'] ((H1 & H2 & H3) & H4 & H5 & H6 & H7) E. cbn [fst snd] in *. subst o.
  destruct (pyset (b_ir m) id v) as [row|] eqn:Er; [|discriminate]. cbn [rbind] in E. inversion E; subst. apply pyset_nat in Er as (L & ->); auto.
  destruct m. split; [exact (conj eq_refl (conj H2 H3))|]. split; [exact H4|]. split; [reflexivity|].
  split; [cbn; now rewrite upd_length|].
  intros j Hj Lj N. refine (eq_trans (value_upd _ _ _ _ _ _ _) _); auto. intros ->. contradiction.
Qed.
Lemma p2_press B keys id v : inv (P2 B keys) (put_pressure id v).
Proof. unfold put_pressure. apply i_set. intros [[] o] [? ?] Hx E. cbn [fst snd] in *. destruct Hx as ((H1 & Hr) & Hx). cbn [fst snd] in *. subst o. fin. split; auto. split; auto. Qed.
Lemma p2_boundary B keys id c v : (0 <= id)%Z -> In id keys -> inv (P2 B keys) (set_boundary id c v).
Proof. intros Hi I. unfold set_boundary. isplit; auto using p2_rate, p2_press. Qed.
Lemma su_boundaries bd x X : SU [] [] x -> (forall e, In e bd -> (0 <= fst e)%Z) -> set_boundaries bd x = (X, Ok tt) -> SU bd (pressured bd) X.
Proof.
  intros (H1 & H2 & H3 & H4 & H5 & H6) P E. unfold set_boundaries in E.
  apply mbind_ok in E as ([] & X1 & E1 & E). apply mset_ok in E1. inversion E1; subst X1; clear E1.
  apply mbind_ok in E as (bs & X1 & E1 & E). apply mread_ok in E1 as (-> & E1).
  apply mbind_ok in E as ([] & X1 & E2 & E). apply mset_ok in E. inversion E; subst X; clear E.
  assert (Q0 : P2 bd (dkeys bd) (set_bdict bd (fst x), snd x)).
  { destruct x as [[] o]. cbn [fst snd] in *. split; [exact H1|]. split; [exact H2|]. split; [reflexivity|]. split; [exact H5|]. intros. now apply H6. }
  match type of E2 with miter ?f ?l ?a = _ => assert (Q : inv (P2 bd (dkeys bd)) (miter f l)) end.
  { apply i_iter. intros [id [c v]] I. isplit. apply p2_boundary; [exact (P _ I)|]. unfold dkeys. change id with (fst (id, (c, v))). now apply in_map. }
  specialize (Q _ Q0). rewrite E2 in Q. cbn [fst] in Q. destruct Q as ((Q1 & Q2 & Q3) & Q4 & Q5 & Q6 & Q7). destruct X1 as [[] o]. cbn [fst snd] in *.
  cbn in Q5. subst. split; [exact (conj eq_refl (conj Q2 Q3))|]. split; [exact Q4|]. split; [reflexivity|]. split; [reflexivity|]. split; [exact Q6|exact Q7].
Qed.
End setup.

(** ** Recorded rates *)
Definition still (v : list (fl R) * list (Z * terms R)) (x : ws R) : Prop := snd x = None /\ (b_ir (fst x), b_terms (fst x)) = v.
Lemma st_set v id w (x : ws R) : still v x -> still v (set_wells (dset id w (b_wells (fst x))) (fst x), snd x).
Proof. destruct x as [[] o]. exact (fun H => H). Qed.
Lemma st_upd v id f : inv (still v) (upd_well id f).
Proof.
  unfold upd_well. apply i_set. intros x x' Hx E. unfold dgetE in E. destruct (dget id (b_wells (fst x))) as [w|]; [|discriminate]. cbn [rbind] in E.
  destruct (f (fst x) w); [|discriminate]. cbn [rbind] in E. inversion E; subst. now apply st_set.
Qed.
Lemma st_log v id : inv (still v) (log_pressure id).
Proof. unfold log_pressure. apply i_set. intros [[] o] [? ?] Hx E. cbn [fst snd] in *. fin. exact Hx. Qed.
Lemma st_set_well v cell q pwf r s : inv (still v) (set_well cell q pwf r s).
Proof.
  unfold set_well. destruct cell as [id|]; [|apply i_read]. unfold assert_inside, set_well_tail. isplit; auto using st_log, st_upd.
  apply i_set. intros x x' Hx E. destruct (din id (b_wells (fst x))); inversion E; subst; auto. now apply st_set.
Qed.
Lemma st_wells v l : forall x, Forall sets_well l -> still v x -> still v (after x l).
Proof.
  induction l as [|c l IH]; intros x F H; cbn [after fold_left]; auto. inversion F; subst. apply IH; auto. destruct c; try contradiction. now apply st_set_well.
Qed.
(** The rates of the conditions processed so far are recorded. *)
Lemma rate_grad c : smem c RATE = true -> smem c GRAD = true -> False.
Proof. unfold smem, RATE, GRAD. cbn. destruct (String.eqb_spec c "rate") as [->|]; [discriminate|]. destruct (String.eqb_spec c "q") as [->|]; discriminate. Qed.
Lemma press_grad c : smem c PRESS = true -> smem c GRAD = true -> False.
Proof. unfold smem, PRESS, GRAD. cbn. destruct (String.eqb_spec c "pressure") as [->|]; [discriminate|]. destruct (String.eqb_spec c "press") as [->|]; [discriminate|]. destruct (String.eqb_spec c "p") as [->|]; discriminate. Qed.
Definition noted (B : list (Z * (string * R))) (x : ws R) : Prop := snd x = None /\ b_terms (fst x) = [] /\
  forall e v, In e B -> prescribes (fst x) e v -> value (b_ir (fst x)) (fst e) = Some v.
Lemma fields_ir (m : bo R) row : b_ir (set_ir row m) = row /\ b_terms (set_ir row m) = b_terms m.
Proof. destruct m; auto. Qed.
Lemma nt_put B id v x X : (0 <= id)%Z -> ~ In id (dkeys B) -> (forall e, In e B -> (0 <= fst e)%Z) -> noted B x -> put_rate id v x = (X, Ok tt) ->
  noted B X /\ value (b_ir (fst X)) id = v.
Proof.
  intros Hi Ni P (H1 & H2 & H3) E. unfold put_rate in E. apply mset_ok in E. destruct x as [m o]. cbn [fst snd] in *. subst o.
  destruct (pyset (b_ir m) id v) as [row|] eqn:Er; [|discriminate]. cbn [rbind] in E. inversion E; subst. apply pyset_nat in Er as (L & ->); auto.
  destruct (fields_ir m (upd (b_ir m) (Z.to_nat id) v)) as (F1 & F2). unfold noted. cbn [fst snd]. rewrite F1, F2. split; [|unfold value; now apply nth_upd_same]. split; [reflexivity|]. split; [exact H2|]. intros e r I R. apply (prescribes_core _ m) in R; [|apply core_ir].
  rewrite <- (H3 e r I R). refine (value_upd _ _ _ _ Hi (P e I) _). intros J. apply Ni. rewrite <- J. now apply in_map.
Qed.
Lemma nt_boundary B id c v x X : (0 <= id)%Z -> ~ In id (dkeys B) -> (forall e, In e B -> (0 <= fst e)%Z) -> noted B x -> set_boundary id c v x = (X, Ok tt) -> noted (B ++ [(id, (c, v))]) X.
Proof.
  intros Hi Ni P H E. unfold set_boundary in E.
  assert (Q : noted B X /\ forall r, prescribes (fst X) (id, (c, v)) r -> value (b_ir (fst X)) id = Some r).
  { assert (CX : core (fst X) = core (fst x)).
    { assert (I : inv (fun y : ws R => core (fst y) = core (fst x)) (set_boundary id c v)) by
        (apply (c_boundary (fun m => core m = core (fst x))); intros; rewrite ?core_ip, ?core_ir, ?core_wells, ?core_wp, ?core_bdict, ?core_bup, ?core_terms; auto).
      specialize (I x eq_refl). unfold set_boundary in I. rewrite E in I. exact I. }
    unfold prescribes. cbn [fst snd].
    destruct (smem (lower c) RATE) eqn:ER; [destruct (nt_put _ _ _ _ _ Hi Ni P H E) as (Q1 & Q2); split; auto; intros r [(_ & ->)|(Gr & _)]; auto; exfalso; revert ER Gr; apply rate_grad|].
    destruct (smem (lower c) PRESS) eqn:EP.
    - split; [|intros r [(? & _)|(Gr & _)]; [discriminate|exfalso; revert EP Gr; apply press_grad]]. unfold put_pressure in E. apply mset_ok in E. destruct x as [m o], H as (H1 & H2 & H3). cbn [fst snd] in *. subst o. destruct (pyset (b_ip m) id (Some v)); [|discriminate]. cbn [rbind] in E. inversion E; subst. destruct m. split; [reflexivity|]. split; [exact H2|exact H3].
    - destruct (smem (lower c) GRAD).
      + apply mbind_ok in E as (r & X1 & E1 & E). apply mread_ok in E1 as (-> & E1). cbn beta in E1. destruct (nt_put _ _ _ _ _ Hi Ni P H E) as (Q1 & Q2). split; auto. intros r' [(? & _)|(_ & Gr)]; [discriminate|]. rewrite (grad_core _ _ _ _ CX) in Gr. congruence.
      + discriminate. }
  destruct Q as ((Q1 & Q2 & Q3) & Q4). split; auto. split; auto. intros e r I R. apply in_app_or in I as [I|[<-|[]]]; [now apply Q3|]. now apply Q4.
Qed.
Lemma nt_loop bs : forall bd B x X, NoDup (dkeys (B ++ bd)) -> (forall e, In e (B ++ bd) -> (0 <= fst e)%Z) -> noted B x ->
  miter (fun e : Z * (string * R) => match e with (id, (cond, v)) => do _ <- mread (fun _ => passert (zmem id bs)) ;; set_boundary id cond v end) bd x = (X, Ok tt) -> noted (B ++ bd) X.
Proof.
  induction bd as [|[id [c v]] bd IH]; intros B x X D P H E; cbn [miter] in E; [rewrite app_nil_r; now inversion E; subst|].
  apply mbind_ok in E as ([] & X1 & E1 & E). apply mbind_ok in E1 as (b & X2 & E0 & E1). apply mread_ok in E0 as (-> & _).
  replace (B ++ (id, (c, v)) :: bd)%list with ((B ++ [(id, (c, v))]) ++ bd)%list in * by (rewrite <- app_assoc; reflexivity).
  apply (IH _ X1); auto. apply (nt_boundary B id c v x); auto.
  - apply (P (id, (c, v))). apply in_or_app. left. apply in_or_app. right. now left.
  - unfold dkeys in *. rewrite !map_app in D. cbn [map fst] in D. rewrite <- app_assoc in D. cbn [app] in D. apply NoDup_remove_2 in D. intros J. apply D. apply in_or_app. now left.
  - intros e I. apply P. apply in_or_app. left. apply in_or_app. now left.
Qed.
Lemma nt_boundaries bd x X : b_terms (fst x) = [] -> snd x = None -> NoDup (dkeys bd) -> (forall e, In e bd -> (0 <= fst e)%Z) -> set_boundaries bd x = (X, Ok tt) -> noted bd X.
Proof.
  intros H1 H2 D P E. unfold set_boundaries in E.
  apply mbind_ok in E as ([] & X1 & E1 & E). apply mset_ok in E1. inversion E1; subst X1; clear E1.
  apply mbind_ok in E as (bs & X1 & E1 & E). apply mread_ok in E1 as (-> & E1).
  apply mbind_ok in E as ([] & X1 & E2 & E). apply mset_ok in E. inversion E; subst X; clear E.
  apply (nt_loop bs bd []) in E2; auto; [|destruct x as [[] o]; split; [exact H2|split; [exact H1|intros ? ? []]]]. cbn [app] in E2. destruct X1 as [[] o]. exact E2.
Qed.
Lemma nt_wells B l x : Forall sets_well l -> noted B x -> noted B (after x l).
Proof.
  intros F (H1 & H2 & H3). destruct (st_wells (b_ir (fst x), b_terms (fst x)) l x F (conj H1 eq_refl)) as (S1 & S2). inversion S2 as [[S3 S4]].
  split; auto. split; [congruence|]. rewrite S3. intros e v I R. apply H3; auto. revert R. apply prescribes_core.
  apply (c_after (fun m => core m = core (fst x))); auto; intros; [rewrite core_ip|rewrite core_ir|rewrite core_wells|rewrite core_wp|rewrite core_bdict|rewrite core_bup|rewrite core_terms]; auto.
Qed.

Section balance.
Context (m0 : bo R).
Notation n := (get_n (gr (geom (b_grid m0))) true).
Lemma su_new (g : gobj R) f unit pi dt : bo_new g f unit pi dt = Ok m0 -> SU m0 n [] [] (m0, None).
Proof.
  intros H. unfold bo_new in H. destruct (set_units uobj0 unit) as [u' [[]|e]] eqn:Eu; [|discriminate].
  repeat match type of H with rbind ?t _ = _ => destruct t; cbn [rbind] in H; [|discriminate] end.
  inversion H; subst m0. unfold SU, fine, wkeys, quiet. cbn [fst snd b_wells b_bdict b_bup b_ir b_ids dget dkeys map].
  split; [split; [reflexivity|split; [reflexivity|discriminate]]|]. split; [split; [reflexivity|split; [constructor|intros ? []]]|].
  split; [reflexivity|]. split; [reflexivity|]. split; [apply repeat_length|].
  intros id Hi L _. unfold value. now apply nth_repeat_lt.
Qed.
Lemma nt_new (g : gobj R) f unit pi dt : bo_new g f unit pi dt = Ok m0 -> noted [] (m0, None).
Proof.
  intros H. unfold bo_new in H. destruct (set_units uobj0 unit) as [u' [[]|e]] eqn:Eu; [|discriminate].
  repeat match type of H with rbind ?t _ = _ => destruct t; cbn [rbind] in H; [|discriminate] end.
  inversion H; subst m0. split; [reflexivity|]. split; [reflexivity|]. intros ? ? [].  
Qed.
Lemma ready_start bd (x0 : ws R) : SU m0 n bd (pressured bd) x0 -> noted bd x0 -> NoDup (map fst bd) -> Forall (fun e => face_id m0 (fst e)) bd ->
  level m0 \/ (forall id w, ~ controlled x0 "q" id w) ->
  (forall id w, controlled x0 "pwf" id w -> w_pwfsp w <> Some 0%R) ->
  core (fst x0) = core m0 /\ b_bdict (fst x0) = bd /\ ready (m := fst x0) (fdm_new (fst x0)).
Proof.
  intros ((H1 & H2 & H3) & (H4 & H5 & H6) & H7 & H8 & H9 & H10) (N1 & N2 & N3) Nd Fc Lv Hp. split; auto. split; auto.
  pose proof (core_fields _ _ H2) as (Cg & Ci & _). destruct x0 as [m o]. unfold controlled in *. cbn [fst snd] in *. split; rewrite ?H7; auto.
  - rewrite H4. exact H6.
  - intros id w Hw C. apply (Hp id w). split; auto.
  - intros e I. rewrite Forall_forall in Fc. specialize (Fc e I). unfold face_id in *. now rewrite Cg.
  - destruct Lv as [Lv|Lv].
    + left. destruct Lv as (zs & h & L1 & L2). exists zs, h. split; [|rewrite H4; exact L2]. rewrite <- L1. unfold gz, bgrid, ggrid. now rewrite Cg.
    + right. intros id w Hw C. apply (Lv id w). split; auto. unfold con in C. destruct (w_con w) as [[c|]|]; try discriminate. now subst.
  - unfold shaped, fdm_new. cbn. auto.
  - cbn. rewrite Cg. exact H9.
  - cbn. intros id Hi L _ N. apply H10; auto. rewrite <- Cg. exact L.
  - split; left; reflexivity.
  - intros id t E. rewrite N2 in E. discriminate.
Qed.
End balance.
