(** Reservoirs without wells and without open boundaries. *)
From Coq Require Import String ZArith Bool Arith List Lia Reals Lra.
From Verif Require Import Prelude PreludeFacts Num GridModel GridSpec GridProofs GeoModel GeoSpec GeoProofs
  PropModel PropSpec MatrixProofs UnitsModel BlackOilModel FdmModel MonadFacts HistSpec InvFacts SumFacts ModelSpec ModelFacts VectFacts FaceFacts AsmFacts BalanceSpec
  StepSpec SolverSpec SolveSpec StepFacts WellStepFacts FdmSpec CanonFacts LinFacts NbrFacts SymbFacts BalFacts FormFacts StepBal SetupFacts Samples SampleFacts SampleWell SampleBal AssemblyThm BalanceThm ClosedSpec MixFacts ClosedFacts SampleClosed.
Import ListNotations.
Close Scope R_scope.
Open Scope nat_scope.

(** ** C47 *)
(** C47: in a compressible reservoir without wells and open boundaries every new
    pressure lies between the smallest and the largest pressure before the step,
    whatever the sizes, the rock and the pressures: on the vectorised path always,
    on the symbolic path if the reservoir is level. *)
Lemma L_C47_maximum_principle :
  forall (m0 : bo R) x y z u dx dy dz l m s k r r' lo hi,
  model m0 x y z u dx dy dz -> fresh m0 -> b_cmp m0 = true ->
  Forall direct l -> level m0 \/ Forall (path true) l ->
  all_ok (m0, None) (Compile :: l) -> after (m0, None) (Compile :: l) = (m, Some s) ->
  nth_error (s_p s) k = Some r -> nth_error (s_p s) (S k) = Some r' ->
  within m0 lo hi r -> within m0 lo hi r'.
Proof.
  intros m0 x y z u dx dy dz l m s k r r' lo hi K Fr Cm D Lv A E Hk Hk'.
  destruct (closed_history K l m s (fun v => level m0 \/ v = true) (fun r r' => forall lo hi, within m0 lo hi r -> within m0 lo hi r')) as (_ & H); auto.
  - intros c v I P. destruct Lv as [Lv|Lv]; [now left|right]. rewrite Forall_forall in Lv. specialize (Lv c I). destruct c; try contradiction; cbn in *; congruence.
  - intros v r0 r0' yy old Cp w O V' Cn W V Fx lo' hi'. now apply (within_step K v r0 r0' yy old Cp w).
  - eapply H; eauto.
Qed.

(** ** C46 *)
Lemma uniform_history m0 x y z u dx dy dz l m s c (K : model m0 x y z u dx dy dz) : fresh m0 -> b_cmp m0 = true -> Forall direct l -> level m0 \/ Forall (path true) l ->
  all_ok (m0, None) (Compile :: l) -> after (m0, None) (Compile :: l) = (m, Some s) -> uniform m0 c (b_ip m0) -> Forall (uniform m0 c) (s_p s).
Proof.
  intros Fr Cm D Lv A E U.
  assert (W : forall row, uniform m0 c row <-> within m0 c c row).
  { intros row. split; intros H id I; [exists c; split; [now apply H|lra]|]. destruct (H id I) as (v & -> & B). f_equal. lra. }
  assert (H : forall k r, nth_error (s_p s) k = Some r -> uniform m0 c r).
  { induction k as [|k IH]; intros r Hr.
    - destruct (closed_history K l m s (fun v => level m0 \/ v = true) (fun r r' => True)) as (H & _); auto.
      + intros c' v I P. destruct Lv as [Lv|Lv]; [now left|right]. rewrite Forall_forall in Lv. specialize (Lv c' I). destruct c'; try contradiction; cbn in *; congruence.
      + rewrite Hr in H. inversion H; subst. exact U.
    - destruct (nth_error (s_p s) k) as [r0|] eqn:Ek.
      + apply W. eapply (L_C47_maximum_principle m0 x y z u dx dy dz l m s k r0 r); eauto. apply W. now apply IH.
      + apply nth_error_None in Ek. assert (S k < length (s_p s)) by (apply nth_error_Some; congruence). lia. }
  apply Forall_forall. intros r I. apply In_nth_error in I as (k & Hk). eauto.
Qed.
Lemma ip_new (g : gobj R) f unit c dt m0 x y z u dx dy dz : bo_new g f unit (Some c) dt = Ok m0 -> model m0 x y z u dx dy dz -> uniform m0 c (b_ip m0) /\ fresh m0.
Proof.
  intros H K. assert (Q : exists n, set_many (b_ids m0) (repeat (Some c) (length (b_ids m0))) (repeat None n) = Ok (b_ip m0) /\ fresh m0).
  { unfold bo_new in H. destruct (set_units uobj0 unit) as [u' [[]|e]] eqn:Eu; [|discriminate].
    repeat match type of H with rbind ?t _ = _ => let E := fresh "E" in destruct t eqn:E; cbn [rbind] in H; [|discriminate] end.
    inversion H; subst m0. cbn [b_ids b_ip]. eexists. split; [eassumption|]. repeat split. }
  destruct Q as (n & Q & Fr). split; auto. intros id I. unfold set_many in Q. rewrite repeat_length, Nat.eqb_refl in Q.
  pose proof (many_get (b_ids m0) (repeat (Some c) (length (b_ids m0))) _ _ (proj1 (ids_facts K)) (fun i h => proj1 (proj1 (proj2 (ids_facts K)) i h)) ltac:(now rewrite repeat_length) Q) as G.
  destruct (In_nth_error _ _ I) as (p & Ep). destruct (rmap_nth' _ _ _ _ _ G Ep) as (b & Nb & Gb). apply nth_error_In, repeat_spec in Nb. subst b.
  pose proof (proj1 (proj2 (ids_facts K)) id I). apply pyget_value in Gb as (Gb & _); auto. lia.
Qed.
(** C46: a compressible model built with initial pressure c, without wells and
    open boundaries, keeps exactly that pressure in all interior cells and all
    steps, by either path (symbolic: if level). *)
Lemma L_C46_uniform_pressure :
  forall (g : gobj R) f unit c dt m0 x y z u dx dy dz l m s,
  bo_new g f unit (Some c) dt = Ok m0 -> model m0 x y z u dx dy dz -> b_cmp m0 = true ->
  Forall direct l -> level m0 \/ Forall (path true) l ->
  all_ok (m0, None) (Compile :: l) -> after (m0, None) (Compile :: l) = (m, Some s) ->
  Forall (uniform m0 c) (s_p s).
Proof.
  intros g f unit c dt m0 x y z u dx dy dz l m s Hn K Cm D Lv A E. destruct (ip_new _ _ _ _ _ _ _ _ _ _ _ _ _ Hn K) as (U & Fr).
  eapply uniform_history; eauto.
Qed.

(** ** C48 *)
(** C48, symbolic path: a compressible reservoir at rest (pressures differing by
    the weight of the fluid between the heights) without wells and open boundaries
    keeps exactly its pressures in all steps, whatever the heights. *)
Lemma L_C48_hydrostatic_partial :
  forall (m0 : bo R) x y z u dx dy dz l m s k r id,
  model m0 x y z u dx dy dz -> fresh m0 -> b_cmp m0 = true ->
  hydrostatic m0 (b_ip m0) -> (forall id, In id (b_ids m0) -> value (b_ip m0) id <> None) ->
  Forall direct l -> Forall (path false) l ->
  all_ok (m0, None) (Compile :: l) -> after (m0, None) (Compile :: l) = (m, Some s) ->
  nth_error (s_p s) k = Some r -> In id (b_ids m0) -> value r id = value (b_ip m0) id.
Proof.
  intros m0 x y z u dx dy dz l m s k r id K Fr Cm (zs & Ez & Hy) Kn D P A E.
  destruct (closed_history K l m s (fun v => v = false) (fun r r' => forall lo hi, within_potential m0 lo hi r -> within_potential m0 lo hi r')) as (H0 & H); auto.
  - intros c v I Pv. rewrite Forall_forall in P. specialize (P c I). destruct c; try contradiction; cbn in *; congruence.
  - intros v r0 r0' yy old Cp w -> V' Cn W V Fx lo' hi'. now apply (potential_step K r0 r0' yy old Cp w).
  - destruct (md_z _ _ _ _ _ _ _ _ K) as (zs' & Ez' & Lz). rewrite Ez in Ez'. inversion Ez'; subst zs'; clear Ez'.
    assert (Hz : forall j, In j (b_ids m0) -> exists h, pyget zs j = Ok h) by (intros j J; exists (nth (Z.to_nat j) zs 0%R); now apply (pyget_id K)).
    assert (Hv : forall j, In j (b_ids m0) -> exists v, value (b_ip m0) j = Some v /\ pyget (b_ip m0) j = Ok (Some v)).
    { intros j J. specialize (Kn j J). destruct (value (b_ip m0) j) as [v|] eqn:Ev; [|congruence]. exists v. split; auto.
      pose proof (proj1 (proj2 (ids_facts K)) j J). rewrite <- Ev. apply value_pyget; [lia|]. unfold value in Ev.
      destruct (Nat.lt_ge_cases (Z.to_nat j) (length (b_ip m0))) as [L|L]; auto. rewrite nth_overflow in Ev by lia. discriminate. }
    intros Hk I. destruct (Hv id I) as (v & Ev & Gv). destruct (Hz id I) as (h & Gh).
    assert (W : forall j r, nth_error (s_p s) j = Some r -> within_potential m0 (v - b_g m0 * h)%R (v - b_g m0 * h)%R r).
    { induction j as [|j IH]; intros r0 Hr.
      - rewrite Hr in H0. inversion H0; subst r0. exists zs. split; auto. intros j J. destruct (Hv j J) as (v' & Ev' & Gv'). destruct (Hz j J) as (h' & Gh').
        exists v', h'. split; auto. split; auto. specialize (Hy id j v v' h h' I J Gv Gv' Gh Gh'). cbn in Hy. unfold Reqb in Hy. destruct (Req_EM_T _ _) as [Q|]; [|discriminate].
        assert (v' - b_g m0 * h' = v - b_g m0 * h)%R by lra. lra.
      - destruct (nth_error (s_p s) j) as [r1|] eqn:Ej.
        + apply (H j r1 r0 Ej Hr). now apply IH.
        + apply nth_error_None in Ej. assert (S j < length (s_p s)) by (apply nth_error_Some; congruence). lia. }
    destruct (W k r Hk) as (zs' & Ez' & Wk). rewrite Ez in Ez'. inversion Ez'; subst zs'. destruct (Wk id I) as (v' & h' & V1 & V2 & V3).
    rewrite Gh in V2. inversion V2; subst h'. rewrite V1, Ev. f_equal. lra.
Qed.

(** ** C40 *)
Lemma fsum_sumR {A} (f : A -> fl R) h (l : list A) : (forall a, In a l -> f a = Some (h a)) -> fsum (map f l) = Some (sumR (map h l)).
Proof.
  induction l as [|a l IH]; intros H; [reflexivity|]. cbn [map sumR]. rewrite (H a (or_introl eq_refl)). rewrite fsum_cons, IH; auto. intros b I. apply H. now right.
Qed.
(** C40: an incompressible reservoir whose wells are all controlled by rate and
    that has no pressure boundary: at every step the assembled matrix maps constant
    vectors to zero, so shifting a solution gives a solution; and a solution exists
    only if the given rates sum to zero. *)
Lemma L_C40_closed_singular :
  forall (g : gobj R) f unit pi dt m0 x y z u dx dy dz l1 ob l2 steps m s X A d,
  bo_new g f unit pi dt = Ok m0 -> model m0 x y z u dx dy dz -> b_cmp m0 = false -> plain m0 l1 ob l2 ->
  all_ok (m0, None) (setup l1 ob l2 ++ Compile :: steps) ->
  along balanced_step (after (m0, None) (setup l1 ob l2 ++ [Compile])) steps ->
  after (m0, None) (setup l1 ob l2 ++ Compile :: steps) = (m, Some s) ->
  (forall id w, dget id (b_wells m) = Some w -> w_con w = Some (Some "q"%string)) ->
  (forall e, In e (b_bdict m) -> fst (snd e) <> "pressure"%string) ->
  get_matrices_vect (m, s) = (X, Ok (A, d)) ->
  (forall c p, p < msize A -> times A (repeat c (msize A)) p = 0%R) /\
  (forall c y, solves A d y -> solves A d (map (Rplus c) y)) /\
  (forall y, solves A d y -> given_rates m s = Some 0%R).
Proof.
  intros g f unit pi dt m0 x y z u dx dy dz l1 ob l2 steps m s X A d Hn K Cm Pl Ao Al E Wq Np Ea.
  destruct (history _ _ _ _ _ _ _ _ _ _ _ _ _ _ _ _ _ _ _ Hn K Pl Ao Al E) as (C & [Rwk Rwi Rwg Rwp Rbk Rbf Rbu Rlv Rsh Rln Rq Rkp _ _] & _ & _).
  pose proof (model_core _ _ _ _ _ _ _ _ _ (eq_sym C) K) as K'.
  assert (Cm' : b_cmp m = false) by (pose proof (core_fields _ _ C) as CF; destruct CF as (_ & _ & _ & _ & _ & _ & _ & _ & _ & CF & _); congruence).
  assert (Wc : forall id w, dget id (b_wells m) = Some w -> con w = "q"%string /\ exists q, w_q w = Some (Some q)).
  { intros id w Ew. split; [unfold con; now rewrite (Wq id w Ew)|]. destruct (proj1 (Rwg id w Ew) (Wq id w Ew)) as (q0 & Q1 & _). eauto. }
  assert (Ws : forall id w, dget id (b_wells m) = Some w -> settled w).
  { intros id w Ew. left. split; [now apply (Wq id)|now apply (Wc id)]. }
  destruct (assemble K' Rwk Ws Rbk Rbf Rbu Rlv s X A d (or_intror (proj1 Rkp)) Ea) as (_ & _ & _ & Fm & Wi & V).
  assert (Up : b_bup m = []).
  { rewrite Rbu. unfold pressured. replace (filter _ (b_bdict m)) with (@nil (Z * (string * R))); auto. symmetry. clear -Np. induction (b_bdict m) as [|e l IH]; cbn [filter]; auto.
    destruct (String.eqb_spec (fst (snd e)) "pressure") as [Q|]; [now apply Np in Q; [|left]|]. apply IH. intros e' I. apply Np. now right. }
  assert (E0 : form (m := m) A (fun _ => 0%R)).
  { eapply form_ext; [|exact Fm]. intros p Hp. cbv beta. rewrite Up. unfold over at 1. cbn [map sumR].
    rewrite (over_ext (dkeys (b_wells m)) (pos (m := m)) _ (fun _ => 0%R)); [rewrite over_zero; lra|]. intros id I. unfold wk2. now rewrite (proj1 (Wc id _ (wof_some id I))). }
  assert (Sz : msize A = length (b_ids m)) by apply E0.
  assert (A0 : forall p, p < length (b_ids m) -> acc m p = 0%R) by (intros p Hp; pose proof (acc_sign K' p Hp) as Q; now rewrite Cm' in Q).
  assert (Tm : forall v p, p < length (b_ids m) -> times A v p = flux (length (b_ids m)) (coupling m) (fun q => nth q v 0%R) p).
  { intros v p Hp. rewrite (times_form K' A _ v p E0 Hp), (A0 p Hp). lra. }
  split; [|split].
  - intros c p Hp. rewrite Tm by lia. rewrite Sz. unfold flux. apply rsum_zero. intros i Hi. rewrite !nth_repeat_lt by lia. ring.
  - intros c v (L1 & L2 & L3). split; [now rewrite map_length|]. split; auto. intros p Hp. rewrite (L3 p Hp). f_equal. rewrite !Tm by lia. unfold flux. apply rsum_ext. intros q Hq.
    rewrite !(nth_indep (map (Rplus c) v) 0%R (Rplus c 0)) by (rewrite map_length; lia). rewrite !map_nth. ring.
  - intros v (L1 & L2 & L3). rewrite Sz in *. assert (Vd : vals (m := m) d (times A v)) by (split; auto). destruct (V _ Vd) as (F1 & _ & F3).
    assert (Q : rsum (times A v) 0 (length (b_ids m)) = rsum (fun p => (- over (dkeys (b_wells m)) (pos (m := m)) (fun id => wk1 (m := m) (wof (m := m) id)) p - over (b_bdict m) (fun e => bpos (m := m) (fst e)) (bk1 (m := m) s) p)%R) 0 (length (b_ids m))).
    { apply rsum_ext. intros p Hp. rewrite F1 by lia. rewrite A0 by lia. ring. }
    rewrite (rsum_ext (times A v) (flux (length (b_ids m)) (coupling m) (fun q => nth q v 0%R))) in Q by (intros; apply Tm; lia).
    rewrite flux_total in Q by (intros; now apply (cp_sym K')). rewrite rsum_minus in Q.
    rewrite (rsum_ext (fun p => - over _ _ _ p)%R (fun p => (-1) * over (dkeys (b_wells m)) (pos (m := m)) (fun id => wk1 (m := m) (wof (m := m) id)) p)%R) in Q by (intros; ring).
    rewrite rsum_scal in Q. rewrite (rsum_over (dkeys (b_wells m))) in Q by (intros id I; apply (pos_in K'); auto).
    rewrite (rsum_over (b_bdict m)) in Q by (intros e I; apply (bpos_lt K'); auto).
    unfold given_rates. rewrite (fsum_sumR _ (fun e => wk1 (m := m) (wof (m := m) (fst e)))).
    2:{ intros [id w] I. cbn [fst snd]. pose proof (dget_In_nodup _ _ _ Rwk I) as Ew. unfold wof. rewrite Ew. destruct (Wc id w Ew) as (Cw & q & Eq). unfold wk1, rate_of. rewrite Cw, Eq. reflexivity. }
    rewrite (fsum_sumR _ (bk1 (m := m) s)).
    2:{ intros e I. pose proof (Np e I) as Ne. destruct (F3 e I Ne) as (r & Er). unfold bk1, brate. rewrite Er. destruct (String.eqb_spec (fst (snd e)) "pressure"); [contradiction|].
        unfold at2 in Er. rewrite (proj2 (last_at s Rsh)) in Er. destruct (face_facts K' _ (Rbf e I)) as (P0 & _). apply pyget_value in Er as (Er & _); auto. lia. }
    cbn. f_equal. unfold dkeys in Q. rewrite map_map in Q. lra.
Qed.

(** ** The hypotheses can be met *)
Lemma uneven_model : model uneven 3 1 1 true (Scalar 1%R) (Scalar 1%R) (Scalar 1%R).
Proof. eapply (model_core (line3 (1 + 0) true (Some 10%R))); [reflexivity|]. apply line3_model. intros; lra. Qed.
Example ex_C47_case : exists m0 l m s r r', (exists x y z u dx dy dz, model m0 x y z u dx dy dz) /\ fresh m0 /\ b_cmp m0 = true /\ Forall direct l /\ level m0 /\
  ~ Forall (path true) l /\ all_ok (m0, None) (Compile :: l) /\ after (m0, None) (Compile :: l) = (m, Some s) /\
  nth_error (s_p s) 1 = Some r /\ nth_error (s_p s) 2 = Some r' /\ within m0 1 3 r /\ ~ within m0 2 2 r'.
Proof.
  destruct run_mixed as (m & s & (A & E) & P1 & P2). exists uneven, mixed_steps, m, s. do 2 eexists.
  split; [do 7 eexists; apply uneven_model|]. split; [repeat split|]. split; [reflexivity|]. split; [apply mixed_direct|].
  split; [exists (repeat 0%R 5), 0%R; split; [reflexivity|]; cbn; intros id [<-|[<-|[<-|[]]]]; reflexivity|].
  split; [intros H; inversion H as [|? ? ? H2]; subst; inversion H2; subst; cbn in *; discriminate|]. split; [exact A|]. split; [exact E|].
  split; [exact P1|]. split; [exact P2|]. split.
  - intros id [<-|[<-|[<-|[]]]]; eexists; (split; [reflexivity|lra]).
  - intros H. destruct (H 1%Z) as (v & Ev & Bv); [now left|]. cbn in Ev. inversion Ev; subst. lra.
Qed.
Example ex_C46_case : exists m0 l m s, (exists g f unit dt, bo_new g f unit (Some 10%R) dt = Ok m0) /\ (exists x y z u dx dy dz, model m0 x y z u dx dy dz) /\ b_cmp m0 = true /\
  Forall direct l /\ level m0 /\ ~ Forall (path true) l /\ all_ok (m0, None) (Compile :: l) /\ after (m0, None) (Compile :: l) = (m, Some s) /\ s_tstep s = 3.
Proof.
  destruct run_even as (m & s & (A & E) & T). exists (line3 (1 + 0) true (Some 10%R)), even_steps, m, s.
  split.
  { pose proof (line3_pos 1 (Some 10%R) Rlt_0_1) as H. unfold build in H. repeat match type of H with rbind ?t _ = _ => destruct t; cbn [rbind] in H; [|discriminate] end. eauto. }
  split; [do 7 eexists; apply line3_model; intros; lra|]. split; [reflexivity|]. split; [apply even_direct|]. split; [apply line3_level|].
  split; [intros H; inversion H; subst; cbn in *; discriminate|]. auto.
Qed.
Example ex_C48_case : exists m0 l m s, (exists x y z u dx dy dz, model m0 x y z u dx dy dz) /\ fresh m0 /\ b_cmp m0 = true /\
  hydrostatic m0 (b_ip m0) /\ ~ level m0 /\ (forall id, In id (b_ids m0) -> value (b_ip m0) id <> None) /\ Forall direct l /\ Forall (path false) l /\
  all_ok (m0, None) (Compile :: l) /\ after (m0, None) (Compile :: l) = (m, Some s) /\ s_tstep s = 3.
Proof.
  destruct run_rest as (m & s & (A & E) & T). exists (slope 1 true), rest_steps, m, s.
  split; [do 7 eexists; apply slope_model|]. split; [repeat split|]. split; [reflexivity|]. split; [apply slope_rest|].
  split.
  { intros (zs & c & Ez & H). cbn in Ez. inversion Ez; subst. pose proof (H 1%Z (or_introl eq_refl)) as Q1. pose proof (H 2%Z (or_intror (or_introl eq_refl))) as Q2.
    cbn in Q1, Q2. inversion Q1. inversion Q2. lra. }
  split; [intros id [<-|[<-|[<-|[]]]]; discriminate|]. split; [apply rest_direct|]. split; [apply rest_direct|]. auto.
Qed.
Example ex_C40_case : exists m0 l1 ob l2 m s X A d y,
  (exists g f unit pi dt, bo_new g f unit pi dt = Ok m0) /\ (exists x y z u dx dy dz, model m0 x y z u dx dy dz) /\ b_cmp m0 = false /\ plain m0 l1 ob l2 /\
  all_ok (m0, None) (setup l1 ob l2 ++ [Compile]) /\ along balanced_step (after (m0, None) (setup l1 ob l2 ++ [Compile])) [] /\
  after (m0, None) (setup l1 ob l2 ++ [Compile]) = (m, Some s) /\
  (forall id w, dget id (b_wells m) = Some w -> w_con w = Some (Some "q"%string)) /\
  (forall e, In e (b_bdict m) -> fst (snd e) <> "pressure"%string) /\ b_wells m <> [] /\ length (b_bdict m) = 2 /\
  get_matrices_vect (m, s) = (X, Ok (A, d)) /\ solves A d y.
Proof.
  destruct run_drains as (G & req & m1 & X & A & d & E1 & E2 & W & D & Ea & So).
  assert (Af : after (line3 0 false (Some 10%R), None) (setup [injector] (Some drains) [] ++ [Compile]) = (m1, Some (fdm_new m1))).
  { unfold setup. cbn [app after fold_left]. rewrite E1. cbn [fst snd]. rewrite E2. reflexivity. }
  exists (line3 0 false (Some 10%R)), [injector], (Some drains), [], m1, (fdm_new m1), X, A, d, [0; 1 / 2; 0]%R.
  split; [eapply build_new; apply line3_zero|]. split; [do 7 eexists; apply line3_model; discriminate|]. split; [reflexivity|].
  split.
  { unfold plain, setup. cbn [app after fold_left]. rewrite E1. cbn [fst]. rewrite E2. unfold controlled. cbn [fst]. rewrite W.
    split; [unfold drains; split; [repeat constructor; cbn; intuition discriminate|repeat constructor; apply side_faces; cbn; auto]|].
    split; [repeat constructor|]. split; [constructor|]. split; [left; apply line3_level|].
    intros id w (Hw & Hc). cbn in Hw. destruct (Z.eqb id 2); [|discriminate]. inversion Hw; subst. discriminate. }
  split; [unfold setup; cbn [app all_ok]; rewrite E1; cbn [fst snd]; rewrite E2; cbn; auto|].
  split; [exact I|]. split; [exact Af|]. split; [rewrite W; intros id w Hw; cbn in Hw; destruct (Z.eqb id 2); [inversion Hw; reflexivity|discriminate]|].
  split; [rewrite D; intros e [<-|[<-|[]]]; cbn; discriminate|]. split; [rewrite W; discriminate|]. split; [rewrite D; reflexivity|]. auto.
Qed.
