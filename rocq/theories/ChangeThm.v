(** Controls changed between the steps. *)
From Coq Require Import String ZArith Bool Arith List Lia Reals Lra QArith.
From Verif Require Import Prelude PreludeFacts Num GridModel GridSpec GeoModel GeoSpec PropModel PropSpec
  UnitsModel BlackOilModel FdmModel MonadFacts HistSpec InvFacts AsmFacts ModelSpec ModelFacts VectFacts AssemblyThm Samples SampleFacts SampleWell SampleBal QSamples SolverSpec SolveSpec StepSpec StepFacts WellStepFacts
  BalanceSpec FdmSpec BalFacts CanonFacts StepBal SetupFacts BalanceThm LocalSpec LocalThm SampleLocal TotalSpec TotalHist ChangeSpec ChangeFacts.
Import ListNotations.
Close Scope Q_scope. Close Scope R_scope.
Open Scope nat_scope.

(** ** Histories *)
Lemma terms_set (m : bo R) : (forall v, b_terms (set_bdict v m) = b_terms m) /\ (forall v, b_terms (set_bup v m) = b_terms m) /\ (forall v, b_terms (set_ip v m) = b_terms m) /\ (forall v, b_terms (set_ir v m) = b_terms m).
Proof. now destruct m. Qed.
Lemma tb_boundary v id c p : inv (fun x : ws R => b_terms (fst x) = v) (set_boundary id c p).
Proof.
  assert (H1 : forall q, inv (fun x : ws R => b_terms (fst x) = v) (put_rate id q)).
  { intros q. unfold put_rate. apply i_set. intros [m o] [m' o'] Hx E. cbn [fst snd] in *. destruct o as [s|]; [destruct (s_tstep s =? 0)|]; fin; auto; rewrite ?(proj2 (proj2 (proj2 (terms_set _)))); auto. }
  assert (H2 : forall q, inv (fun x : ws R => b_terms (fst x) = v) (put_pressure id q)).
  { intros q. unfold put_pressure. apply i_set. intros [m o] [m' o'] Hx E. cbn [fst snd] in *. destruct o as [s|]; [destruct (s_tstep s =? 0)|]; fin; auto; rewrite ?(proj1 (proj2 (proj2 (terms_set _)))); auto. }
  unfold set_boundary. isplit; auto.
Qed.
Lemma tb_boundaries v bd : inv (fun x : ws R => b_terms (fst x) = v) (set_boundaries bd).
Proof.
  unfold set_boundaries. isplit.
  - apply i_set. intros [m o] [m' o'] Hx E. injection E as <- <-. destruct m. exact Hx.
  - match goal with e : (Z * (string * R))%type |- _ => destruct e as [id [c p]] end. isplit. apply tb_boundary.
  - apply i_set. intros [m o] [m' o'] Hx E. injection E as <- <-. destruct m. exact Hx.
Qed.
Lemma setup_terms (g : gobj R) f unit pi dt m0 l1 ob l2 : bo_new g f unit pi dt = Ok m0 -> Forall sets_well l1 -> Forall sets_well l2 ->
  b_terms (fst (after (m0, None) (setup l1 ob l2))) = [].
Proof.
  intros Hn F1 F2. destruct (nt_new m0 _ _ _ _ _ Hn) as (_ & T & _). cbn [fst] in T.
  assert (Ws : forall l X, Forall sets_well l -> b_terms (fst X) = [] -> b_terms (fst (after X l)) = []).
  { induction l as [|c l IH]; intros X F H; cbn [after fold_left]; auto. inversion F; subst. apply IH; auto. destruct c; try contradiction. now apply tw_well. }
  unfold setup. rewrite !after_app. apply Ws; auto. destruct ob as [bd|]; cbn [after fold_left]; [apply tb_boundaries|]; apply Ws; auto.
Qed.
Section live.
Context (m0 : bo R) x y z u dx dy dz (K : model m0 x y z u dx dy dz).
Definition going (m : bo R) (s : fs R) : Prop := core m = core m0 /\ ready (m := m) s /\ b_terms m = [].
Lemma going_solve m s slv sc fuel sparse o : going m s -> live (m, Some s) (Solve slv sc fuel sparse o) -> snd (exec (Solve slv sc fuel sparse o) (m, Some s)) = Ok tt ->
  exists m' s' new rates, fst (exec (Solve slv sc fuel sparse o) (m, Some s)) = (m', Some s') /\ going m' s' /\ same_controls m m' /\ 
    s_p s' = (s_p s ++ [new])%list /\ s_r s' = (s_r s ++ [rates])%list /\ step_rows m m' o s new rates /\ in_balance m0 (last (s_p s) []) new rates.
Proof.
  intros (C & Rd & T) (V & Ex & U & Pr & Vp & L1) A. specialize (L1 s).
  remember (exec (Solve slv sc fuel sparse o) (m, Some s)) as Y eqn:EY. cbn [exec] in EY. unfold of_solution in EY. cbn [fst snd] in EY.
  pose proof (tm_solve slv sc [] fuel sparse o V Pr (m, s) T) as Tm. pose proof (fx_solve slv sc (fixm (b_wells m)) fuel sparse o (m, s) eq_refl) as Fx.
  destruct (solve slv sc fuel sparse o (m, s)) as [[m1 s1] r] eqn:Es. cbn [fst snd] in EY. subst Y. cbn [fst snd] in *. subst r.
  specialize (L1 s1 eq_refl eq_refl) as (One & SM).
  destruct (step_ok (model_core _ _ _ _ _ _ _ _ _ (eq_sym C) K) slv sc fuel sparse o s (m1, s1) Rd Ex U Pr Vp Es One SM) as ((C1 & C2 & T1) & Rd1 & prow & rrow & P1 & P2 & P3 & P4). cbn [fst snd] in *.
  exists m1, s1, prow, rrow. split; auto. split; [split; [congruence|split; auto]|]. split.
  - split; auto. unfold fx in Fx. cbn [fst] in Fx. split.
    + intros id H. destruct (dget id (b_wells m1)) eqn:Q; auto. destruct (fixm_get _ _ _ _ Fx Q) as (? & Q1 & _). congruence.
    + intros id w Ew. destruct (fixm_get _ _ _ _ (eq_sym Fx) Ew) as (w' & E1 & E2). exists w'. split; auto. rewrite (SM id w w' Ew E1). unfold fixedw in E2. injection E2 as -> -> _ _ _ ->. reflexivity.
  - do 3 (split; auto). unfold in_balance. apply (bal_core m m0); auto.
Qed.
Lemma going_one m s c : going m s -> live (m, Some s) c -> snd (exec c (m, Some s)) = Ok tt -> exists m' s', fst (exec c (m, Some s)) = (m', Some s') /\ going m' s'.
Proof.
  intros Gn L E. destruct c; try contradiction.
  - destruct Gn as (C & Rd & T). destruct (ready_well m s _ _ _ _ _ Rd T L E) as (m' & E1 & C1 & T1 & _ & R1). exists m', s. split; auto. split; [congruence|auto].
  - destruct Gn as (C & Rd & T). destruct (ready_bounds m s bd x y z u dx dy dz (model_core _ _ _ _ _ _ _ _ _ (eq_sym C) K) Rd T L E) as (m' & s' & E1 & C1 & T1 & _ & _ & R1 & _). exists m', s'. split; auto. split; [congruence|auto].
  - destruct (going_solve m s _ _ _ _ _ Gn L E) as (m' & s' & _ & _ & E1 & G1 & _). eauto.
Qed.
Lemma going_all l : forall m s, going m s -> all_ok (m, Some s) l -> along live (m, Some s) l -> exists m' s', after (m, Some s) l = (m', Some s') /\ going m' s'.
Proof.
  induction l as [|c l IH]; intros m s Gn A L; [exists m, s; auto|]. cbn [all_ok along after fold_left] in *. destruct A as (A1 & A2), L as (L1 & L2).
  destruct (going_one m s c Gn L1 A1) as (m1 & s1 & E1 & G1). rewrite E1 in *. exact (IH m1 s1 G1 A2 L2).
Qed.
End live.
Lemma live_step (g : gobj R) f unit pi dt m0 x y z u dx dy dz l1 ob l2 hist slv sc fuel sparse o m1 s1 m2 s2 :
  bo_new g f unit pi dt = Ok m0 -> model m0 x y z u dx dy dz -> plain m0 l1 ob l2 ->
  all_ok (m0, None) (setup l1 ob l2 ++ Compile :: hist ++ [Solve slv sc fuel sparse o]) ->
  along live (after (m0, None) (setup l1 ob l2 ++ [Compile])) (hist ++ [Solve slv sc fuel sparse o]) ->
  after (m0, None) (setup l1 ob l2 ++ Compile :: hist) = (m1, Some s1) ->
  after (m0, None) (setup l1 ob l2 ++ Compile :: hist ++ [Solve slv sc fuel sparse o]) = (m2, Some s2) ->
  going m0 m1 s1 /\ going m0 m2 s2 /\ same_controls m1 m2 /\ o_vect o = true /\ exists new rates, s_p s2 = (s_p s1 ++ [new])%list /\ s_r s2 = (s_r s1 ++ [rates])%list /\ step_rows m1 m2 o s1 new rates /\ in_balance m0 (last (s_p s1) []) new rates.
Proof.
  intros Hn K P A L E1 E2. pose proof (setup_terms g f unit pi dt m0 l1 ob l2 Hn (proj1 (proj2 P)) (proj1 (proj2 (proj2 P)))) as T.
  apply all_ok_app in A as (A1 & A2). pose proof (setup_ready _ _ _ _ _ _ _ _ _ _ _ _ _ _ _ _ Hn K P A1) as H. cbn zeta in H.
  rewrite after_app in L, E1, E2. cbn [all_ok after fold_left] in A2, L, E1, E2. destruct A2 as (_ & A2). destruct (after (m0, None) (setup l1 ob l2)) as [ma oa]. cbn in A2, L, E1, E2, H, T. destruct H as (C & R).
  fold (after (ma, Some (fdm_new ma)) hist) in E1. fold (after (ma, Some (fdm_new ma)) (hist ++ [Solve slv sc fuel sparse o])) in E2. rewrite after_app, E1 in E2.
  apply all_ok_app in A2 as (A2 & A3). apply LocalThm.along_app in L as (L2 & L3). rewrite E1 in A3, L3.
  destruct (going_all m0 x y z u dx dy dz K hist ma (fdm_new ma) (conj C (conj R T)) A2 L2) as (m1' & s1' & Q1 & G1). rewrite E1 in Q1. injection Q1 as <- <-.
  cbn [all_ok along after fold_left] in A3, L3, E2. destruct (going_solve m0 x y z u dx dy dz K m1 s1 slv sc fuel sparse o G1 (proj1 L3) (proj1 A3)) as (m' & s' & new & rates & Q1 & Q2 & Q3 & Q4 & Q5 & Q6 & Q7).
  rewrite E2 in Q1. injection Q1 as <- <-. do 3 (split; auto). split; [apply L3|]. exists new, rates. auto.
Qed.

(** C96: the controls may be changed between the steps. The next step keeps them,
    appends one row each, its rates follow them, and it is in balance, as a whole
    and (level, not 3D) in each cell. *)
Lemma L_C96_changed_controls :
  forall (g : gobj R) f unit pi dt m0 x y z u dx dy dz l1 ob l2 hist slv sc fuel sparse o m1 s1 m2 s2,
  bo_new g f unit pi dt = Ok m0 -> model m0 x y z u dx dy dz -> plain m0 l1 ob l2 ->
  all_ok (m0, None) (setup l1 ob l2 ++ Compile :: hist ++ [Solve slv sc fuel sparse o]) ->
  along live (after (m0, None) (setup l1 ob l2 ++ [Compile])) (hist ++ [Solve slv sc fuel sparse o]) ->
  after (m0, None) (setup l1 ob l2 ++ Compile :: hist) = (m1, Some s1) ->
  after (m0, None) (setup l1 ob l2 ++ Compile :: hist ++ [Solve slv sc fuel sparse o]) = (m2, Some s2) ->
  same_controls m1 m2 /\ exists new rates, s_p s2 = (s_p s1 ++ [new])%list /\ s_r s2 = (s_r s1 ++ [rates])%list /\
  follows_controls m2 new rates /\ in_balance m0 (last (s_p s1) []) new rates /\
  (level m0 -> ~ three_d (gr (geom (b_grid m0))) -> forall id, In id (b_ids m0) -> cell_balance m0 (last (s_p s1) []) new rates id).
Proof.
  intros g f unit pi dt m0 x y z u dx dy dz l1 ob l2 hist slv sc fuel sparse o m1 s1 m2 s2 Hn K P A L E1 E2.
  destruct (live_step _ _ _ _ _ _ _ _ _ _ _ _ _ _ _ _ _ _ _ _ _ _ _ _ _ _ Hn K P A L E1 E2) as (Ga & Gb & Sc & V & new & rates & P1 & P2 & P3 & P4).
  split; auto. exists new, rates. do 2 (split; auto). split.
  - destruct Ga as (Ca & Ra & _), Gb as (Cb & Rb & _). exact (rows_follow m0 _ _ _ _ _ _ _ m1 m2 s1 s2 o new rates K Ca Cb (proj1 Sc) Ra Rb P2 P3).
  - split; auto. intros Lv N3 id I. destruct Ga as (Ca & Ra & _). destruct (core_fields _ _ Ca) as (Cg & Ci & _). apply (balance_core m1); auto.
    apply (cell_local (model_core _ _ _ _ _ _ _ _ _ (eq_sym Ca) K) s1 Ra m2 o); auto; [|now rewrite Ci].
    intros _. destruct Lv as (zs & h & L1 & L2). rewrite Cg. split; auto. exists zs, h. rewrite (core_z _ _ Ca), Ci. auto.
Qed.
(** C96: a new rate of a well holds from the next step on. *)
Lemma L_C96_new_rate :
  forall (g : gobj R) f unit pi dt m0 x y z u dx dy dz l1 ob l2 hist id q pwf r sk slv sc fuel sparse o m s,
  bo_new g f unit pi dt = Ok m0 -> model m0 x y z u dx dy dz -> plain m0 l1 ob l2 ->
  let hist' := (hist ++ [Set_well (Some id) (Some q) pwf r sk])%list in
  all_ok (m0, None) (setup l1 ob l2 ++ Compile :: hist' ++ [Solve slv sc fuel sparse o]) ->
  along live (after (m0, None) (setup l1 ob l2 ++ [Compile])) (hist' ++ [Solve slv sc fuel sparse o]) ->
  after (m0, None) (setup l1 ob l2 ++ Compile :: hist' ++ [Solve slv sc fuel sparse o]) = (m, Some s) ->
  value (last (s_r s) []) id = Some q.
Proof.
  intros g f unit pi dt m0 x y z u dx dy dz l1 ob l2 hist id q pwf r sk slv sc fuel sparse o m s Hn K P hist' A L E.
  destruct (after (m0, None) (setup l1 ob l2 ++ Compile :: hist')) as [m1 o1] eqn:E1.
  assert (S1 : exists s1, o1 = Some s1).
  { change (setup l1 ob l2 ++ Compile :: hist' ++ [Solve slv sc fuel sparse o])%list with (setup l1 ob l2 ++ (Compile :: hist') ++ [Solve slv sc fuel sparse o])%list in A. rewrite app_assoc in A. apply all_ok_app in A as (_ & A). rewrite E1 in A.
    destruct o1 as [s1|]; eauto. cbn in A. destruct A as (A & _). discriminate. }
  destruct S1 as (s1 & ->).
  destruct (L_C96_changed_controls _ _ _ _ _ _ _ _ _ _ _ _ _ _ _ _ _ _ _ _ _ _ _ _ _ _ Hn K P A L E1 E) as ((_ & _ & Sc) & new & rates & _ & P2 & Fl & _).
  assert (W : exists w, dget id (b_wells m1) = Some w /\ given (Some q) w).
  { unfold hist' in E1, A. rewrite <- app_assoc in A.
    change (setup l1 ob l2 ++ Compile :: hist ++ [Set_well (Some id) (Some q) pwf r sk])%list with (setup l1 ob l2 ++ (Compile :: hist) ++ [Set_well (Some id) (Some q) pwf r sk])%list in E1. rewrite app_assoc, after_app in E1.
    change (setup l1 ob l2 ++ Compile :: hist ++ [Set_well (Some id) (Some q) pwf r sk] ++ [Solve slv sc fuel sparse o])%list with (setup l1 ob l2 ++ (Compile :: hist) ++ [Set_well (Some id) (Some q) pwf r sk] ++ [Solve slv sc fuel sparse o])%list in A. rewrite app_assoc in A. apply all_ok_app in A as (_ & A).
    cbn [app all_ok after fold_left] in A, E1. destruct A as (A & _). destruct (W_given _ _ _ _ _ _ A) as (W & _). cbn [exec] in E1. rewrite E1 in W. exact W. }
  destruct W as (w & Ew & G1 & G2 & G3). destruct (Sc id w Ew) as (w' & Ew' & Ef). injection Ef as F1 F2 _ _.
  rewrite P2, last_last. destruct (proj1 Fl id w' Ew') as [(_ & q' & Q1 & ->)|(Q & _)]; congruence.
Qed.
(** C60, what holds: rates and gradients given to set_boundaries between the
    steps (the pressures unchanged) hold in the next step of the vectorised path:
    they are recorded, and (level, not 3D) each cell's equation contains them. *)
Lemma L_C60_changed_rates_partial :
  forall (g : gobj R) f unit pi dt m0 x y z u dx dy dz l1 ob l2 hist bd slv sc fuel sparse o m1 s1 m s,
  bo_new g f unit pi dt = Ok m0 -> model m0 x y z u dx dy dz -> plain m0 l1 ob l2 -> level m0 -> ~ three_d (gr (geom (b_grid m0))) ->
  let hist' := (hist ++ [Set_boundaries bd])%list in
  all_ok (m0, None) (setup l1 ob l2 ++ Compile :: hist' ++ [Solve slv sc fuel sparse o]) ->
  along live (after (m0, None) (setup l1 ob l2 ++ [Compile])) (hist' ++ [Solve slv sc fuel sparse o]) ->
  after (m0, None) (setup l1 ob l2 ++ Compile :: hist') = (m1, Some s1) ->
  after (m0, None) (setup l1 ob l2 ++ Compile :: hist' ++ [Solve slv sc fuel sparse o]) = (m, Some s) ->
  exists new rates, s_p s = (s_p s1 ++ [new])%list /\ s_r s = (s_r s1 ++ [rates])%list /\
  (forall idb cond v, In (idb, (cond, v)) bd -> smem (lower cond) RATE = true -> value rates idb = Some v) /\
  (forall idb cond v, In (idb, (cond, v)) bd -> smem (lower cond) GRAD = true -> exists r, gradient_rate m idb v r /\ value rates idb = Some r) /\
  (forall idb v, In (idb, ("pressure"%string, v)) bd -> pressure_rate m new idb v (value rates idb)) /\
  forall id, In id (b_ids m0) -> cell_balance m0 (last (s_p s1) []) new rates id.
Proof.
  intros g f unit pi dt m0 x y z u dx dy dz l1 ob l2 hist bd slv sc fuel sparse o m1 s1 m s Hn K P Lv N3 hist' A L E1 E.
  destruct (L_C96_changed_controls _ _ _ _ _ _ _ _ _ _ _ _ _ _ _ _ _ _ _ _ _ _ _ _ _ _ Hn K P A L E1 E) as ((Bd & _ & _) & new & rates & P1 & P2 & (_ & F2 & F3 & F4 & _) & _ & Cb).
  assert (Eb : b_bdict m1 = bd).
  { unfold hist' in E1, A. rewrite <- app_assoc in A.
    change (setup l1 ob l2 ++ Compile :: hist ++ [Set_boundaries bd])%list with (setup l1 ob l2 ++ (Compile :: hist) ++ [Set_boundaries bd])%list in E1. rewrite app_assoc, after_app in E1.
    change (setup l1 ob l2 ++ Compile :: hist ++ [Set_boundaries bd] ++ [Solve slv sc fuel sparse o])%list with (setup l1 ob l2 ++ (Compile :: hist) ++ [Set_boundaries bd] ++ [Solve slv sc fuel sparse o])%list in A. rewrite app_assoc in A. apply all_ok_app in A as (_ & A).
    cbn [app all_ok after fold_left] in A, E1. destruct A as (A & _). apply re_boundaries in A. cbn [exec] in E1. rewrite E1 in A. unfold rest in A. cbn [fst snd] in A. injection A as _ A _ _. rewrite A. now destruct (fst (after (m0, None) (setup l1 ob l2 ++ Compile :: hist))). }
  rewrite Bd, Eb in *. exists new, rates. do 5 (split; auto).
Qed.

(** ** C97 *)
(** C97 is false: after the first step the rate 3 is recorded for the right
    boundary. Setting the rate 7 for the next step replaces it in the row of the
    first step; pressures likewise. *)
Lemma L_C97_past_rewritten_refuted :
  exists m0 : bo Q, build 3 1 1 None 0%Q (Some 10%Q) None = Ok m0 /\
  forall NT : NumT Q,
  let x := after (m0, None) [Set_boundaries [(0%Z, ("pressure"%string, 20%Q)); (4%Z, ("rate"%string, 3%Q))]; Compile; Solve cramer3 oneQ 9 true vectorial] in
  let c := Set_boundaries [(0%Z, ("pressure"%string, 30%Q)); (4%Z, ("rate"%string, 7%Q))] in
  let s1 := sol m0 x in let s2 := sol m0 (fst (exec c x)) in
  snd (exec c x) = Ok tt /\ s_tstep s1 = 1 /\ s_tstep s2 = 1 /\
  at2 (s_r s1) 1 4 = Ok (Some 3%Q) /\ at2 (s_r s2) 1 4 = Ok (Some 7%Q) /\
  at2 (s_p s1) 1 0 = Ok (Some 20%Q) /\ at2 (s_p s2) 1 0 = Ok (Some 30%Q).
Proof.
  eexists. split; [vm_compute; reflexivity|]. intros NT. cbv zeta. do 6 (split; [vm_compute; reflexivity|]). vm_compute; reflexivity.
Qed.
(** C97, what holds: set_well, accepted or refused, changes nothing in the
    solution; set_boundaries, accepted or refused, changes in the rows of pressures
    and rates only the named cells of the current step, and nothing else in it. *)
Lemma L_C97_past_kept_partial :
  forall (m : bo R) s,
  (forall cell q pwf r sk, snd (fst (exec (Set_well cell q pwf r sk) (m, Some s))) = Some s) /\
  (forall bd, (forall e, In e bd -> (0 <= fst e)%Z) -> exists s', snd (fst (exec (Set_boundaries bd) (m, Some s))) = Some s' /\
    (s_tstep s' = s_tstep s /\ s_nsteps s' = s_nsteps s /\ s_As s' = s_As s /\ s_ds s' = s_ds s /\ s_err s' = s_err s /\ s_cum s' = s_cum s) /\
    length (s_p s') = length (s_p s) /\ length (s_r s') = length (s_r s) /\
    forall t id, (0 <= id)%Z -> t <> s_tstep s \/ ~ In id (map fst bd) ->
      value (nth t (s_p s') []) id = value (nth t (s_p s) []) id /\ value (nth t (s_r s') []) id = value (nth t (s_r s) []) id).
Proof.
  intros m s. split.
  - intros cell q pwf r sk. cbn [exec]. pose proof (kp_well _ cell q pwf r sk (m, Some s) eq_refl) as Kp. unfold kept in Kp. cbn [fst snd] in Kp. injection Kp as _ _ Kp. exact Kp.
  - intros bd P. cbn [exec]. assert (Sp : spared s (map fst bd) (m, Some s)) by (exists s; repeat (split; [reflexivity|]); auto). destruct (sp_boundaries s bd P (m, Some s) Sp) as (s' & H1 & H2 & H3 & H4 & H5). exists s'. unfold others in H2. injection H2 as Q1 Q2 Q3 Q4 _ _ _ _ Q5 Q6. auto 12.
Qed.

(** ** Cases *)
Definition goes (X : ws R) (l : list (call R)) : Prop := all_ok X l /\ along live X l /\ exists m s, after X l = (m, Some s).
Lemma chain c (X Y : ws R) l : exec c X = (Y, Ok tt) -> live X c -> goes Y l -> goes X (c :: l).
Proof. intros E L (H1 & H2 & H3). unfold goes. cbn [all_ok along after fold_left]. rewrite E. cbn [fst snd]. auto. Qed.
Lemma chain_solve slv sc fuel sparse o m s m' s' l : exec (Solve slv sc fuel sparse o) (m, Some s) = ((m', Some s'), Ok tt) -> exact slv -> o_upd o = true -> o_vect o = true -> o_print o = false ->
  length (s_As s') = S (length (s_As s)) -> (forall id w1 w2, dget id (b_wells m) = Some w1 -> dget id (b_wells m') = Some w2 -> w_con w2 = w_con w1) ->
  goes (m', Some s') l -> goes (m, Some s) (Solve slv sc fuel sparse o :: l).
Proof.
  intros E Ex U V Pr L SM H. eapply chain; [exact E| |exact H]. cbn [live]. split; auto. cbn [balanced_step]. rewrite E. cbn [fst snd]. do 3 (split; [assumption|]). split; [now left|]. intros s1 s2 [= <-] [= <-]. auto.
Qed.
Lemma chain_well cell q pwf r sk (X Y : ws R) l : exec (Set_well cell q pwf r sk) X = (Y, Ok tt) -> level (fst X) -> (forall id w, ~ controlled X "pwf" id w) -> (forall id w, ~ controlled Y "pwf" id w) ->
  goes Y l -> goes X (Set_well cell q pwf r sk :: l).
Proof.
  intros E L N1 N2 H. eapply chain; [exact E| |exact H]. cbn [live change]. rewrite E. cbn [fst]. split; [now left|]. split; [intros id w C; now apply N2 in C|]. intros id w w' C. now apply N1 in C.
Qed.
Lemma chain_bounds bd (X Y : ws R) l : exec (Set_boundaries bd) X = (Y, Ok tt) -> 0 < get_tstep X -> NoDup (map fst bd) -> Forall (fun e => face_id (fst X) (fst e)) bd -> pressures bd = pressures (b_bdict (fst X)) -> map fst (b_bdict (fst X)) = map fst bd ->
  goes Y l -> goes X (Set_boundaries bd :: l).
Proof.
  intros E T D F P K H. eapply chain; [exact E| |exact H]. cbn [live change]. do 4 (split; auto). rewrite K. intros e I. exact I.
Qed.
(** Three cells, pressure 6 on the left, a rate on the right, a well in the middle:
    a step, a new rate for the well, a new one for the boundary, a step, another
    rate for the well, a step. *)
Definition answer (a b c : R) : call R := Solve (trial [[a; b; c]]%R) SampleWell.one 9 true omb.
Definition new_rate (q : R) : call R := Set_well (Some 2%Z) (Some q) None None None.
Definition hist_b : list (call R) := [answer (15 / 2) (21 / 2) (25 / 2); new_rate 3; Set_boundaries (sides 5)].
Definition hist_w : list (call R) := (hist_b ++ [answer 10 18 23; new_rate 1])%list.
Ltac hide HX := match type of HX with (0 < ?e)%R => let HG := fresh "HG" in pose proof HX as HG; revert HG; generalize e; let G := fresh "G" in intros G HG; pose proof (Rinv_0_lt_compat _ HG) end.
Lemma run_change : exists G req, (0 < G)%R /\
  exec injector (line3 0 false (Some 10%R), None) = ((line3i (line3 0 false (Some 10%R)) G req (Some 10%R), None), Ok tt) /\
  exists m1, exec (Set_boundaries (sides 2)) (line3i (line3 0 false (Some 10%R)) G req (Some 10%R), None) = ((m1, None), Ok tt) /\ b_wells m1 = b_wells (line3i (line3 0 false (Some 10%R)) G req (Some 10%R)) /\
  goes (m1, Some (fdm_new m1)) (hist_w ++ [answer 9 15 20]).
Proof.
  destruct (line3i_built 0 false) as (G & req & HG & E). exists G, req. split; auto. split; [exact E|]. eexists. split; [cbn [exec]; unfold sides; mrun|].
  assert (HG' : (0 < / G)%R) by now apply Rinv_0_lt_compat.
  assert (HX : (0 < 2 * PI * (864 / 10000) * 1 * 1 / ln (14 / 100 * sqrt (1 * 1 + 1 * 1) / (1 / 2) * 12))%R).
  { pose proof (well_G_pos (864 / 10000) (1 / 2)) as HX. revert HX. rrun. intros HX. apply HX; lra. }
  split; [reflexivity|]. unfold hist_w, hist_b, answer, new_rate. cbn [app].
  eapply chain_solve; [estep|apply trial_exact|reflexivity|reflexivity|reflexivity|reflexivity| |].
  { intros id w1 w2. cbn. destruct (Z.eqb id 2); [|discriminate]. intros [= <-] [= <-]. reflexivity. }
  eapply chain_well; [estep|exact (line3_level 0 false (Some 10%R))|intros id w; unfold controlled; cbn; destruct (Z.eqb id 2); intros (Hw & Hc); [injection Hw as <-; discriminate|discriminate]..|].
  hide HX.
  eapply (chain_bounds (sides 5)); [unfold sides; estep|cbn; lia|repeat constructor; cbn; intuition discriminate|repeat constructor; refine (side_faces 0 false (Some 10%R) _ _); cbn; auto|reflexivity|reflexivity|].
  eapply chain_solve; [estep|apply trial_exact|reflexivity|reflexivity|reflexivity|reflexivity| |].
  { intros id w1 w2. cbn. destruct (Z.eqb id 2); [|discriminate]. intros [= <-] [= <-]. reflexivity. }
  eapply chain_well; [estep|exact (line3_level 0 false (Some 10%R))|intros id w; unfold controlled; cbn; destruct (Z.eqb id 2); intros (Hw & Hc); [injection Hw as <-; discriminate|discriminate]..|].
  hide HX.
  eapply chain_solve; [estep|apply trial_exact|reflexivity|reflexivity|reflexivity|reflexivity| |].
  { intros id w1 w2. cbn. destruct (Z.eqb id 2); [|discriminate]. intros [= <-] [= <-]. reflexivity. }
  split; [exact I|]. split; [exact I|]. do 2 eexists. reflexivity.
Qed.
Lemma goes_cut X l slv sc fuel sparse o l' : goes X (l ++ Solve slv sc fuel sparse o :: l') ->
  all_ok X (l ++ [Solve slv sc fuel sparse o]) /\ along live X (l ++ [Solve slv sc fuel sparse o]) /\
  (exists m s, after X l = (m, Some s)) /\ exists m s, after X (l ++ [Solve slv sc fuel sparse o]) = (m, Some s).
Proof.
  intros (A & L & _). apply all_ok_app in A as (A1 & A2). apply LocalThm.along_app in L as (L1 & L2). cbn [all_ok along] in A2, L2. destruct A2 as (A2 & _), L2 as (L2 & _).
  assert (S1 : exists m s, after X l = (m, Some s)). { destruct (after X l) as [m [s|]]; eauto. cbn in A2. discriminate. }
  split; [|split; [|split; [exact S1|]]].
  - clear -A1 A2. revert X A1 A2. induction l as [|c l IH]; intros X A1 A2; cbn [app all_ok after fold_left] in *; auto. destruct A1. auto.
  - clear -L1 L2. revert X L1 L2. induction l as [|c l IH]; intros X A1 A2; cbn [app along after fold_left] in *; auto. destruct A1. auto.
  - destruct S1 as (m & s & S1). rewrite after_app, S1 in *. cbn [after fold_left]. cbn [exec] in *. unfold of_solution in *. cbn [fst snd] in *. destruct (solve slv sc fuel sparse o (m, s)) as [[m' s'] r]. cbn. eauto.
Qed.
Lemma from_start (i : call R) bd m0 mi m1 hist c ma sa mb sb : exec i (m0, None) = ((mi, None), Ok tt) -> exec (Set_boundaries bd) (mi, None) = ((m1, None), Ok tt) ->
  all_ok (m1, Some (fdm_new m1)) (hist ++ [c]) -> along live (m1, Some (fdm_new m1)) (hist ++ [c]) -> after (m1, Some (fdm_new m1)) hist = (ma, Some sa) -> after (m1, Some (fdm_new m1)) (hist ++ [c]) = (mb, Some sb) ->
  all_ok (m0, None) (setup [i] (Some bd) [] ++ Compile :: hist ++ [c]) /\ along live (after (m0, None) (setup [i] (Some bd) [] ++ [Compile])) (hist ++ [c]) /\
  after (m0, None) (setup [i] (Some bd) [] ++ Compile :: hist) = (ma, Some sa) /\ after (m0, None) (setup [i] (Some bd) [] ++ Compile :: hist ++ [c]) = (mb, Some sb).
Proof.
  intros E1 E2 A L Ea Eb. unfold setup. cbn [app all_ok after fold_left]. rewrite E1. cbn [fst snd]. rewrite E2. cbn [fst snd]. auto 8.
Qed.
Example ex_C96_case : exists m0 l1 ob l2 hist id q slv sc fuel sparse o m1 s1 m2 s2, build 3 1 1 None 0%R (Some 10%R) None = Ok m0 /\ (exists g f unit p dt, bo_new g f unit p dt = Ok m0) /\
  (exists x y z u dx dy dz, model m0 x y z u dx dy dz) /\ plain m0 l1 ob l2 /\ level m0 /\ ~ three_d (gr (geom (b_grid m0))) /\
  let hist' := (hist ++ [Set_well (Some id) (Some q) None None None])%list in
  all_ok (m0, None) (setup l1 ob l2 ++ Compile :: hist' ++ [Solve slv sc fuel sparse o]) /\
  along live (after (m0, None) (setup l1 ob l2 ++ [Compile])) (hist' ++ [Solve slv sc fuel sparse o]) /\
  after (m0, None) (setup l1 ob l2 ++ Compile :: hist') = (m1, Some s1) /\
  after (m0, None) (setup l1 ob l2 ++ Compile :: hist' ++ [Solve slv sc fuel sparse o]) = (m2, Some s2) /\
  hist' = hist_w /\ ob = Some (sides 2).
Proof.
  destruct run_change as (G & req & HG & E1 & m1 & E2 & W & H). unfold answer in H. apply (goes_cut _ hist_w) in H as (A & L & (ma & sa & Ea) & mb & sb & Eb).
  exists (line3 0 false (Some 10%R)), [injector], (Some (sides 2)), [], (hist_b ++ [answer 10 18 23])%list, 2%Z, 1%R, (trial [[9; 15; 20]]%R), SampleWell.one, 9, true, omb, ma, sa, mb, sb.
  split; [apply line3_zero|]. split; [eapply build_new; apply line3_zero|]. split; [do 7 eexists; apply line3_model; discriminate|].
  split; [exact (sample_plain 0 false 2 [] _ m1 m1 (fdm_new m1) G req eq_refl E1 E2 W (conj I (conj I eq_refl)))|]. split; [apply line3_level|]. split; [intros (_ & F & _); unfold flows in F; cbn in F; lia|].
  cbv zeta. replace ((hist_b ++ [answer 10 18 23]) ++ [Set_well (Some 2%Z) (Some 1%R) None None None])%list with hist_w by reflexivity.
  destruct (from_start injector (sides 2) _ _ m1 _ _ ma sa mb sb E1 E2 A L Ea Eb) as (F1 & F2 & F3 & F4). auto 8.
Qed.
Example ex_C60_case : exists m0 l1 ob l2 hist bd slv sc fuel sparse o m1 s1 m2 s2, build 3 1 1 None 0%R (Some 10%R) None = Ok m0 /\ (exists g f unit p dt, bo_new g f unit p dt = Ok m0) /\
  (exists x y z u dx dy dz, model m0 x y z u dx dy dz) /\ plain m0 l1 ob l2 /\ level m0 /\ ~ three_d (gr (geom (b_grid m0))) /\
  let hist' := (hist ++ [Set_boundaries bd])%list in
  all_ok (m0, None) (setup l1 ob l2 ++ Compile :: hist' ++ [Solve slv sc fuel sparse o]) /\
  along live (after (m0, None) (setup l1 ob l2 ++ [Compile])) (hist' ++ [Solve slv sc fuel sparse o]) /\
  after (m0, None) (setup l1 ob l2 ++ Compile :: hist') = (m1, Some s1) /\
  after (m0, None) (setup l1 ob l2 ++ Compile :: hist' ++ [Solve slv sc fuel sparse o]) = (m2, Some s2) /\
  hist' = hist_b /\ ob = Some (sides 2) /\ bd = sides 5.
Proof.
  destruct run_change as (G & req & HG & E1 & m1 & E2 & W & H). unfold hist_w in H. rewrite <- app_assoc in H. cbn [app] in H. unfold answer at 1 in H. apply (goes_cut _ hist_b) in H as (A & L & (ma & sa & Ea) & mb & sb & Eb).
  exists (line3 0 false (Some 10%R)), [injector], (Some (sides 2)), [], [answer (15 / 2) (21 / 2) (25 / 2); new_rate 3], (sides 5), (trial [[10; 18; 23]]%R), SampleWell.one, 9, true, omb, ma, sa, mb, sb.
  split; [apply line3_zero|]. split; [eapply build_new; apply line3_zero|]. split; [do 7 eexists; apply line3_model; discriminate|].
  split; [exact (sample_plain 0 false 2 [] _ m1 m1 (fdm_new m1) G req eq_refl E1 E2 W (conj I (conj I eq_refl)))|]. split; [apply line3_level|]. split; [intros (_ & F & _); unfold flows in F; cbn in F; lia|].
  cbv zeta. replace ([answer (15 / 2) (21 / 2) (25 / 2); new_rate 3] ++ [Set_boundaries (sides 5)])%list with hist_b by reflexivity.
  destruct (from_start injector (sides 2) _ _ m1 _ _ ma sa mb sb E1 E2 A L Ea Eb) as (F1 & F2 & F3 & F4). auto 8.
Qed.
(** C97: three steps on, one row of a line of three cells changed. *)
Example ex_C97_case : (forall e, In e (sides 5) -> (0 <= fst e)%Z) /\ exists t id, (0 <= id)%Z /\ (t <> 1 \/ ~ In id (map fst (sides 5))) /\ exists s : fs R, s_tstep s = 1 /\ length (s_p s) = 2 /\ t = 1.
Proof.
  split; [intros e [<-|[<-|[]]]; cbn; lia|]. exists 1, 2%Z. split; [lia|]. split; [right; cbn; intuition discriminate|].
  exists (set_tstep 1 (set_p [[]; []] (fdm_new (line3 0 false (Some 10%R))))). auto.
Qed.
