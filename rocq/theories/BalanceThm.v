(** Material balance over whole histories. *)
From Coq Require Import String ZArith Bool Arith List Lia Reals Lra.
From Verif Require Import Prelude PreludeFacts Num GridModel GridSpec GeoModel GeoSpec GeoProofs PropModel PropSpec
  UnitsModel BlackOilModel FdmModel MonadFacts HistSpec WellThm InvFacts SumFacts ModelSpec ModelFacts VectFacts AsmFacts AssemblyThm
  Samples SampleFacts SampleWell SampleBal SolverSpec SolveSpec StepSpec StepFacts WellStepFacts BalanceSpec CanonFacts BalFacts FormFacts StepBal SetupFacts.
Import ListNotations.
Close Scope R_scope.
Open Scope nat_scope.

(** ** The balance check *)
Lemma at_ids_value {A} ids (l v : list A) d : at_ids ids l = Ok v -> (forall id, In id ids -> (0 <= id)%Z) -> v = map (fun id => nth (Z.to_nat id) l d) ids.
Proof.
  unfold at_ids. revert v. induction ids as [|i ids IH]; intros v E P; cbn [rmapM] in E; [now inversion E|].
  destruct (pyget l i) as [a|] eqn:Ea; [|discriminate]. cbn [rbind] in E. destruct (rmapM _ ids) as [v'|] eqn:Ev; [|discriminate]. cbn [rbind] in E. inversion E; subst.
  cbn [map]. f_equal; [|apply IH; auto; intros; apply P; now right].
  rewrite pyget_nat in Ea by (apply P; now left). destruct (nth_error l (Z.to_nat i)) eqn:En; [|discriminate]. inversion Ea; subst. symmetry. now apply nth_error_nth.
Qed.
Definition weighted (c : fl R) (m : bo R) (old new : list (fl R)) : fl R :=
  fsum (map (fun id => fmul (fmul (Some (nth (Z.to_nat id) (b_RHS m) 0%R)) c) (fsub (value new id) (value old id))) (b_ids m)).
Lemma map2_ids {A B C} (h : A -> B -> C) ids (f : Z -> A) (g : Z -> B) : map2 h (map f ids) (map g ids) = map (fun id => h (f id) (g id)) ids.
Proof. unfold map2. induction ids as [|i ids IH]; cbn; auto. now rewrite IH. Qed.
Lemma combine_ids {A B} ids (f : Z -> A) (g : Z -> B) : combine (map f ids) (map g ids) = map (fun id => (f id, g id)) ids.
Proof. unfold map2. induction ids as [|i ids IH]; cbn; auto. now rewrite IH. Qed.
Lemma row_at_ok {A} (rows : list (list A)) t r : row_at rows t = Ok r -> nth_error rows t = Some r.
Proof. unfold row_at. destruct (nth_error rows t); [|discriminate]. now intros [= ->]. Qed.
Lemma MB_value (m : bo R) (s : fs R) X : (forall id, In id (b_ids m) -> (0 <= id)%Z) -> s_tstep s <> 0 -> check_MB (m, s) = (X, Ok tt) ->
  exists r, nth_error (s_r s) (s_tstep s) = Some r /\
  if b_cmp m then exists po pn pi, nth_error (s_p s) (s_tstep s - 1) = Some po /\ nth_error (s_p s) (s_tstep s) = Some pn /\ nth_error (s_p s) 0 = Some pi /\
    s_err (snd X) = Some (fabs (fsub (fdiv (gain m po pn) (fsum r)) (Some 1%R))) /\
    s_cum (snd X) = Some (fdiv (weighted (Some (b_dt m)) m pi pn) (fmul (Some (b_dt m * IZR (Z.of_nat (s_tstep s)))%R) (fsum (concat (s_r s)))))
  else s_err (snd X) = Some (fsum r).
Proof.
  intros P T E. unfold check_MB in E. apply mset_ok in E. cbv beta match in E.
  destruct (row_at (s_r s) (s_tstep s)) as [r|] eqn:Er; [|discriminate]. cbn [rbind] in E. exists r. split; [now apply row_at_ok|].
  destruct (b_cmp m).
  - destruct (Nat.eqb_spec (s_tstep s) 0) as [?|_]; [contradiction|].
    destruct (at_ids (b_ids m) (b_RHS m)) as [rhs|] eqn:E1; cbn [rbind] in E; [|discriminate].
    destruct (row_at (s_p s) (s_tstep s)) as [rp|] eqn:E2; cbn [rbind] in E; [|discriminate].
    destruct (at_ids (b_ids m) rp) as [p|] eqn:E3; cbn [rbind] in E; [|discriminate].
    destruct (row_at (s_p s) (s_tstep s - 1)) as [rq|] eqn:E4; cbn [rbind] in E; [|discriminate].
    destruct (at_ids (b_ids m) rq) as [q|] eqn:E5; cbn [rbind] in E; [|discriminate].
    destruct (row_at (s_p s) 0) as [ri|] eqn:E6; cbn [rbind] in E; [|discriminate].
    destruct (at_ids (b_ids m) ri) as [i|] eqn:E7; cbn [rbind] in E; [|discriminate].
    cbn zeta in E. inversion E; subst X; clear E.
    exists rq, rp, ri. do 3 (split; [now apply row_at_ok|]).
    rewrite (at_ids_value _ _ _ 0%R E1 P), (at_ids_value _ _ _ None E3 P), (at_ids_value _ _ _ None E5 P), (at_ids_value _ _ _ None E7 P).
    rewrite !combine_ids, !map_map. unfold gain, weighted, value. split.
    + destruct s; cbn. do 3 f_equal. now rewrite map2_ids.
    + destruct s; cbn. f_equal. now rewrite map2_ids.
  - inversion E; subst X. now destruct s.
Qed.

(** ** Steps *)
Definition bal (m : bo R) (po pn rr : list (fl R)) : Prop :=
  if b_cmp m then exists G, gain m po pn = Some G /\ fsum rr = Some G else fsum rr = Some 0%R.
Definition balanced (m : bo R) (s : fs R) : Prop :=
  forall t, 1 <= t <= s_tstep s -> bal m (nth (t - 1) (s_p s) []) (nth t (s_p s) []) (nth t (s_r s) []).
Lemma bal_core m m' po pn rr : core m = core m' -> bal m po pn rr -> bal m' po pn rr.
Proof.
  intros C. destruct (core_fields _ _ C) as (_ & C2 & _ & _ & _ & _ & _ & _ & _ & C3 & C4). unfold bal, gain. now rewrite C2, C3, C4.
Qed.
Lemma last_nth {A} (l : list A) d : last l d = nth (length l - 1) l d.
Proof. induction l as [|a l IH]; auto. destruct l as [|b l]; auto. change (last (b :: l) d = nth (length l) (b :: l) d). rewrite IH. cbn [length]. now rewrite Nat.sub_succ, Nat.sub_0_r. Qed.
Section steps.
Context (m0 : bo R) x y z u dx dy dz (K : model m0 x y z u dx dy dz).
Lemma steps_ok l : forall m s, core m = core m0 -> ready (m := m) s -> balanced m0 s -> all_ok (m, Some s) l -> along balanced_step (m, Some s) l ->
  exists m' s', after (m, Some s) l = (m', Some s') /\ core m' = core m0 /\ ready (m := m') s' /\ balanced m0 s' /\ s_tstep s' = s_tstep s + length l /\
    nth 0 (s_r s') [] = nth 0 (s_r s) [] /\ nth 0 (s_p s') [] = nth 0 (s_p s) [].
Proof.
  induction l as [|c l IH]; intros m s C Rd B A L.
  - exists m, s. cbn [after fold_left length]. do 4 (split; [now auto|]). split; [lia|auto].
  - cbn [all_ok along after fold_left] in *. destruct A as (A1 & A2). destruct L as (L1 & L2). destruct c; try contradiction.
    cbn [balanced_step] in L1. destruct L1 as (Ex & U & Pr & V & L1). specialize (L1 s).
    remember (exec (Solve slv sc fuel sparse o) (m, Some s)) as Y eqn:EY. cbn [exec] in EY. unfold of_solution in EY. cbn [fst snd] in EY.
    destruct (solve slv sc fuel sparse o (m, s)) as [[m1 s1] r] eqn:Es. cbn [fst snd] in EY. subst Y. cbn [fst snd] in *. subst r.
    specialize (L1 s1 eq_refl eq_refl) as (One & SM).
    destruct (step_ok (model_core _ _ _ _ _ _ _ _ _ (eq_sym C) K) slv sc fuel sparse o s (m1, s1) Rd Ex U Pr V Es One SM) as ((C1 & _ & T1) & Rd1 & prow & rrow & P1 & P2 & _ & P3).
    cbn [fst snd] in *. assert (Sh : shaped s) by apply Rd. destruct Sh as (S1 & S2).
    destruct (IH m1 s1) as (m' & s' & Q1 & Q2 & Q3 & Q4 & Q5 & Q6 & Q7); auto; [congruence| |].
    + intros t Ht. rewrite P1, P2. destruct (Nat.eq_dec t (S (s_tstep s))) as [->|Nt].
      * rewrite (app_nth2 (s_p s) [prow] [] (n := S (s_tstep s))) by lia. rewrite (app_nth2 (s_r s)) by lia. rewrite app_nth1 by lia. rewrite S1, S2, Nat.sub_diag. cbn [nth].
        replace (S (s_tstep s) - 1) with (length (s_p s) - 1) by lia. rewrite <- last_nth. apply (bal_core m); auto.
      * rewrite !app_nth1 by lia. apply B. lia.
    + exists m', s'. do 4 (split; [assumption|]). cbn [length]. split; [lia|].
      rewrite Q6, Q7, P1, P2, !app_nth1 by lia. auto.
Qed.
End steps.
Lemma all_ok_app {F} {NF : Num F} {NT : NumT F} (l l' : list (call F)) : forall X, all_ok X (l ++ l') -> all_ok X l /\ all_ok (after X l) l'.
Proof.
  induction l as [|c l IH]; intros X H; cbn [app all_ok after fold_left] in *; auto. destruct H as (H1 & H2). apply IH in H2 as (H2 & H3). auto.
Qed.
Lemma setup_ready (g : gobj R) f unit pi dt m0 x y z u dx dy dz l1 ob l2 :
  bo_new g f unit pi dt = Ok m0 -> model m0 x y z u dx dy dz -> plain m0 l1 ob l2 -> all_ok (m0, None) (setup l1 ob l2) ->
  let x0 := after (m0, None) (setup l1 ob l2) in core (fst x0) = core m0 /\ ready (m := fst x0) (fdm_new (fst x0)).
Proof.
  intros Hn K (H1 & H2 & H3 & H4 & H5) A x0.
  pose proof (su_new m0 g f unit pi dt Hn) as S0. apply (su_wells m0 _ [] [] l1) in S0; auto.
  set (bd := match ob with Some bd => bd | None => [] end).
  assert (Fc : Forall (fun e => face_id m0 (fst e)) bd) by (destruct ob; [apply H1|constructor]).
  assert (Nd : NoDup (map fst bd)) by (destruct ob; [apply H1|constructor]).
  assert (S1 : SU m0 (get_n (gr (geom (b_grid m0))) true) bd (pressured bd) (after (m0, None) (l1 ++ match ob with Some bd => [Set_boundaries bd] | None => [] end))).
  { unfold setup in A. apply all_ok_app in A as (_ & A). rewrite after_app. destruct ob as [b|]; [|exact S0].
    cbn [app all_ok] in A. destruct A as (A & _). cbn [after fold_left]. destruct (exec (Set_boundaries b) (after (m0, None) l1)) as [X [[]|]] eqn:E; [|discriminate].
    cbn [fst]. apply (su_boundaries m0 _ b _ X) in S0; auto. intros e I. rewrite Forall_forall in Fc. specialize (Fc e I).
    pose proof (face_facts K _ Fc) as ((P & _) & _). exact P. }
  assert (N1 : noted bd x0).
  { unfold setup in x0, A. unfold x0. rewrite !after_app. apply nt_wells; auto. apply all_ok_app in A as (_ & A).
    pose proof (nt_wells [] l1 _ H2 (nt_new m0 g f unit pi dt Hn)) as N0. destruct ob as [b|]; [|exact N0].
    cbn [app all_ok] in A. destruct A as (A & _). cbn [after fold_left]. destruct (exec (Set_boundaries b) (after (m0, None) l1)) as [X [[]|]] eqn:E; [|discriminate].
    cbn [fst]. apply (nt_boundaries b (after (m0, None) l1) X); try apply N0; auto. intros e I. rewrite Forall_forall in Fc. specialize (Fc e I).
    pose proof (face_facts K _ Fc) as ((P & _) & _). exact P. }
  apply (su_wells m0 _ _ _ l2) in S1; auto. rewrite <- after_app, <- app_assoc in S1. change (SU m0 (get_n (gr (geom (b_grid m0))) true) bd (pressured bd) x0) in S1.
  destruct (ready_start m0 bd x0 S1 N1 Nd Fc H4 H5) as (Q1 & _ & Q2). auto.
Qed.
Lemma history (g : gobj R) f unit pi dt m0 x y z u dx dy dz l1 ob l2 steps m s :
  bo_new g f unit pi dt = Ok m0 -> model m0 x y z u dx dy dz -> plain m0 l1 ob l2 ->
  all_ok (m0, None) (setup l1 ob l2 ++ Compile :: steps) ->
  along balanced_step (after (m0, None) (setup l1 ob l2 ++ [Compile])) steps ->
  after (m0, None) (setup l1 ob l2 ++ Compile :: steps) = (m, Some s) ->
  core m = core m0 /\ ready (m := m) s /\ balanced m0 s /\ s_tstep s = length steps.
Proof.
  intros Hn K P A L E. apply all_ok_app in A as (A1 & A2). pose proof (setup_ready _ _ _ _ _ _ _ _ _ _ _ _ _ _ _ _ Hn K P A1) as H. cbn zeta in H.
  rewrite after_app in L, E. cbn [all_ok after fold_left] in A2, L, E. destruct A2 as (_ & A2). destruct (after (m0, None) (setup l1 ob l2)) as [m1 o1]. cbn in A2, L, E, H. destruct H as (C & R).
  destruct (steps_ok m0 x y z u dx dy dz K steps m1 (fdm_new m1) C R) as (m' & s' & Q1 & Q2 & Q3 & Q4 & Q5 & _); auto.
  { intros t Ht. cbn in Ht. lia. }
  unfold after in Q1. rewrite Q1 in E. inversion E; subst. cbn in Q5. auto.
Qed.
Lemma fsum_app (a b : list (fl R)) : fsum (a ++ b) = fadd (fsum a) (fsum b).
Proof.
  unfold fsum at 1. rewrite fold_left_app. fold (fsum a). destruct (fsum a) as [s|]; cbn; [rewrite fsum_acc; destruct (fsum b); reflexivity|].
  induction b as [|[]]; cbn; auto.
Qed.
Lemma fsum_some (l : list (fl R)) G : fsum l = Some G -> forall v, In v l -> v <> None.
Proof.
  revert G. induction l as [|a l IH]; intros G H v I; [destruct I|]. change (a :: l) with ([a] ++ l)%list in H. rewrite fsum_app in H.
  destruct a as [a|]; [|cbn in H; discriminate]. destruct (fsum l) eqn:E; [|cbn in H; discriminate]. destruct I as [<-|I]; [discriminate|]. eapply IH; eauto.
Qed.
Lemma fm a b c : fmul (Some a) (fsub (Some b) (Some c)) = Some (a * (b - c))%R. Proof. reflexivity. Qed.
Lemma fm2 a k b c : fmul (fmul (Some a) (Some k)) (fsub (Some b) (Some c)) = Some (a * k * (b - c))%R. Proof. reflexivity. Qed.
Lemma gain_add m a b c G H : gain m a b = Some G -> gain m b c = Some H -> gain m a c = Some (G + H)%R.
Proof.
  unfold gain. generalize (b_ids m) as ids. intros ids. revert G H. induction ids as [|i ids IH]; intros G H E1 E2; cbn [map] in *.
  - cbn in *. inversion E1; inversion E2. f_equal. lra.
  - destruct (value a i) as [va|] eqn:Ea, (value b i) as [vb|] eqn:Eb, (value c i) as [vc|] eqn:Ec;
      try (exfalso; eapply (fsum_some _ _ E1); [left; reflexivity|]; now cbn); try (exfalso; eapply (fsum_some _ _ E2); [left; reflexivity|]; now cbn).
    rewrite fm in E1, E2 |- *. rewrite fsum_cons in E1, E2 |- *.
    destruct (fsum (map (fun id => fmul _ (fsub (value b id) (value a id))) ids)) as [g1|] eqn:F1; [|discriminate].
    destruct (fsum (map (fun id => fmul _ (fsub (value c id) (value b id))) ids)) as [g2|] eqn:F2; [|discriminate].
    rewrite (IH _ _ eq_refl eq_refl). inversion E1; inversion E2; subst. f_equal. ring.
Qed.
Lemma gain_scale m a b G k : gain m a b = Some G -> weighted (Some k) m a b = Some (k * G)%R.
Proof.
  unfold gain, weighted. generalize (b_ids m) as ids. intros ids. revert G. induction ids as [|i ids IH]; intros G E; cbn [map] in *.
  - cbn in *. inversion E. f_equal. lra.
  - destruct (value a i) as [va|] eqn:Ea, (value b i) as [vb|] eqn:Eb; try (exfalso; eapply (fsum_some _ _ E); [left; reflexivity|]; now cbn).
    rewrite fm in E. rewrite fm2. rewrite fsum_cons in E |- *.
    destruct (fsum (map (fun id => fmul _ (fsub (value b id) (value a id))) ids)) as [g1|] eqn:F1; [|discriminate].
    rewrite (IH _ eq_refl). inversion E; subst. f_equal. ring.
Qed.
Lemma last_MB slv sc fuel sparse o (X X' : st R) : solve slv sc fuel sparse o X = (X', Ok tt) -> o_upd o = true -> o_mb o = true ->
  exists Y, check_MB Y = (X', Ok tt).
Proof.
  destruct fuel as [|fuel]; [discriminate|]. cbn [solve]. intros E U B. rewrite U, B in E.
  apply mbind_ok in E as (? & ? & _ & E). apply mbind_ok in E as (? & ? & _ & E). apply mbind_ok in E as (? & ? & _ & E).
  apply mbind_ok in E as (? & ? & _ & E). apply mbind_ok in E as (? & ? & _ & E). apply mbind_ok in E as (? & Y & _ & E). exists Y. exact E.
Qed.

(** ** The properties *)
(** C43: over any history of an incompressible model all recorded rates of a
    step sum to zero. *)
Lemma L_C43_incompressible_balance :
  forall (g : gobj R) f unit pi dt m0 x y z u dx dy dz l1 ob l2 steps m s,
  bo_new g f unit pi dt = Ok m0 -> model m0 x y z u dx dy dz -> b_cmp m0 = false -> plain m0 l1 ob l2 ->
  all_ok (m0, None) (setup l1 ob l2 ++ Compile :: steps) ->
  along balanced_step (after (m0, None) (setup l1 ob l2 ++ [Compile])) steps ->
  after (m0, None) (setup l1 ob l2 ++ Compile :: steps) = (m, Some s) ->
  length (s_r s) = S (length steps) /\
  forall t row, 1 <= t -> nth_error (s_r s) t = Some row -> fsum row = Some 0%R.
Proof.
  intros g f unit pi dt m0 x y z u dx dy dz l1 ob l2 steps m s Hn K Hc P A L E.
  destruct (history _ _ _ _ _ _ _ _ _ _ _ _ _ _ _ _ _ _ _ Hn K P A L E) as (C & Rd & B & T).
  assert (Sh : shaped s) by apply Rd. destruct Sh as (S1 & S2). split; [congruence|]. intros t row Ht Er.
  assert (Lt : t < length (s_r s)) by (apply nth_error_Some; congruence).
  specialize (B t ltac:(lia)). unfold bal in B. rewrite Hc in B. rewrite (nth_error_nth _ _ _ Er) in B. exact B.
Qed.
(** C44: over any history of a compressible model the recorded rates of a step
    sum to what the cells took up in that step. *)
Lemma L_C44_compressible_balance :
  forall (g : gobj R) f unit pi dt m0 x y z u dx dy dz l1 ob l2 steps m s,
  bo_new g f unit pi dt = Ok m0 -> model m0 x y z u dx dy dz -> b_cmp m0 = true -> plain m0 l1 ob l2 ->
  all_ok (m0, None) (setup l1 ob l2 ++ Compile :: steps) ->
  along balanced_step (after (m0, None) (setup l1 ob l2 ++ [Compile])) steps ->
  after (m0, None) (setup l1 ob l2 ++ Compile :: steps) = (m, Some s) ->
  length (s_r s) = S (length steps) /\
  forall t old new row, nth_error (s_p s) t = Some old -> nth_error (s_p s) (S t) = Some new -> nth_error (s_r s) (S t) = Some row ->
    exists G, gain m0 old new = Some G /\ fsum row = Some G.
Proof.
  intros g f unit pi dt m0 x y z u dx dy dz l1 ob l2 steps m s Hn K Hc P A L E.
  destruct (history _ _ _ _ _ _ _ _ _ _ _ _ _ _ _ _ _ _ _ Hn K P A L E) as (C & Rd & B & T).
  assert (Sh : shaped s) by apply Rd. destruct Sh as (S1 & S2). split; [congruence|]. intros t old new row Eo En Er.
  assert (Lt : S t < length (s_r s)) by (apply nth_error_Some; congruence).
  specialize (B (S t) ltac:(lia)). unfold bal in B. rewrite Hc in B. rewrite Nat.sub_succ, Nat.sub_0_r in B.
  rewrite (nth_error_nth _ _ _ Er), (nth_error_nth _ _ _ Eo), (nth_error_nth _ _ _ En) in B. exact B.
Qed.
Lemma last_step (g : gobj R) f unit pi dt m0 x y z u dx dy dz l1 ob l2 steps slv sc fuel sparse o m s :
  bo_new g f unit pi dt = Ok m0 -> model m0 x y z u dx dy dz -> plain m0 l1 ob l2 ->
  all_ok (m0, None) (setup l1 ob l2 ++ Compile :: steps ++ [Solve slv sc fuel sparse o]) ->
  along balanced_step (after (m0, None) (setup l1 ob l2 ++ [Compile])) (steps ++ [Solve slv sc fuel sparse o]) -> o_mb o = true ->
  after (m0, None) (setup l1 ob l2 ++ Compile :: steps ++ [Solve slv sc fuel sparse o]) = (m, Some s) ->
  core m = core m0 /\ balanced m0 s /\ shaped s /\ s_tstep s = S (length steps) /\
  exists r, nth_error (s_r s) (s_tstep s) = Some r /\
  if b_cmp m0 then exists po pn pi, nth_error (s_p s) (s_tstep s - 1) = Some po /\ nth_error (s_p s) (s_tstep s) = Some pn /\ nth_error (s_p s) 0 = Some pi /\
    s_err s = Some (fabs (fsub (fdiv (gain m0 po pn) (fsum r)) (Some 1%R))) /\
    s_cum s = Some (fdiv (weighted (Some (b_dt m0)) m0 pi pn) (fmul (Some (b_dt m0 * IZR (Z.of_nat (s_tstep s)))%R) (fsum (concat (s_r s)))))
  else s_err s = Some (fsum r).
Proof.
  intros Hn K P A L Mb E. destruct (history _ _ _ _ _ _ _ _ _ _ _ _ _ _ _ _ _ _ _ Hn K P A L E) as (C & Rd & B & T).
  rewrite app_length in T. cbn [length] in T. rewrite Nat.add_1_r in T.
  split; auto. split; auto. assert (Sh : shaped s) by apply Rd. split; auto. split; auto.
  change (setup l1 ob l2 ++ Compile :: steps ++ [Solve slv sc fuel sparse o])%list with (setup l1 ob l2 ++ ([Compile] ++ steps ++ [Solve slv sc fuel sparse o]))%list in A, E.
  rewrite !app_assoc in A, E. apply all_ok_app in A as (_ & A). rewrite after_app in E.
  assert (L' : along balanced_step (after (m0, None) ((setup l1 ob l2 ++ [Compile]) ++ steps)) [Solve slv sc fuel sparse o]).
  { rewrite after_app. revert L. generalize (after (m0, None) (setup l1 ob l2 ++ [Compile])). clear. induction steps as [|c l IH]; intros X H; auto. cbn [app along after fold_left] in *. apply IH. apply H. }
  destruct (after (m0, None) ((setup l1 ob l2 ++ [Compile]) ++ steps)) as [m1 o1]. cbn [all_ok after fold_left] in A, E. destruct A as (A & _).
  cbn [along balanced_step] in L'. destruct L' as ((_ & U & _) & _).
  cbn [exec] in A, E. unfold of_solution in A, E. destruct o1 as [s1|]; cbn [fst snd] in *; [|discriminate].
  destruct (solve slv sc fuel sparse o (m1, s1)) as [X r] eqn:Es. cbn [fst snd] in *. subst r. inversion E; subst; clear E.
  destruct (last_MB _ _ _ _ _ _ _ Es U Mb) as ([my sy] & EM).
  assert (Kp : fst X = my /\ s_p (snd X) = s_p sy /\ s_r (snd X) = s_r sy /\ s_tstep (snd X) = s_tstep sy).
  { clear -EM. unfold check_MB in EM. apply mset_ok in EM. cbv beta match in EM. fin; destruct sy; cbn; auto. }
  destruct Kp as (Km & Kp1 & Kp2 & Kp3). destruct (core_fields _ _ C) as (_ & C1 & _ & _ & _ & _ & _ & C4 & _ & C2 & C3). subst my.
  destruct (MB_value _ _ _ ltac:(intros id Hi; rewrite C1 in Hi; pose proof (proj1 (proj2 (ids_facts K)) id Hi); lia) ltac:(rewrite <- Kp3; lia) EM) as (r & V1 & V2).
  exists r. rewrite Kp2, Kp3, Kp1. split; auto. rewrite C2 in V2. destruct (b_cmp m0); auto.
  destruct V2 as (po & pn & pi' & V2 & V3 & V4 & V5 & V6). exists po, pn, pi'. do 3 (split; [assumption|]). unfold gain, weighted in *. rewrite <- C1, <- C3, <- C4. auto.
Qed.
(** C43, C44: then the error check_MB reports is 0. *)
Lemma L_C44_reported_error :
  forall (g : gobj R) f unit pi dt m0 x y z u dx dy dz l1 ob l2 steps slv sc fuel sparse o m s,
  bo_new g f unit pi dt = Ok m0 -> model m0 x y z u dx dy dz -> plain m0 l1 ob l2 ->
  all_ok (m0, None) (setup l1 ob l2 ++ Compile :: steps ++ [Solve slv sc fuel sparse o]) ->
  along balanced_step (after (m0, None) (setup l1 ob l2 ++ [Compile])) (steps ++ [Solve slv sc fuel sparse o]) -> o_mb o = true ->
  after (m0, None) (setup l1 ob l2 ++ Compile :: steps ++ [Solve slv sc fuel sparse o]) = (m, Some s) ->
  b_cmp m0 = false \/ fsum (last (s_r s) []) <> Some 0%R -> s_err s = Some (Some 0%R).
Proof.
  intros g f unit pi dt m0 x y z u dx dy dz l1 ob l2 steps slv sc fuel sparse o m s Hn K P A L Mb E N.
  destruct (last_step _ _ _ _ _ _ _ _ _ _ _ _ _ _ _ _ _ _ _ _ _ _ _ _ Hn K P A L Mb E) as (C & B & (S1 & S2) & T & r & Er & V).
  specialize (B (s_tstep s) ltac:(lia)). unfold bal in B. rewrite (nth_error_nth _ _ _ Er) in B.
  rewrite last_nth, S2, Nat.sub_succ, Nat.sub_0_r, (nth_error_nth _ _ _ Er) in N.
  destruct (b_cmp m0); [|now rewrite V, B].
  destruct V as (po & pn & pi' & V1 & V2 & _ & V3 & _). rewrite (nth_error_nth _ _ _ V1), (nth_error_nth _ _ _ V2) in B. destruct B as (G & B1 & B2).
  rewrite B2 in N. destruct N as [N|N]; [discriminate|]. assert (G <> 0%R) by congruence. rewrite V3, B1, B2. f_equal.
  unfold fdiv, fsub, lift2, fabs. cbn -[IZR]. unfold Reqb. destruct (Req_EM_T G 0); [contradiction|]. cbn -[IZR].
  replace (G / G - 1)%R with 0%R by (field; auto). unfold Rltb. destruct (Rlt_dec 0 0); [lra|]. reflexivity.
Qed.
Lemma firstn_snoc {A} (l : list A) k d : k < length l -> firstn (S k) l = (firstn k l ++ [nth k l d])%list.
Proof. revert k. induction l as [|a l IH]; intros k H; [cbn in H; lia|]. destruct k; [reflexivity|]. cbn [firstn app nth]. f_equal. apply IH. cbn in H. lia. Qed.
Lemma cumulative m0 s : b_cmp m0 = true -> balanced m0 s -> shaped s -> fsum (nth 0 (s_r s) []) = Some 0%R ->
  forall k, 1 <= k <= s_tstep s -> exists W, gain m0 (nth 0 (s_p s) []) (nth k (s_p s) []) = Some W /\ fsum (concat (firstn (S k) (s_r s))) = Some W.
Proof.
  intros Hc B (S1 & S2) Z. induction k as [|k IH]; intros H; [lia|]. pose proof (B (S k) H) as Bk. unfold bal in Bk. rewrite Hc, Nat.sub_succ, Nat.sub_0_r in Bk.
  destruct Bk as (G & B1 & B2). rewrite (firstn_snoc _ _ []) by lia. rewrite concat_app, fsum_app. cbn [concat]. rewrite app_nil_r, B2.
  destruct k as [|k].
  - exists G. split; auto. rewrite (firstn_snoc _ _ []) by lia. cbn [firstn app concat]. rewrite app_nil_r, Z. cbn. f_equal. lra.
  - destruct IH as (W & W1 & W2); [lia|]. exists (W + G)%R. split; [eapply gain_add; eauto|]. rewrite W2. reflexivity.
Qed.
(** C45, what holds: after t balanced steps from rates that sum to zero the
    cumulative indicator is 1/t, not 1. *)
Lemma L_C45_cumulative_partial :
  forall (g : gobj R) f unit pi dt m0 x y z u dx dy dz l1 ob l2 steps slv sc fuel sparse o m s,
  bo_new g f unit pi dt = Ok m0 -> model m0 x y z u dx dy dz -> b_cmp m0 = true -> b_dt m0 <> 0%R -> plain m0 l1 ob l2 ->
  all_ok (m0, None) (setup l1 ob l2 ++ Compile :: steps ++ [Solve slv sc fuel sparse o]) ->
  along balanced_step (after (m0, None) (setup l1 ob l2 ++ [Compile])) (steps ++ [Solve slv sc fuel sparse o]) -> o_mb o = true ->
  after (m0, None) (setup l1 ob l2 ++ Compile :: steps ++ [Solve slv sc fuel sparse o]) = (m, Some s) ->
  fsum (nth 0 (s_r s) []) = Some 0%R -> fsum (concat (s_r s)) <> Some 0%R ->
  s_cum s = Some (Some (/ IZR (Z.of_nat (S (length steps))))%R).
Proof.
  intros g f unit pi dt m0 x y z u dx dy dz l1 ob l2 steps slv sc fuel sparse o m s Hn K Hc Hd P A L Mb E Z N.
  destruct (last_step _ _ _ _ _ _ _ _ _ _ _ _ _ _ _ _ _ _ _ _ _ _ _ _ Hn K P A L Mb E) as (C & B & Sh & T & r & Er & V).
  rewrite Hc in V. destruct V as (po & pn & pi' & V1 & V2 & V3 & _ & V4).
  destruct (cumulative m0 s Hc B Sh Z (s_tstep s) ltac:(lia)) as (W & W1 & W2). destruct Sh as (S1 & S2).
  rewrite <- S2, firstn_all in W2. rewrite (nth_error_nth _ _ _ V2), (nth_error_nth _ _ _ V3) in W1.
  rewrite V4, W2, (gain_scale _ _ _ _ _ W1), <- T. f_equal. assert (W <> 0%R) by congruence.
  assert (Tn : IZR (Z.of_nat (s_tstep s)) <> 0%R) by (apply (IZR_neq _ 0); lia).
  assert (D : (b_dt m0 * IZR (Z.of_nat (s_tstep s)) * W)%R <> 0%R) by (repeat apply Rmult_integral_contrapositive_currified; auto).
  change (fdiv (Some (b_dt m0 * W)%R) (Some (b_dt m0 * IZR (Z.of_nat (s_tstep s)) * W)%R) = Some (/ IZR (Z.of_nat (s_tstep s)))%R).
  unfold fdiv. cbn -[IZR]. unfold Reqb. destruct (Req_EM_T _ 0); [contradiction|]. f_equal. field. auto.
Qed.

(** ** Cases *)
(** Three cells at pressure 10, injection into the middle one, pressure 6 on the
    left, a rate on the right; two steps. *)
Example ex_C43_case : exists m0 l1 ob l2 steps m s, build 3 1 1 None 0%R (Some 10%R) None = Ok m0 /\ (exists g f unit p dt, bo_new g f unit p dt = Ok m0) /\
  (exists x y z u dx dy dz, model m0 x y z u dx dy dz) /\ b_cmp m0 = false /\ plain m0 l1 ob l2 /\
  all_ok (m0, None) (setup l1 ob l2 ++ Compile :: steps) /\
  along balanced_step (after (m0, None) (setup l1 ob l2 ++ [Compile])) steps /\
  after (m0, None) (setup l1 ob l2 ++ Compile :: steps) = (m, Some s) /\ length steps = 2 /\ nth_error (last (s_r s) []) 2 = Some (Some 1%R).
Proof.
  destruct run_i as (G & req & HG & m & s & E1 & m1 & E2 & W & E3 & H).
  exists (line3 0 false (Some 10%R)), [injector], (Some (sides 2)), [], steps_i, m, s.
  split; [apply line3_zero|]. split; [eapply build_new; apply line3_zero|]. split; [do 7 eexists; apply line3_model; discriminate|]. split; [reflexivity|].
  split; [eapply sample_plain; eauto|]. destruct (sample_run 2 steps_i _ m1 m s G req E1 E2 E3) as (A & L & E). auto 6.
Qed.
Example ex_C44_case : exists m0 l1 ob l2 steps slv sc fuel sparse o m s, build 3 1 1 None 1%R (Some 10%R) None = Ok m0 /\ (exists g f unit p dt, bo_new g f unit p dt = Ok m0) /\
  (exists x y z u dx dy dz, model m0 x y z u dx dy dz) /\ b_cmp m0 = true /\ b_dt m0 <> 0%R /\ plain m0 l1 ob l2 /\
  all_ok (m0, None) (setup l1 ob l2 ++ Compile :: steps ++ [Solve slv sc fuel sparse o]) /\
  along balanced_step (after (m0, None) (setup l1 ob l2 ++ [Compile])) (steps ++ [Solve slv sc fuel sparse o]) /\ o_mb o = true /\
  after (m0, None) (setup l1 ob l2 ++ Compile :: steps ++ [Solve slv sc fuel sparse o]) = (m, Some s) /\ length steps = 1 /\
  fsum (last (s_r s) []) <> Some 0%R /\ fsum (nth 0 (s_r s) []) = Some 0%R /\ fsum (concat (s_r s)) <> Some 0%R.
Proof.
  destruct run_c as (G & req & HG & m & s & E1 & m1 & E2 & W & E3 & H1 & H2 & H3).
  exists (line3 (1 + 0) true (Some 10%R)), [injector], (Some (sides 0)), [], [Solve (trial [[71 / 9; 86 / 9; 88 / 9]]%R) SampleWell.one 9 true omb],
    (trial [[391 / 54; 245 / 27; 509 / 54]]%R), SampleWell.one, 9, true, omb, m, s.
  split; [apply line3_pos; lra|]. split; [eapply build_new; apply (line3_pos 1); lra|]. split; [do 7 eexists; apply line3_model; intros; lra|]. split; [reflexivity|]. split; [cbn; lra|].
  split; [eapply sample_plain; eauto|]. destruct (sample_run 0 steps_c _ m1 m s G req E1 E2 E3) as (A & L & E).
  split; [exact A|]. split; [exact L|]. split; [reflexivity|]. split; [exact E|]. split; [reflexivity|].
  split; [rewrite H1; intros J; inversion J; lra|]. split; [exact H2|rewrite H3; intros J; inversion J; lra].
Qed.
