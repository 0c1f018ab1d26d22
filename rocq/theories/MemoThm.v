(** The cache of the boundary terms. *)
From Coq Require Import String ZArith Bool Arith List Lia Reals Lra QArith.
From Verif Require Import Prelude PreludeFacts Num GridModel GridSpec GeoModel GeoSpec PropModel PropSpec BlackOilModel FdmModel MonadFacts HistSpec InvFacts ModelSpec Samples QSamples SampleWell SampleBal AssemblyThm SolverSpec SolveSpec BalanceSpec LocalSpec ChangeSpec TotalFacts BalanceThm ChangeThm MemoModel MemoSpec MemoFacts.
Import ListNotations.
Close Scope Q_scope. Close Scope R_scope.
Open Scope nat_scope.

Lemma eqb_R (a b : R) : neqb a b = true -> a = b.
Proof. cbn [neqb Num_R]. unfold Reqb. destruct (Req_EM_T a b); [auto|discriminate]. Qed.
(** Only set_boundaries touches the conditions. *)
Lemma exec_bdict {F} {NF : Num F} {NT : NumT F} (c : call F) x : match c with Set_boundaries _ => False | _ => True end ->
  b_bdict (fst (fst (exec c x))) = b_bdict (fst x) /\ b_bup (fst (fst (exec c x))) = b_bup (fst x).
Proof.
  set (P := fun m : bo F => b_bdict m = b_bdict (fst x) /\ b_bup m = b_bup (fst x)).
  assert (I1 : forall v m, P m -> P (set_ip v m)) by (intros v []; exact (fun H => H)). assert (I2 : forall v m, P m -> P (set_ir v m)) by (intros v []; exact (fun H => H)).
  assert (I3 : forall v m, P m -> P (set_wells v m)) by (intros v []; exact (fun H => H)). assert (I4 : forall v m, P m -> P (set_wp v m)) by (intros v []; exact (fun H => H)).
  assert (I5 : forall v m, P m -> P (set_terms v m)) by (intros v []; exact (fun H => H)).
  assert (P0 : P (fst x)) by now split. intros Hc. change (P (fst (fst (exec c x)))).
  destruct c as [cell q pwf r s|w cell|idb cond v|bd|cond v| |slv sc fuel sparse o|slv sc n fuel sparse thr vect mb pr iso]; cbn [exec]; try contradiction.
  - now apply (c_set_well P).
  - now apply (c_set_well_obj P).
  - now apply (c_boundary P).
  - now apply (c_all P).
  - exact P0.
  - destruct x as [m [s|]]; unfold of_solution; cbn [fst snd] in *; [|exact P0]. pose proof (c_solve P) as H. specialize (H I3 I4 I5 slv sc fuel sparse o (m, s) P0). cbn [fst] in H. destruct (solve _ _ _ _ _ _) as [y r]. exact H.
  - destruct x as [m [s|]]; unfold of_solution; cbn [fst snd] in *; [|exact P0]. pose proof (c_run P) as H. specialize (H I3 I4 I5 slv sc n fuel sparse thr vect mb pr iso (m, s) P0). cbn [fst] in H. destruct (run _ _ _ _ _ _ _ _ _ _ _) as [y r]. exact H.
Qed.
Lemma first_undisturbed {F} {NF : Num F} {NT : NumT F} (l : list (call F)) : forall stepped x, boundaries_first stepped l -> undisturbed false stepped x l.
Proof.
  assert (S : forall (c : call F) x, match c with Set_boundaries _ => False | _ => True end -> conditions_stay false x (fst (exec c x))).
  { intros c x H idb _. destruct (exec_bdict c x H) as (E & _). now rewrite E. }
  induction l as [|c l IH]; intros stepped x H; [exact I|]. cbn [undisturbed].
  destruct c as [cell q pwf r s|w cell|idb cond v|bd|cond v| |slv sc fuel sparse o|slv sc n fuel sparse thr vect mb pr iso]; cbn [boundaries_first] in H;
    try (split; [intros _; now apply S|]; split; [discriminate|now apply IH]).
  destruct H as (-> & H). split; [discriminate|]. split; [discriminate|now apply IH].
Qed.
(** What a successful set_boundaries leaves. *)
Lemma set_bdict_ok {F} {NF : Num F} {NT : NumT F} bd (x : ws F) : snd (exec (Set_boundaries bd) x) = Ok tt ->
  b_bdict (fst (fst (exec (Set_boundaries bd) x))) = bd /\ b_bup (fst (fst (exec (Set_boundaries bd) x))) = map fst (pressures bd).
Proof.
  cbn [exec]. set (y := (set_bdict bd (fst x), snd x)). assert (E0 : b_bdict (fst y) = bd) by (unfold y; destruct x as [[] ?]; reflexivity).
  set (it := fun (bs : list Z) (e : Z * (string * F)) => match e with (id, (cond, v)) => mbind (mread (fun _ : ws F => passert (zmem id bs))) (fun _ => set_boundary id cond v) end).
  assert (U : set_boundaries bd x = match get_boundaries_id (bgrid (fst y)) with
    | Ok bs => match miter (it bs) bd y with (z, Ok _) => ((set_bup (map fst (pressures (b_bdict (fst z)))) (fst z), snd z), Ok tt) | (z, Err e) => (z, Err e) end
    | Err e => (y, Err e) end).
  { unfold set_boundaries. unfold mbind at 1. unfold mset at 1. cbv beta iota. fold y. unfold mbind at 1. unfold mread at 1. destruct (get_boundaries_id _) as [bs|]; reflexivity. }
  rewrite U. clear U. destruct (get_boundaries_id _) as [bs|]; [|discriminate].
  assert (K : inv (fun z : ws F => b_bdict (fst z) = bd) (miter (it bs) bd)).
  { unfold it. apply i_iter. intros [id [cond v]] _. apply i_bind; [apply i_read|]. intros _. apply (c_boundary (fun m => b_bdict m = bd)); intros w []; exact (fun H => H). }
  specialize (K y E0). destruct (miter (it bs) bd y) as [z [[]|]]; [|discriminate]. cbn [fst snd] in *. intros _. destruct z as [[] ?]. cbn in K |- *. now rewrite K.
Qed.
Definition orderly {F} (x : ws F) : Prop := NoDup (map fst (b_bdict (fst x))) /\ b_bup (fst x) = map fst (pressures (b_bdict (fst x))).
Lemma pressures_get {F} (bd : list (Z * (string * F))) id : NoDup (map fst bd) -> In id (map fst (pressures bd)) -> exists v, In (id, ("pressure"%string, v)) (pressures bd) /\ dget id bd = Some ("pressure"%string, v).
Proof.
  intros N H. apply in_map_iff in H as ([k [c v]] & E & I). cbn in E. subst k. pose proof I as I'. unfold pressures in I'. apply filter_In in I' as (I1 & I2). cbn in I2. apply String.eqb_eq in I2. subst c. exists v. split; auto. now apply dget_nodup.
Qed.
Lemma pressures_in {F} (bd : list (Z * (string * F))) id v : NoDup (map fst bd) -> In (id, ("pressure"%string, v)) (pressures bd) -> dget id bd = Some ("pressure"%string, v).
Proof. intros N H. apply filter_In in H as (H & _). now apply dget_nodup. Qed.
Lemma live_undisturbed (l : list (call R)) : forall stepped x, orderly x -> all_ok x l -> along live x l -> undisturbed true stepped x l.
Proof.
  induction l as [|c l IH]; intros stepped x O A L; [exact I|]. cbn [all_ok along] in A, L. destruct A as (A1 & A2), L as (L1 & L2). cbn [undisturbed].
  assert (Q : conditions_stay true x (fst (exec c x)) /\ orderly (fst (exec c x)) /\ vectorised c).
  { destruct c as [cell q pwf r s|w cell|idb cond v|bd|cond v| |slv sc fuel sparse o|slv sc n fuel sparse thr vect mb pr iso]; cbn [live change] in L1; try contradiction.
    - destruct (exec_bdict (Set_well cell q pwf r s) x I) as (E1 & E2). split; [intros id H; rewrite E1, E2; auto|]. split; [unfold orderly; now rewrite E1, E2|exact I].
    - destruct (set_bdict_ok bd x A1) as (E1 & E2). destruct L1 as (_ & N & _ & P & _). split; [|split; [split; rewrite E1; auto|exact I]]. destruct O as (N0 & U0). intros id H. specialize (H eq_refl). rewrite E1, E2. rewrite U0 in H. split; [|intros _; now rewrite P].
      destruct (pressures_get _ _ N0 H) as (v & I1 & ->). rewrite <- P in I1. now apply pressures_in.
    - destruct (exec_bdict (Solve slv sc fuel sparse o) x I) as (E1 & E2). split; [intros id H; rewrite E1, E2; auto|]. split; [unfold orderly; now rewrite E1, E2|]. destruct L1 as (V & _ & _ & Pr & _). now split. }
  destruct Q as (Q1 & Q2 & Q3). split; [intros _; exact Q1|]. split; [intros _; exact Q3|]. now apply IH.
Qed.
Lemma wells_orderly (l : list (call R)) : forall x, Forall sets_well l -> orderly x -> orderly (after x l).
Proof.
  induction l as [|c l IH]; intros x S O; [exact O|]. inversion S as [|? ? S1 S2]; subst. cbn [after fold_left]. apply IH; auto. destruct c; try contradiction. destruct (exec_bdict (Set_well cell q pwf r s) x I) as (E1 & E2). unfold orderly. now rewrite E1, E2.
Qed.
(** A part of a history without steps is undisturbed whatever it does. *)
Lemma quiet_undisturbed vt (l l' : list (call R)) : forall x, Forall (fun c => ~ stepping c) l -> undisturbed vt false (after x l) l' -> undisturbed vt false x (l ++ l').
Proof.
  induction l as [|c l IH]; intros x S U; [exact U|]. inversion S as [|? ? S1 S2]; subst. cbn [app undisturbed]. split; [discriminate|]. split; [intros _; destruct c; cbn in *; tauto|]. destruct c; cbn in S1; try tauto; apply IH; auto.
Qed.
Lemma setup_quiet m l1 ob l2 : plain m l1 ob l2 -> Forall (fun c : call R => ~ stepping c) (setup l1 ob l2 ++ [Compile]).
Proof.
  intros (_ & S1 & S2 & _). unfold setup. rewrite !Forall_app. assert (Q : forall l : list (call R), Forall sets_well l -> Forall (fun c => ~ stepping c) l) by (intros l; apply Forall_impl; intros []; cbn; tauto).
  repeat split; auto. destruct ob; repeat constructor; cbn; tauto.
Qed.
Lemma controls_undisturbed (g : gobj R) f unit pi dt m0 l1 ob l2 hist : bo_new g f unit pi dt = Ok m0 -> plain m0 l1 ob l2 ->
  all_ok (m0, None) (setup l1 ob l2 ++ Compile :: hist) -> along live (after (m0, None) (setup l1 ob l2 ++ [Compile])) hist ->
  undisturbed true false (m0, None) (setup l1 ob l2 ++ Compile :: hist).
Proof.
  intros Hn P A L.
  replace (setup l1 ob l2 ++ Compile :: hist) with ((setup l1 ob l2 ++ [Compile]) ++ hist) in * by (rewrite <- app_assoc; reflexivity).
  apply all_ok_app in A as (A1 & A2). apply quiet_undisturbed; [eapply setup_quiet; eauto|]. apply live_undisturbed; auto.
  rewrite after_app. cbn [after fold_left exec]. unfold mset. cbn [fst].
  assert (O : orderly (after (m0, None) (setup l1 ob l2))); [|exact O].
  assert (O0 : orderly (m0, @None (fs R))). { unfold bo_new in Hn. destruct (UnitsModel.set_units _ _) as [u [?|]]; [|discriminate]. cbv zeta in Hn. repeat match type of Hn with rbind ?t _ = _ => destruct t; cbn [rbind] in Hn; [|discriminate] end. inversion Hn. split; [constructor|reflexivity]. }
  apply all_ok_app in A1 as (A1 & _). unfold setup in *. destruct P as (P0 & S1 & S2 & _). rewrite after_app. rewrite after_app. apply wells_orderly; auto. apply all_ok_app in A1 as (_ & A1). apply all_ok_app in A1 as (A1 & _).
  destruct ob as [bd|]; cbn [after fold_left]; [|now apply wells_orderly]. destruct A1 as (A1 & _). destruct (set_bdict_ok bd _ A1) as (E1 & E2). split; rewrite ?E1, ?E2; [apply P0|reflexivity].
Qed.

(** ** C112 *)
(** The cache of the boundary terms is not seen if set_boundaries is not called after
    the first step of a solution: every call returns or raises and leaves what it would
    without the cache. *)
Lemma L_C112_boundaries_first :
  forall (m : bo R) (l : list (call R)), boundaries_first false l ->
  fst (after_m (m, None, memo0) l) = after (m, None) l /\ outcomes_m (m, None, memo0) l = outcomes (m, None) l.
Proof.
  intros m l H. apply (memo_history eqb_R false l false); [discriminate|reflexivity|now apply first_undisturbed].
Qed.
(** More generally if, once stepped, the conditions stay: all of them, or (vectorised
    steps only) those of the boundaries with a prescribed pressure. *)
Lemma L_C112_undisturbed :
  forall vect (m : bo R) (l : list (call R)), undisturbed vect false (m, None) l ->
  fst (after_m (m, None, memo0) l) = after (m, None) l /\ outcomes_m (m, None, memo0) l = outcomes (m, None) l.
Proof. intros vect m l H. now apply (memo_history eqb_R vect l false). Qed.
(** In particular with the changes of controls of C96: new rates, wells and limits
    between the steps, the prescribed pressures staying. *)
Lemma L_C112_changed_controls :
  forall (g : gobj R) f unit pi dt m0 l1 ob l2 hist, bo_new g f unit pi dt = Ok m0 -> plain m0 l1 ob l2 ->
  all_ok (m0, None) (setup l1 ob l2 ++ Compile :: hist) -> along live (after (m0, None) (setup l1 ob l2 ++ [Compile])) hist ->
  fst (after_m (m0, None, memo0) (setup l1 ob l2 ++ Compile :: hist)) = after (m0, None) (setup l1 ob l2 ++ Compile :: hist) /\
  outcomes_m (m0, None, memo0) (setup l1 ob l2 ++ Compile :: hist) = outcomes (m0, None) (setup l1 ob l2 ++ Compile :: hist).
Proof.
  intros g f unit pi dt m0 l1 ob l2 hist Hn P A L. apply (memo_history eqb_R true _ false); [discriminate|reflexivity|]. exact (controls_undisturbed g f unit pi dt m0 l1 ob l2 hist Hn P A L).
Qed.
(** It is seen otherwise.  Incompressible: a boundary pressure changed from 20 to 40
    after a step; the next step records the boundary rate of 20.  And a step at time 0
    that is not kept (update=False) fixes the boundary pressure of all later steps. *)
Lemma L_C112_cache_seen_refuted :
  exists m0 : bo Q, build 3 1 1 None 0%Q (Some 10%Q) None = Ok m0 /\
  forall NT : NumT Q,
  let edge v := Set_boundaries [(0%Z, ("pressure"%string, v))] in
  let look := Solve cramer3 oneQ 9 true (mkOpts false true false false false None) in
  let step := Solve cramer3 oneQ 9 true vectorial in
  let l1 := [edge 20%Q; Compile; step; edge 40%Q; step] in
  let l2 := [edge 20%Q; Compile; look; edge 40%Q; step] in
  outcomes_m (m0, None, memo0) l1 = repeat (Ok tt) 5 /\ outcomes (m0, None) l1 = repeat (Ok tt) 5 /\
  at2 (s_r (sol m0 (fst (after_m (m0, None, memo0) l1)))) 2 0 = Ok (Some 0%Q) /\ at2 (s_r (sol m0 (after (m0, None) l1))) 2 0 = Ok (Some 40%Q) /\
  outcomes_m (m0, None, memo0) l2 = repeat (Ok tt) 5 /\ outcomes (m0, None) l2 = repeat (Ok tt) 5 /\
  nth_error (s_p (sol m0 (fst (after_m (m0, None, memo0) l2)))) 1 = Some [Some 20%Q; Some 20%Q; Some 20%Q; Some 20%Q; None] /\
  nth_error (s_p (sol m0 (after (m0, None) l2))) 1 = Some [Some 20%Q; Some 40%Q; Some 40%Q; Some 40%Q; None].
Proof.
  eexists. split; [vm_compute; reflexivity|]. intros NT. cbv zeta.
  split; [vm_compute; reflexivity|]. split; [vm_compute; reflexivity|]. split; [vm_compute; reflexivity|]. split; [vm_compute; reflexivity|].
  split; [vm_compute; reflexivity|]. split; [vm_compute; reflexivity|]. split; vm_compute; reflexivity.
Qed.
Example ex_C112_first_case : forall slv : solver_kind -> @mat R -> list (fl R) -> res (list (fl R)), boundaries_first false
  [injector; Set_boundaries (sides 2); Compile; Solve slv SampleWell.one 9 true omb; new_rate 3; Solve slv SampleWell.one 9 true symbolic; Compile; Set_boundaries (sides 5); Solve slv SampleWell.one 9 true omb].
Proof.
  intros slv. cbn. auto.
Qed.
Example ex_C112_case : exists (g : gobj R) f unit pi dt m0 l1 ob l2 hist, bo_new g f unit pi dt = Ok m0 /\ plain m0 l1 ob l2 /\
  all_ok (m0, None) (setup l1 ob l2 ++ Compile :: hist) /\ along live (after (m0, None) (setup l1 ob l2 ++ [Compile])) hist /\
  undisturbed true false (m0, None) (setup l1 ob l2 ++ Compile :: hist) /\ ob = Some (sides 2) /\ In (Set_boundaries (sides 5)) hist.
Proof.
  destruct ex_C96_case as (m0 & l1 & ob & l2 & hist & id & q & slv & sc & fuel & sparse & o & m1 & s1 & m2 & s2 & _ & (g & f & unit & p & dt & Hn) & _ & P & _ & _ & H). cbv zeta in H. destruct H as (A & L & _ & _ & E & Eo).
  exists g, f, unit, p, dt, m0, l1, ob, l2. eexists. split; [exact Hn|]. split; [exact P|]. split; [exact A|]. split; [exact L|]. split; [exact (controls_undisturbed _ _ _ _ _ _ _ _ _ _ Hn P A L)|]. split; [exact Eo|].
  rewrite E. cbn. auto 9.
Qed.
