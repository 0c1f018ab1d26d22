(** Histories of calls that cannot fail. *)
From Coq Require Import String ZArith Bool Arith List Lia Reals Lra.
From Verif Require Import Prelude PreludeFacts Num GridModel GridSpec GridThm GeoModel GeoSpec GeoProofs
  GridProofs GridNeighbors PropModel PropSpec PropProofs MatrixProofs BlackOilModel FdmModel MonadFacts HistSpec InvFacts SumFacts ModelSpec ModelFacts VectFacts FaceFacts AsmFacts
  PropThm AssemblyThm SolverSpec SolveSpec StepSpec StepFacts WellStepFacts SolveFacts BalanceSpec CanonFacts NbrFacts FrameModel FrameSpec FrameFacts TotalSpec TotalFacts TotalStep.
Import ListNotations.
Close Scope R_scope.
Open Scope nat_scope.

(** ** What setting a well leaves alone *)
Definition kept (x : ws R) := (b_bdict (fst x), b_bup (fst x), snd x).
Ltac kp := apply i_set; intros [[] o] [? ?] <- E; cbn [fst snd] in *; fin; reflexivity.
Lemma kp_upd v id f : inv (fun x => kept x = v) (upd_well id f). Proof. unfold upd_well. kp. Qed.
Lemma kp_log v id : inv (fun x => kept x = v) (log_pressure id). Proof. unfold log_pressure. kp. Qed.
Lemma kp_tail v id : inv (fun x => kept x = v) (set_well_tail id).
Proof. unfold set_well_tail. isplit; auto using kp_upd, kp_log. Qed.
Lemma kp_well v cell q pwf r s : inv (fun x => kept x = v) (set_well cell q pwf r s).
Proof.
  unfold set_well, assert_inside. destruct cell as [id|]; [|apply i_read]. isplit; auto using kp_upd, kp_log, kp_tail.
  apply i_set. intros [m o] [m' o'] Hx E. cbn [fst snd] in *. destruct (din id (b_wells m)); injection E as <- <-; [exact Hx|destruct m; exact Hx].
Qed.
Lemma kp_obj v w cell : inv (fun x => kept x = v) (set_well_obj w cell).
Proof. unfold set_well_obj, assert_inside. isplit; auto using kp_tail. kp. Qed.

(** ** Wells set with success are complete *)
Lemma s_set {S} (f : S -> res S) (P : S -> Prop) (Q : unit -> S -> Prop) : (forall s, P s -> match f s with Ok s' => Q tt s' | Err _ => True end) -> hoare P (mset f) Q (fun _ => True).
Proof. intros H s Ps. specialize (H s Ps). unfold mset. destruct (f s); auto. Qed.
Lemma s_read {S A} (f : S -> res A) (P : S -> Prop) (Q : A -> S -> Prop) : (forall s, P s -> match f s with Ok a => Q a s | Err _ => True end) -> hoare P (mread f) Q (fun _ => True).
Proof. intros H s Ps. specialize (H s Ps). unfold mread. destruct (f s); auto. Qed.
Lemma s_opt {S A} (v : option A) (f : A -> M S unit) (P : S -> Prop) (Q : unit -> S -> Prop) : (forall a, hoare P (f a) Q (fun _ => True)) -> (forall s, P s -> Q tt s) -> hoare P (mopt v f) Q (fun _ => True).
Proof. intros H H' s Ps. destruct v; [now apply H|]. now apply H'. Qed.
Section well.
Context (X0 : ws R) (id : Z).
(** the well [id] meets [Q], the others are as in [X0] *)
Definition W (Q : well R -> Prop) (X : ws R) : Prop :=
  (exists w, dget id (b_wells (fst X)) = Some w /\ Q w) /\ forall j, j <> id -> dget j (b_wells (fst X)) = dget j (b_wells (fst X0)).
Notation hs P c Q := (hoare P c Q (fun _ => True)).
Lemma W_upd (Q Q' : well R -> Prop) f : (forall m w w', Q w -> f m w = Ok w' -> Q' w') -> hs (W Q) (upd_well id f) (fun _ => W Q').
Proof.
  intros H. unfold upd_well. apply s_set. intros [m o] ((w & E & HQ) & Ho). cbn [fst snd] in *. unfold dgetE. rewrite E. cbn [rbind]. destruct (f m w) as [w'|] eqn:Ef; cbn [rbind]; auto.
  unfold W. cbn [fst]. rewrite wells_set_wells. split; [exists w'; split; [apply dget_dset_same|eauto]|]. intros j Hj. rewrite dget_dset_other; auto.
Qed.
Lemma W_log Q : hs (W Q) (log_pressure id) (fun _ => W Q).
Proof.
  unfold log_pressure. apply s_set. intros [m o] H. destruct (get_pressure (m, o) id); cbn [rbind fst snd]; auto. destruct m. exact H.
Qed.
Definition full0 (w : well R) : Prop := pw w /\ w_con w <> None.
Lemma W_tail : hs (W full0) (set_well_tail id) (fun _ => W (fun w => full0 w /\ w_pwf w <> None /\ w_G w <> None)).
Proof.
  unfold set_well_tail. eapply h_bind; [apply W_upd with (Q' := full0)|].
  { intros m w w' H E. destruct (calc_well_r_eq m id); [|discriminate]. injection E as <-. destruct w. exact H. }
  intros []. eapply h_bind; [apply W_upd with (Q' := fun w => full0 w /\ w_G w <> None)|].
  { intros m w w' H E. destruct (calc_well_G m id); [|discriminate]. injection E as <-. destruct w. split; [exact H|discriminate]. }
  intros []. eapply h_bind with (Q := fun w X => W (fun w' => w' = w /\ full0 w' /\ w_G w' <> None) X).
  { apply s_read. intros [m o] ((w & E & HQ) & Ho). cbn [fst snd] in *. unfold dgetE. rewrite E. split; auto. exists w. auto. }
  intros w. apply h_when.
  - intros _. eapply h_bind; [apply W_upd with (Q' := fun w => full0 w /\ w_pwf w <> None /\ w_G w <> None)|intros []; apply W_log].
    intros m w1 w' (-> & ((H1 & H2) & H3) & H4) E. injection E as <-. destruct w. cbn in *. split; [|split; [discriminate|auto]]. split; [split; [exact H1|intros ?; reflexivity]|exact H3].
  - intros H X ((w' & E & -> & H1 & H2) & Ho). split; auto. exists w. split; auto. split; auto. split; auto. destruct (w_pwf w); [discriminate|discriminate H].
Qed.
Notation done := (fun w => full0 w /\ w_pwf w <> None /\ w_G w <> None).
Lemma W_weak (Q Q' : well R -> Prop) X : W Q X -> (forall w, Q w -> Q' w) -> W Q' X.
Proof. intros ((w & E & H) & Ho) HQ. split; eauto. Qed.
Lemma W_obj w cell : snd (set_well_obj w cell X0) = Ok tt -> attrE (match cell with Some i => Some i | None => sc_cell w end) = Ok id -> W done (fst (set_well_obj w cell X0)).
Proof.
  intros E Ei. cut (hs (fun X => X = X0) (set_well_obj w cell) (fun _ => W done)).
  { intros H. specialize (H X0 eq_refl). destruct (set_well_obj w cell X0) as [X r]. cbn [fst snd] in *. subst r. exact H. }
  unfold set_well_obj. eapply h_bind with (Q := fun i X => i = id /\ X = X0).
  { apply s_read. intros X ->. destruct cell as [i|]; cbn in Ei; [injection Ei as <-; auto|]. rewrite Ei. auto. }
  intros i. eapply h_bind with (Q := fun _ X => i = id /\ X = X0).
  { unfold assert_inside. apply s_read. intros X H. unfold passert. destruct (zmem _ _); auto. }
  intros []. eapply h_bind with (Q := fun _ X => i = id /\ W full0 X).
  { apply s_set. intros X (-> & ->). split; auto. unfold W. cbn [fst]. rewrite wells_set_wells. split; [|intros; now rewrite dget_dset_other].
    exists (well_of w). split; [apply dget_dset_same|]. destruct w. split; [|discriminate]. split; [intros H; now cbn in H|exact I]. }
  intros [] X (-> & H). now apply W_tail.
Qed.
Lemma W_well q pwf r s : (forall w, dget id (b_wells (fst X0)) = Some w -> pw w) -> snd (set_well (Some id) q pwf r s X0) = Ok tt -> W done (fst (set_well (Some id) q pwf r s X0)).
Proof.
  intros Hp E. cut (hs (fun X => X = X0) (set_well (Some id) q pwf r s) (fun _ => W done)).
  { intros H. specialize (H X0 eq_refl). destruct (set_well (Some id) q pwf r s X0) as [X r']. cbn [fst snd] in *. subst r'. exact H. }
  unfold set_well. eapply h_bind with (Q := fun _ X => X = X0).
  { unfold assert_inside. apply s_read. intros X H. unfold passert. destruct (zmem _ _); auto. }
  intros []. eapply h_bind with (Q := fun _ X => W pw X).
  { apply s_set. intros X ->. unfold din. destruct (dget id (b_wells (fst X0))) as [w|] eqn:Ew; cbn [has].
    - split; auto. exists w. auto.
    - unfold W. cbn [fst]. rewrite wells_set_wells. split; [|intros; now rewrite dget_dset_other]. exists well0. split; [apply dget_dset_same|]. split; cbn; auto. }
  intros []. eapply h_bind with (Q := fun _ => W pw).
  { apply s_opt; [intros q'|auto]. apply W_upd. intros m w w' (H1 & H2) E1. injection E1 as <-. destruct w. split; cbn in *; [discriminate|]. destruct w_pwf as [p|], w_pwfsp; auto. discriminate. }
  intros []. eapply h_bind with (Q := fun _ => W pw).
  { apply s_opt; [intros p|auto]. eapply h_bind; [apply W_upd with (Q' := pw)|intros []; apply W_log].
    intros m w w' (H1 & H2) E1. injection E1 as <-. destruct w. cbn in *. destruct w_q as [q'|]; cbn; split; cbn in *; auto. }
  intros []. eapply h_bind with (Q := fun _ => W full0).
  { apply W_upd. intros m w w' H E1. injection E1 as <-. split; destruct w; cbn in *; destruct w_con; cbn; try exact H; discriminate. }
  intros []. eapply h_bind with (Q := fun _ => W full0).
  { apply s_opt; [intros q'|auto]. apply W_upd. intros m w w' H E1. injection E1 as <-. destruct w. exact H. }
  intros []. eapply h_bind with (Q := fun _ => W full0).
  { apply s_opt; [intros q'|auto]. apply W_upd. intros m w w' H E1. injection E1 as <-. destruct w. exact H. }
  intros []. apply W_tail.
Qed.
Lemma W_fit X : W done X -> draining (fst X) -> (forall i w, dget i (b_wells (fst X0)) = Some w -> fit w) -> forall i w, dget i (b_wells (fst X)) = Some w -> fit w.
Proof.
  intros ((w & E & (H1 & H2) & H3 & H4) & Ho) Hd H0 i w' E'. destruct (Z.eq_dec i id) as [->|Hn].
  - rewrite E in E'. injection E' as <-. split; auto. split; auto. split; auto. split; auto. intros G HG. exact (Hd _ _ _ E HG).
  - rewrite (Ho i Hn) in E'. eauto.
Qed.
End well.

(** ** What setting boundaries leaves alone *)
Definition rest (x : ws R) := (b_wells (fst x), b_bdict (fst x), b_bup (fst x), option_map (fun s : fs R => (length (s_p s), length (s_r s), s_tstep s, s_A s, s_bv s)) (snd x)).
Lemma set2_len {A} (rows rows' : list (list A)) t id v : set2 rows t id v = Ok rows' -> length rows' = length rows.
Proof. unfold set2. destruct (nth_error _ _); [|discriminate]. destruct (pyset _ _ _); [|discriminate]. cbn [rbind]. intros E. injection E as <-. apply upd_length. Qed.
Lemma re_put_p v id p : inv (fun x => rest x = v) (put_pressure id p).
Proof.
  unfold put_pressure. apply i_set. intros [m [s|]] [m' o'] Hx E; cbn [fst snd] in *; [destruct (s_tstep s =? 0)|].
  1,3: destruct (pyset (b_ip m) id p); [|discriminate]; cbn [rbind] in E; injection E as <- <-; destruct m; exact Hx.
  destruct (set2 (s_p s) (s_tstep s) id p) as [rows|] eqn:E2; [|discriminate]. cbn [rbind] in E. injection E as <- <-. rewrite <- Hx. apply set2_len in E2. destruct s. unfold rest. cbn in *. now rewrite E2.
Qed.
Lemma re_put_r v id p : inv (fun x => rest x = v) (put_rate id p).
Proof.
  unfold put_rate. apply i_set. intros [m [s|]] [m' o'] Hx E; cbn [fst snd] in *; [destruct (s_tstep s =? 0)|].
  1,3: destruct (pyset (b_ir m) id p); [|discriminate]; cbn [rbind] in E; injection E as <- <-; destruct m; exact Hx.
  destruct (set2 (s_r s) (s_tstep s) id p) as [rows|] eqn:E2; [|discriminate]. cbn [rbind] in E. injection E as <- <-. rewrite <- Hx. apply set2_len in E2. destruct s. unfold rest. cbn in *. now rewrite E2.
Qed.
Lemma re_boundary v id c p : inv (fun x => rest x = v) (set_boundary id c p).
Proof. unfold set_boundary. isplit; auto using re_put_p, re_put_r. Qed.
Lemma re_all v c p : inv (fun x => rest x = v) (set_all_boundaries c p).
Proof. unfold set_all_boundaries. isplit. apply re_boundary. Qed.
Lemma re_boundaries bd x : snd (set_boundaries bd x) = Ok tt ->
  rest (fst (set_boundaries bd x)) = rest (set_bup (pressured bd) (set_bdict bd (fst x)), snd x).
Proof.
  destruct (set_boundaries bd x) as [X r] eqn:E. cbn [fst snd]. intros ->. unfold set_boundaries in E.
  apply mbind_ok in E as ([] & y & E1 & E). apply mset_ok in E1. injection E1 as E1. apply mbind_ok in E as (bs & y' & E2 & E). apply mread_ok in E2 as (-> & _).
  apply mbind_ok in E as ([] & z & E3 & E). apply mset_ok in E. injection E as <-.
  match type of E3 with miter ?f bd y = _ => assert (H : inv (fun z => rest z = rest y) (miter f bd)) end.
  { isplit. destruct a as [id [c p]]. isplit. apply re_boundary. }
  specialize (H y eq_refl). rewrite E3 in H. cbn [fst] in H. subst y. clear E3.
  unfold rest in *. destruct z as [[] o], x as [[] o']. cbn in *. injection H as -> -> -> Ho. apply f_equal2; [reflexivity|exact Ho].
Qed.

(** ** Histories *)
Section history.
Context {m0 : bo R} {x y z : nat} {u : bool} {dx dy dz : dinput R} (K : model m0 x y z u dx dy dz).
Notation g := (gr (geom (b_grid m0))).
Notation n := (get_n g true).
Definition good (X : ws R) : Prop :=
  core (fst X) = core m0 /\ wkeys (b_ids m0) X /\ (forall id w, dget id (b_wells (fst X)) = Some w -> fit w) /\
  NoDup (map fst (b_bdict (fst X))) /\ Forall (admissible m0) (b_bdict (fst X)) /\ b_bup (fst X) = pressured (b_bdict (fst X)) /\
  wide n X /\ match snd X with None => True | Some s => shaped s /\ asm (m0 := m0) (b_bdict (fst X)) s end.
Lemma core_cl : (forall v (m : bo R), core m = core m0 -> core (set_ip v m) = core m0) /\ (forall v (m : bo R), core m = core m0 -> core (set_ir v m) = core m0) /\
  (forall v (m : bo R), core m = core m0 -> core (set_wells v m) = core m0) /\ (forall v (m : bo R), core m = core m0 -> core (set_wp v m) = core m0) /\
  (forall v (m : bo R), core m = core m0 -> core (set_bdict v m) = core m0) /\ (forall v (m : bo R), core m = core m0 -> core (set_bup v m) = core m0) /\
  (forall v (m : bo R), core m = core m0 -> core (set_terms v m) = core m0).
Proof. repeat split; intros; rewrite ?core_ip, ?core_ir, ?core_wells, ?core_wp, ?core_bdict, ?core_bup, ?core_terms; auto. Qed.
Lemma good_base c X : good X -> core (fst (fst (exec c X))) = core m0 /\ wkeys (b_ids m0) (fst (exec c X)) /\ wide n (fst (exec c X)).
Proof.
  intros (H1 & H2 & _ & _ & _ & _ & H7 & _). destruct core_cl as (C1 & C2 & C3 & C4 & C5 & C6 & C7). split; [|split].
  - now apply (c_exec (fun m => core m = core m0)).
  - now apply wk_exec.
  - now apply w_exec.
Qed.
Lemma adm_core m e : core m = core m0 -> admissible m e -> admissible m0 e.
Proof.
  intros C (H1 & H2). destruct (core_fields _ _ C) as (Cg & Ci & _ & _ & Cgg & _). split.
  - unfold face_id in *. rewrite <- Cg. exact H1.
  - intros E nb id d En Ii Ed. rewrite <- Cgg. apply (H2 E nb id d); auto; [now rewrite Cg|]. now rewrite (core_dz m m0).
Qed.

(** *** Solve and run *)
Section solver.
Context (slv : solver_kind -> @mat R -> list (fl R) -> res (list (fl R))) (sc : Z -> R) (fuel : nat) (sparse : bool) (Cs : complete slv).
Context (Bd : list (Z * (string * R))) (Bn : NoDup (map fst Bd)) (Ba : Forall (admissible m0) Bd) (ks : list Z) (Hks : forall id, In id ks -> In id (b_ids m0)).
Notation ok1 := (fun X : st R => okm (m0 := m0) Bd ks (fst X) /\ oks (m0 := m0) (snd X) /\ asm (m0 := m0) Bd (snd X)).
Notation gfx := (gfix slv (b_ids m0)).
Lemma gfx_keeps k o X X' r : ok1 X -> ok1 X' -> solve slv sc k sparse o X = (X', r) -> gfx (fst X) -> gfx (fst X').
Proof.
  intros H H' E G. apply (gfix_fix slv (b_ids m0) (fst X)); auto; [destruct H as ((-> & _) & _), H' as ((-> & _) & _); reflexivity|].
  pose proof (fx_solve slv sc (fixm (b_wells (fst X))) k sparse o X eq_refl) as Q. rewrite E in Q. symmetry. exact Q.
Qed.
Lemma askers_ks X : ok1 X -> askers (b_wells (fst X)) <= length ks.
Proof. intros ((_ & <- & _) & _). eapply Nat.le_trans; [apply askers_le|]. unfold dkeys. rewrite map_length. auto. Qed.
Lemma loop_total o : o_vect o = true -> o_print o = false -> o_upd o = true -> known sparse (o_iso o) -> forall k X, ok1 X ->
  exists X' r, run_loop slv sc k fuel sparse o X = (X', r) /\ ok1 X' /\ (r = Ok tt \/ r = Err RecursionError) /\
    (r = Ok tt -> o_mb o = true -> 0 < k \/ s_err (snd X) <> None -> s_err (snd X') <> None) /\ (gfx (fst X) -> length ks < fuel -> r = Ok tt).
Proof.
  intros Ov Op Ou Ki. induction k as [|k IH]; intros X H; cbn [run_loop].
  { exists X, (Ok tt). split; [reflexivity|]. split; auto. split; auto. split; auto. intros _ _ [J|J]; auto. lia. }
  destruct (solve_total K Bd Bn Ba ks Hks slv sc sparse Cs fuel o X H Ov Op Ki) as (X1 & r & E & H1 & Hr & He & _ & Hf). destruct Hr as [-> | ->].
  - rewrite (mbind_run _ _ _ _ _ E). destruct (IH X1 H1) as (X2 & r2 & E2 & H2 & Hr2 & He2 & Hf2). exists X2, r2. split; auto. split; auto. split; auto. split.
    + intros Er Em _. apply He2; auto.
    + intros G L. apply Hf2; auto. exact (gfx_keeps fuel o X X1 _ H H1 E G).
  - exists X1, (Err RecursionError). split; [unfold mbind; now rewrite E|]. split; auto. split; auto. split; [discriminate|]. intros G L. apply Hf; auto. pose proof (askers_ks X H). lia.
Qed.
Lemma run_total k thr mb iso X : known sparse iso -> (mb = true -> 0 < k) -> ok1 X ->
  exists X' r, run slv sc k fuel sparse thr true mb false iso X = (X', r) /\ ok1 X' /\ (r = Ok tt \/ r = Err RecursionError) /\ (gfx (fst X) -> length ks < fuel -> r = Ok tt).
Proof.
  intros Ki Hk H. unfold run. unfold mbind at 1. unfold mset at 1. cbn [fst snd].
  set (X1 := (fst X, set_nsteps (s_nsteps (snd X) + k) (snd X))).
  assert (H1 : ok1 X1). { destruct H as (Q1 & Q2 & Q3). unfold X1. destruct (snd X). exact (conj Q1 (conj Q2 Q3)). }
  destruct (loop_total (mkOpts thr true mb true false iso) eq_refl eq_refl eq_refl Ki k X1 H1) as (X2 & r & E & H2 & Hr & He & Hf). cbn [o_mb] in He.
  destruct Hr as [-> | ->].
  - rewrite (mbind_run _ _ _ _ _ E). exists X2, (Ok tt). split; auto. destruct mb; cbn [mwhen]; [|reflexivity]. unfold mread. specialize (He eq_refl eq_refl (or_introl (Hk eq_refl))).
    destruct (s_err (snd X2)); [reflexivity|congruence].
  - exists X2, (Err RecursionError). split; [unfold mbind; now rewrite E|]. auto.
Qed.
End solver.
Lemma good_ok1 m s : good (m, Some s) -> okm (m0 := m0) (b_bdict m) (dkeys (b_wells m)) m /\ oks (m0 := m0) s /\ asm (m0 := m0) (b_bdict m) s.
Proof.
  intros (H1 & H2 & H3 & H4 & H5 & H6 & (_ & _ & H7) & H8 & H9). cbn [fst snd] in *. split; [|split; [split|]]; auto. split; auto.
Qed.
Lemma ok1_good m s X' : good (m, Some s) -> core (fst X') = core m0 -> wkeys (b_ids m0) (fst X', Some (snd X')) -> wide n (fst X', Some (snd X')) ->
  okm (m0 := m0) (b_bdict m) (dkeys (b_wells m)) (fst X') /\ oks (m0 := m0) (snd X') /\ asm (m0 := m0) (b_bdict m) (snd X') -> good (fst X', Some (snd X')).
Proof.
  intros (_ & _ & _ & H4 & H5 & _) C W Wi ((Q1 & Q2 & Q3 & Q4 & Q5) & (Q6 & Q7) & Q8). cbn [fst snd] in *.
  split; auto. split; auto. split; auto. cbn [fst snd]. rewrite Q4. exact (conj H4 (conj H5 (conj Q5 (conj Wi (conj Q7 Q8))))).
Qed.

Lemma good_step c X : (0 < b_B m0)%R -> (0 < b_mu m0)%R -> good X -> proper X c ->
  good (fst (exec c X)) /\ returns X c /\ (enough X c -> stepping c -> snd (exec c X) = Ok tt).
Proof.
  intros PB Pm H P. destruct (good_base c X H) as (BC & BK & BW). pose proof H as (H1 & H2 & H3 & H4 & H5 & H6 & H7 & H8).
  destruct c as [cell q pwf r s|w cell|idb cond v|bd|cond v| |slv sc fuel sparse o|slv sc k fuel sparse thr vect mb pr iso]; cbn [exec proper] in *.
  - split; [|split; [intros []|intros _ []]]. destruct P as (P1 & P2). pose proof (kp_well (kept X) cell q pwf r s X eq_refl) as Q.
    assert (F : forall id w, dget id (b_wells (fst (fst (set_well cell q pwf r s X)))) = Some w -> fit w).
    { destruct cell as [id|]; [|discriminate]. eapply W_fit; [apply W_well; [intros w E; apply (H3 _ _ E)|exact P1]|exact P2|exact H3]. }
    destruct (set_well cell q pwf r s X) as [[m' o'] r']. destruct X as [m o]. unfold kept in Q. cbn [fst snd] in *. injection Q as E1 E2 ->. unfold good. cbn [fst snd]. rewrite E1, E2. exact (conj BC (conj BK (conj F (conj H4 (conj H5 (conj H6 (conj BW H8))))))).
  - split; [|split; [intros []|intros _ []]]. destruct P as (P1 & P2). pose proof (kp_obj (kept X) w cell X eq_refl) as Q.
    assert (F : forall id w', dget id (b_wells (fst (fst (set_well_obj w cell X)))) = Some w' -> fit w').
    { destruct (match cell with Some i => Some i | None => sc_cell w end) as [id|] eqn:Ei.
      - eapply W_fit; [apply (W_obj X id w cell P1); now rewrite Ei|exact P2|exact H3].
      - exfalso. destruct cell; [discriminate|]. unfold set_well_obj in P1. unfold mbind at 1, mread at 1 in P1. rewrite Ei in P1. discriminate. }
    destruct (set_well_obj w cell X) as [[m' o'] r']. destruct X as [m o]. unfold kept in Q. cbn [fst snd] in *. injection Q as E1 E2 ->. unfold good. cbn [fst snd]. rewrite E1, E2. exact (conj BC (conj BK (conj F (conj H4 (conj H5 (conj H6 (conj BW H8))))))).
  - split; [|split; [intros []|intros _ []]]. pose proof (re_boundary (rest X) idb cond v X eq_refl) as Q.
    destruct (set_boundary idb cond v X) as [[m' o'] r']. destruct X as [m o]. unfold rest in Q. cbn [fst snd] in *. injection Q as E1 E2 E3 E4. unfold good. cbn [fst snd]. rewrite E1, E2, E3.
    do 7 (split; auto). destruct o as [s|], o' as [s'|]; cbn in E4; try discriminate; auto. injection E4 as F1 F2 F3 F4 F5. unfold shaped, asm, hasA, got in *. rewrite F1, F2, F3, F4, F5. exact H8.
  - split; [|split; [intros []|intros _ []]]. destruct P as (P1 & P2 & P3 & P4). pose proof (re_boundaries bd X P1) as Q.
    destruct (set_boundaries bd X) as [[m' o'] r']. destruct X as [m o]. unfold rest in Q. cbn [fst snd] in *.
    assert (Q' : b_wells m' = b_wells m /\ b_bdict m' = bd /\ b_bup m' = pressured bd). { destruct m, m'. cbn in *. injection Q as -> -> -> _. auto. }
    destruct Q' as (E1 & E2 & E3). injection Q as _ _ _ E4. unfold good. cbn [fst snd]. rewrite E1, E2, E3.
    do 4 (split; auto). split; [|split; auto; split; auto].
    + rewrite Forall_forall in *. intros e I. apply (adm_core m); auto.
    + destruct o as [s|], o' as [s'|]; cbn in E4; try discriminate; auto. injection E4 as F1 F2 F3 F4 F5. split; [unfold shaped in *; rewrite F1, F2, F3; apply H8|]. left. rewrite F3. exact P2.
  - split; [|split; [intros []|intros _ []]]. pose proof (re_all (rest X) cond v X eq_refl) as Q.
    destruct (set_all_boundaries cond v X) as [[m' o'] r']. destruct X as [m o]. unfold rest in Q. cbn [fst snd] in *. injection Q as E1 E2 E3 E4. unfold good. cbn [fst snd]. rewrite E1, E2, E3.
    do 7 (split; auto). destruct o as [s|], o' as [s'|]; cbn in E4; try discriminate; auto. injection E4 as F1 F2 F3 F4 F5. unfold shaped, asm, hasA, got in *. rewrite F1, F2, F3, F4, F5. exact H8.
  - split; [|split; [intros []|intros _ []]]. unfold mset in *. cbn [fst snd] in *. do 7 (split; auto). cbn [snd fdm_new]. split; [split; reflexivity|left; reflexivity].
  - destruct P as (P1 & P2 & P3 & P4 & P5). destruct X as [m [s|]]; [|destruct (P1 eq_refl)]. pose proof (good_ok1 m s H) as Ho.
    unfold of_solution in *. cbn [fst snd] in *.
    destruct (solve_total K (b_bdict m) H4 H5 (dkeys (b_wells m)) (proj2 (proj2 H2)) slv sc sparse P2 fuel o (m, s) Ho P4 P5 P3) as (X' & r & E & Q1 & Q2 & _ & _ & Q3).
    unfold returns. cbn [exec]. unfold of_solution. cbn [fst snd]. rewrite E in *. cbn [fst snd] in *. split; [|split; auto].
    + apply (ok1_good m s); auto.
    + intros (L & Nt & Gp) _. apply Q3; [|eapply Nat.le_lt_trans; [apply askers_le|]; auto]. destruct H2 as (J1 & J2 & J3). cbn [fst] in *.
      destruct (core_fields _ _ H1) as (_ & _ & Cm & CB & _). unfold gfix. rewrite Cm, CB. auto 10.
  - destruct P as (P1 & P2 & P3 & -> & -> & P6). destruct X as [m [s|]]; [|destruct (P1 eq_refl)]. pose proof (good_ok1 m s H) as Ho.
    unfold of_solution in *. cbn [fst snd] in *.
    destruct (run_total slv sc fuel sparse P2 (b_bdict m) H4 H5 (dkeys (b_wells m)) (proj2 (proj2 H2)) k thr mb iso (m, s) P3 P6 Ho) as (X' & r & E & Q1 & Q2 & Q3).
    unfold returns. cbn [exec]. unfold of_solution. cbn [fst snd]. rewrite E in *. cbn [fst snd] in *. split; [|split; auto].
    + apply (ok1_good m s); auto.
    + intros (L & Nt & Gp) _. apply Q3; [|unfold dkeys; now rewrite map_length]. destruct H2 as (J1 & J2 & J3). cbn [fst] in *.
      destruct (core_fields _ _ H1) as (_ & _ & Cm & CB & _). unfold gfix. rewrite Cm, CB. auto 10.
Qed.
Lemma good_along l : (0 < b_B m0)%R -> (0 < b_mu m0)%R -> forall X, good X -> along proper X l ->
  along returns X l /\ along (fun X c => enough X c -> stepping c -> snd (exec c X) = Ok tt) X l.
Proof.
  intros PB Pm. induction l as [|c l IH]; intros X H P; cbn [along] in *; [auto|]. destruct P as (P1 & P2). destruct (good_step c X PB Pm H P1) as (Q1 & Q2 & Q3).
  destruct (IH _ Q1 P2). auto.
Qed.
Lemma good_after l : (0 < b_B m0)%R -> (0 < b_mu m0)%R -> forall X, good X -> along proper X l -> good (after X l).
Proof.
  intros PB Pm. induction l as [|c l IH]; intros X H P; cbn [along after fold_left] in *; auto. destruct P as (P1 & P2). apply IH; auto. now apply good_step.
Qed.
Lemma good_new (gg : gobj R) f unit pi dt : bo_new gg f unit pi dt = Ok m0 -> good (m0, None).
Proof.
  intros E. destruct (bo_new_wide _ _ _ _ _ _ E) as (W & Eg & _). destruct (new_empty _ _ _ _ _ _ E) as (E1 & E2 & E3 & _). unfold good. cbn [fst snd]. rewrite E1, E2, E3.
  split; auto. split; [unfold wkeys; cbn [fst]; rewrite E2; repeat split; [constructor|intros ? []]|]. split; [discriminate|]. split; [constructor|]. split; [constructor|]. split; [reflexivity|]. split; auto.
  rewrite Eg. exact W.
Qed.
End history.
