(** Facts behind the order of the calls that set a model up. *)
From Coq Require Import String ZArith Bool Arith List Lia Permutation Reals Lra.
From Verif Require Import Prelude PreludeFacts Num GridModel GridSpec GeoModel PropModel UnitsModel BlackOilModel FdmModel MonadFacts HistSpec FrameFacts AssemblyThm SolveSpec BalanceSpec SetupFacts WellSpec WellThm KeptFacts InvFacts CanonFacts OrderSpec.
Import ListNotations.
Close Scope R_scope.
Open Scope nat_scope.

Section order.
Context (m0 : bo R) (n : nat) (id : Z).
Definition Sx (x : ws R) : Prop := snd x = None /\ core (fst x) = core m0 /\ length (b_ip (fst x)) = n.
Definition Rl (x y : ws R) : Prop := Sx x /\ Sx y /\ dget id (b_wells (fst x)) = dget id (b_wells (fst y)).
(** Two states alike stay alike. *)
Definition rel {A} (c : M (ws R) A) : Prop := forall x y, Rl x y -> snd (c x) = snd (c y) /\ Rl (fst (c x)) (fst (c y)).
Lemma rel_ret {A} (a : A) : rel (mret a).
Proof. intros x y H. split; auto. Qed.
Lemma rel_read {A} (f : ws R -> res A) : (forall x y, Rl x y -> f x = f y) -> rel (mread f).
Proof. intros Hf x y H. split; [now apply Hf|exact H]. Qed.
Lemma rel_bind {A B} (c : M (ws R) A) (k : A -> M (ws R) B) : rel c -> (forall a, rel (k a)) -> rel (mbind c k).
Proof.
  intros Hc Hk x y H. destruct (Hc x y H) as (E & H'). unfold mbind. destruct (c x) as [x' r], (c y) as [y' r']. cbn [fst snd] in *. subst r'. destruct r as [a|e]; [now apply Hk|now split].
Qed.
Lemma rel_opt {A} (v : option A) (f : A -> M (ws R) unit) : (forall a, rel (f a)) -> rel (mopt v f).
Proof. intros H. destruct v; cbn [mopt]; [apply H|apply rel_ret]. Qed.
Lemma rel_when (b : bool) (c : M (ws R) unit) : rel c -> rel (mwhen b c).
Proof. intros H. destruct b; cbn [mwhen]; [apply H|apply rel_ret]. Qed.
Lemma rel_set (f : ws R -> res (ws R)) : (forall x y, Rl x y -> match f x, f y with Ok x', Ok y' => Rl x' y' | Err e, Err e' => e = e' | _, _ => False end) -> rel (mset f).
Proof.
  intros Hf x y H. specialize (Hf x y H). unfold mset. destruct (f x) as [x'|e], (f y) as [y'|e']; try contradiction; [split; [reflexivity|exact Hf]|subst e'; split; [reflexivity|exact H]].
Qed.
Lemma Sx_wells x w : Sx x -> Sx (set_wells w (fst x), snd x).
Proof. destruct x as [[] o]. exact (fun H => H). Qed.
Lemma Rl_wells x y w : Rl x y -> Rl (set_wells (dset id w (b_wells (fst x))) (fst x), snd x) (set_wells (dset id w (b_wells (fst y))) (fst y), snd y).
Proof. intros (H1 & H2 & H3). split; [now apply Sx_wells|]. split; [now apply Sx_wells|]. cbn [fst]. now rewrite !wells_set_wells, !dget_dset_same. Qed.
Lemma rel_upd (f : bo R -> well R -> res (well R)) : (forall x y w, Rl x y -> f (fst x) w = f (fst y) w) -> rel (upd_well id f).
Proof.
  intros Hf. apply rel_set. intros x y H. pose proof (proj2 (proj2 H)) as E. unfold dgetE. rewrite E. destruct (dget id (b_wells (fst y))) as [w|]; cbn [rbind]; [|reflexivity].
  rewrite (Hf x y w H). destruct (f (fst y) w); cbn [rbind]; [|reflexivity]. now apply Rl_wells.
Qed.
Lemma pyget_length {A} (l l' : list A) i : length l = length l' -> match pyget l i, pyget l' i with Ok _, Ok _ => True | Err e, Err e' => e = e' | _, _ => False end.
Proof.
  intros E. unfold pyget. rewrite E. set (j := if (i <? 0)%Z then (i + Z.of_nat (length l'))%Z else i). destruct (0 <=? j)%Z; [|reflexivity].
  destruct (nth_error l (Z.to_nat j)) eqn:E1, (nth_error l' (Z.to_nat j)) eqn:E2; auto.
  - apply nth_error_None in E2. assert (Z.to_nat j < length l) by (apply nth_error_Some; congruence). lia.
  - apply nth_error_None in E1. assert (Z.to_nat j < length l') by (apply nth_error_Some; congruence). lia.
Qed.
Lemma rel_log : rel (log_pressure id).
Proof.
  apply rel_set. intros x y ((A1 & A2 & A3) & (B1 & B2 & B3) & E). unfold get_pressure. rewrite A1, B1.
  pose proof (pyget_length (b_ip (fst x)) (b_ip (fst y)) id ltac:(congruence)) as Q. destruct (pyget (b_ip (fst x)) id), (pyget (b_ip (fst y)) id); try contradiction; cbn [rbind]; [|exact Q].
  destruct x as [[] o], y as [[] o']. cbn [fst snd] in *. subst o o'. exact (conj (conj eq_refl (conj A2 A3)) (conj (conj eq_refl (conj B2 B3)) E)).
Qed.
Lemma r_eq_same x y : Rl x y -> calc_well_r_eq (fst x) id = calc_well_r_eq (fst y) id.
Proof.
  intros ((_ & A & _) & (_ & B & _) & _). assert (C : core (fst x) = core (fst y)) by congruence. destruct (core_fields _ _ C) as (Cg & _). unfold calc_well_r_eq, bgrid, gd, gk, ggrid. now rewrite Cg.
Qed.
Lemma G_same x y : Rl x y -> calc_well_G (fst x) id = calc_well_G (fst y) id.
Proof.
  intros ((_ & A & _) & (_ & B & _) & E). assert (C : core (fst x) = core (fst y)) by congruence. destruct (core_fields _ _ C) as (Cg & _ & _ & _ & _ & Ct & _). unfold calc_well_G, bgrid, gd, gk, ggrid, dgetE. now rewrite Cg, Ct, E.
Qed.
Lemma rel_tail : rel (set_well_tail id).
Proof.
  unfold set_well_tail. apply rel_bind; [apply rel_upd; intros x y w H; now rewrite (r_eq_same x y H)|]. intros _.
  apply rel_bind; [apply rel_upd; intros x y w H; now rewrite (G_same x y H)|]. intros _.
  apply rel_bind; [apply rel_read; intros x y (_ & _ & E); unfold dgetE; now rewrite E|]. intros w. apply rel_when.
  apply rel_bind; [apply rel_upd; auto|intros _; apply rel_log].
Qed.
Lemma rel_set_well q pwf r s : rel (set_well (Some id) q pwf r s).
Proof.
  unfold set_well. apply rel_bind.
  { unfold assert_inside. apply rel_read. intros x y ((_ & A & _) & (_ & B & _) & _). assert (C : core (fst x) = core (fst y)) by congruence. destruct (core_fields _ _ C) as (_ & -> & _). reflexivity. }
  intros _. apply rel_bind.
  { apply rel_set. intros x y H. pose proof (proj2 (proj2 H)) as E. unfold din. rewrite E. destruct (dget id (b_wells (fst y))); [exact H|now apply Rl_wells]. }
  intros _. apply rel_bind; [apply rel_opt; intros; apply rel_upd; auto|].
  intros _. apply rel_bind; [apply rel_opt; intros; apply rel_bind; [apply rel_upd; auto|intros _; apply rel_log]|].
  intros _. apply rel_bind; [apply rel_upd; auto|]. intros _. apply rel_bind; [apply rel_opt; intros; apply rel_upd; auto|]. intros _. apply rel_bind; [apply rel_opt; intros; apply rel_upd; auto|]. intros _. apply rel_tail.
Qed.
(** Wells set elsewhere. *)
Lemma Sx_well cell q pwf r s x : Sx x -> Sx (fst (set_well cell q pwf r s x)).
Proof.
  intros (A & B & C). destruct cell as [i|]; [|exact (conj A (conj B C))]. destruct (same_run i q pwf r s x) as (Q1 & Q2 & _). split; [congruence|]. split.
  - transitivity (core (fst x)); [|exact B]. transitivity (core (set_wells [] (set_wp [] (fst (fst (set_well (Some i) q pwf r s x)))))); [now rewrite core_wells, core_wp|]. now rewrite Q2, core_wells, core_wp.
  - apply (f_equal (@b_ip R)) in Q2. destruct (fst (fst (set_well (Some i) q pwf r s x))), (fst x). cbn in *. congruence.
Qed.
Lemma wells_run l : Forall sets_well l -> forall x y, Rl x y -> Rl (after x l) (after y (filter (on_cell id) l)).
Proof.
  induction 1 as [|c l Hc Hl IH]; intros x y H; [exact H|]. destruct c as [cell q pwf r s| | | | | | |]; try contradiction. cbn [filter on_cell after fold_left exec].
  destruct cell as [i|]; [|exact (IH x y H)]. destruct (Z.eqb_spec i id) as [->|Ni].
  - cbn [after fold_left exec]. apply IH. apply (rel_set_well q pwf r s x y H).
  - apply IH. destruct H as (H1 & H2 & H3). split; [now apply Sx_well|]. split; [exact H2|]. rewrite <- H3. apply (same_run i q pwf r s x). congruence.
Qed.
End order.

(** Boundary conditions leave the wells alone. *)
Definition lone (v : list (Z * well R)) (x : ws R) : Prop := snd x = None /\ b_wells (fst x) = v.
Lemma lone_p v id w : inv (lone v) (put_pressure id w).
Proof. unfold put_pressure. apply i_set. intros [m o] x (H1 & H2) E. cbn [fst snd] in *. subst o. destruct (pyset (b_ip m) id w); cbn [rbind] in E; [|discriminate]. inversion E; subst. destruct m. now split. Qed.
Lemma lone_q v id w : inv (lone v) (put_rate id w).
Proof. unfold put_rate. apply i_set. intros [m o] x (H1 & H2) E. cbn [fst snd] in *. subst o. destruct (pyset (b_ir m) id w); cbn [rbind] in E; [|discriminate]. inversion E; subst. destruct m. now split. Qed.
Lemma lone_boundary v id c w : inv (lone v) (set_boundary id c w).
Proof. unfold set_boundary. isplit; auto using lone_p, lone_q. Qed.
Lemma lone_boundaries v bd : inv (lone v) (set_boundaries bd).
Proof.
  unfold set_boundaries. isplit.
  - apply i_set. intros [[] o] x H E. inversion E; subst. exact H.
  - match goal with a : (Z * (string * R))%type |- _ => destruct a as [id [c w]] end. isplit. apply lone_boundary.
  - apply i_set. intros [[] o] x H E. inversion E; subst. exact H.
Qed.
Lemma Rl_boundaries m0 n id bd x y : wide n x -> Rl m0 n id x y -> Rl m0 n id (fst (set_boundaries bd x)) y.
Proof.
  intros Wd ((A & B & C) & H2 & H3). destruct (lone_boundaries (b_wells (fst x)) bd x (conj A eq_refl)) as (Q1 & Q2).
  split; [|split; [exact H2|now rewrite Q2]]. split; [exact Q1|]. split; [rewrite <- B; exact (core_call (Set_boundaries bd) x)|]. apply (w_exec n (Set_boundaries bd) x Wd).
Qed.
Lemma wide_after n l : forall x : ws R, wide n x -> wide n (after x l).
Proof. induction l as [|c l IH]; intros x H; [exact H|]. cbn [after fold_left]. apply IH. now apply w_exec. Qed.
(** The well of a cell after the setup. *)
Lemma setup_cell m0 n id l1 ob l2 : wide n (m0, None) -> Forall sets_well l1 -> Forall sets_well l2 ->
  dget id (b_wells (fst (after (m0, None) (setup l1 ob l2)))) = dget id (b_wells (fst (after (m0, None) (filter (on_cell id) (l1 ++ l2))))).
Proof.
  intros Wd F1 F2. assert (R0 : Rl m0 n id (m0, None) (m0, None)) by (repeat split; apply Wd).
  pose proof (wells_run m0 n id l1 F1 _ _ R0) as R1. unfold setup. rewrite filter_app, !after_app.
  assert (R2 : Rl m0 n id (after (after (m0, None) l1) match ob with Some bd => [Set_boundaries bd] | None => [] end) (after (m0, None) (filter (on_cell id) l1))).
  { destruct ob as [bd|]; [|exact R1]. cbn [after fold_left exec]. apply Rl_boundaries; auto. now apply wide_after. }
  apply (wells_run m0 n id l2 F2 _ _ R2).
Qed.
Lemma dget_perm {A} (l l' : list (Z * A)) id : NoDup (map fst l) -> Permutation l l' -> dget id l = dget id l'.
Proof.
  intros Nd P. assert (Nd' : NoDup (map fst l')) by (eapply Permutation_NoDup; [apply Permutation_map; exact P|exact Nd]).
  destruct (dget id l) as [v|] eqn:E.
  - apply dget_In in E. symmetry. apply dget_In_nodup; [exact Nd'|]. eapply Permutation_in; eauto.
  - destruct (dget id l') as [v|] eqn:E'; auto. apply dget_In in E'. rewrite (dget_In_nodup _ _ _ Nd (Permutation_in _ (Permutation_sym P) E')) in E. discriminate.
Qed.
