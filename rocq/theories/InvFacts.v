(** Invariants: what every method keeps. *)
From Coq Require Import String ZArith Bool Arith List Lia.
From Verif Require Import Prelude PreludeFacts Num GridModel GeoModel PropModel BlackOilModel FdmModel MonadFacts HistSpec.
Import ListNotations.
Open Scope nat_scope.

(** [P] is kept, whether the method returns or raises. *)
Definition inv {S A} (P : S -> Prop) (c : M S A) : Prop := forall s, P s -> P (fst (c s)).
Section inv.
Context {S : Type} (P : S -> Prop).
Lemma i_bind {A B} (c : M S A) (f : A -> M S B) : inv P c -> (forall a, inv P (f a)) -> inv P (mbind c f).
Proof. intros Hc Hf s Ps. specialize (Hc s Ps). unfold mbind. destruct (c s) as [s' [a|e]]; [apply Hf|]; exact Hc. Qed.
Lemma i_ret {A} (a : A) : inv P (mret a). Proof. now intros s. Qed.
Lemma i_read {A} (f : S -> res A) : inv P (mread f). Proof. now intros s. Qed.
Lemma i_set (f : S -> res S) : (forall s s', P s -> f s = Ok s' -> P s') -> inv P (mset f).
Proof. intros H s Ps. unfold mset. destruct (f s) eqn:E; [eapply H|]; eauto. Qed.
Lemma i_when b (c : M S unit) : inv P c -> inv P (mwhen b c). Proof. destruct b; auto. intros _. apply i_ret. Qed.
Lemma i_opt {A} (v : option A) (f : A -> M S unit) : (forall a, inv P (f a)) -> inv P (mopt v f).
Proof. destruct v; cbn; auto. intros _. apply i_ret. Qed.
Lemma i_iter {A} (f : A -> M S unit) l : (forall a, In a l -> inv P (f a)) -> inv P (miter f l).
Proof.
  induction l as [|a l IH]; intros H; simpl; [apply i_ret|]. apply i_bind; [apply H; now left|]. intros _. apply IH. intros; apply H; now right.
Qed.
Lemma i_if {A} (b : bool) (c d : M S A) : inv P c -> inv P d -> inv P (if b then c else d).
Proof. destruct b; auto. Qed.
Lemma inv_hoare {A} (c : M S A) : inv P c -> hoare P c (fun _ => P) P.
Proof. intros H s Ps. specialize (H s Ps). destruct (c s) as [s' [a|e]]; auto. Qed.
Lemma hoare_inv {A} (c : M S A) : hoare P c (fun _ => P) P -> inv P c.
Proof. intros H s Ps. specialize (H s Ps). destruct (c s) as [s' [a|e]]; auto. Qed.
End inv.
Lemma inv_ext {S A} (P P' : S -> Prop) (c : M S A) : (forall s, P s <-> P' s) -> inv P c -> inv P' c.
Proof. intros E H s Ps. apply E, H, E, Ps. Qed.

Ltac istep := lazymatch goal with
  | |- inv _ (mret _) => apply i_ret
  | |- inv _ (mread _) => apply i_read
  | |- inv _ (mbind _ _) => apply i_bind
  | |- inv _ (mwhen _ _) => apply i_when
  | |- inv _ (mopt _ _) => apply i_opt
  | |- inv _ (miter _ _) => apply i_iter
  | |- inv _ (if _ then _ else _) => apply i_if
  | |- inv _ _ => fail
  | |- forall _, _ => intro
  end.
(** Split a method into its assignments. *)
Ltac isplit := repeat (istep; cbv beta).

(** ** A property of the model kept by all assignments the methods make *)
Section closed.
Context {F : Type} {NF : Num F} {NT : NumT F}.
Variable (P : bo F -> Prop).
Hypothesis (Cip : forall v m, P m -> P (set_ip v m)) (Cir : forall v m, P m -> P (set_ir v m))
  (Cw : forall v m, P m -> P (set_wells v m)) (Cwp : forall v m, P m -> P (set_wp v m))
  (Cbd : forall v m, P m -> P (set_bdict v m)) (Cbu : forall v m, P m -> P (set_bup v m))
  (Ct : forall v m, P m -> P (set_terms v m)).
Notation PW := (fun x : ws F => P (fst x)).
Notation PS := (fun x : st F => P (fst x)).
Ltac fin := repeat match goal with
  | H : Ok _ = Ok _ |- _ => inversion H; clear H; subst
  | H : Err _ = Ok _ |- _ => discriminate
  | H : rbind ?e _ = Ok _ |- _ => destruct e eqn:?; cbn [rbind] in H
  | H : match ?e with _ => _ end = Ok _ |- _ => destruct e eqn:?
  end; cbn [fst snd] in *; auto.
Ltac go := isplit; try (apply i_set; intros [? ?] [? ?] ? ?; cbn [fst snd] in *; fin; fail).

Lemma c_upd_well id f : inv PW (upd_well id f). Proof. unfold upd_well. go. Qed.
Lemma c_log id : inv PW (log_pressure id). Proof. unfold log_pressure. go. Qed.
Lemma c_tail id : inv PW (set_well_tail id).
Proof. unfold set_well_tail. isplit; auto using c_upd_well, c_log. Qed.
Lemma c_set_well cell q pwf r s : inv PW (set_well cell q pwf r s).
Proof.
  unfold set_well. destruct cell as [id|]; [|apply i_read]. unfold assert_inside. isplit; auto using c_upd_well, c_log, c_tail.
  apply i_set. intros [m o] [m' o'] Pm E. cbn [fst] in *. destruct (din id (b_wells m)); inversion E; subst; auto.
Qed.
Lemma c_set_well_obj w cell : inv PW (set_well_obj w cell).
Proof. unfold set_well_obj, assert_inside. isplit; auto using c_tail. go. Qed.
Lemma c_put_p id v : inv PW (put_pressure id v). Proof. unfold put_pressure. go. Qed.
Lemma c_put_q id v : inv PW (put_rate id v). Proof. unfold put_rate. go. Qed.
Lemma c_boundary id c v : inv PW (set_boundary id c v).
Proof. unfold set_boundary. isplit; auto using c_put_p, c_put_q. Qed.
Lemma c_boundaries bd : inv PW (set_boundaries bd).
Proof.
  unfold set_boundaries. isplit; try (go; fail). destruct a1 as [id [c v]]. isplit. apply c_boundary.
Qed.
Lemma c_all c v : inv PW (set_all_boundaries c v).
Proof. unfold set_all_boundaries. isplit. apply c_boundary. Qed.

Lemma c_cell_eq sc id : inv PS (get_cell_eq sc id). Proof. unfold get_cell_eq. go. Qed.
Lemma c_loop sc l : inv PS (cells_eq_loop sc l).
Proof. induction l as [|i l IH]; cbn [cells_eq_loop]; isplit; auto using c_cell_eq. Qed.
Lemma c_symb sc thr : inv PS (get_matrices_symb sc thr).
Proof. unfold get_matrices_symb, get_cells_eq. isplit; auto using c_loop; go. Qed.
Lemma c_addto id v : inv PS (addto_A id v). Proof. unfold addto_A. go. Qed.
Lemma c_init_b id : inv PS (init_b id). Proof. unfold init_b. isplit; auto using c_addto; go. Qed.
Lemma c_init : inv PS init_vect. Proof. unfold init_vect. isplit; auto using c_init_b; go. Qed.
Lemma c_vwell id du : inv PS (vect_well id du). Proof. unfold vect_well. isplit; auto using c_addto; go. Qed.
Lemma c_vwells l : forall du, inv PS (vect_wells l du).
Proof. induction l as [|i l IH]; intros du; cbn [vect_wells]; isplit; auto using c_vwell. Qed.
Lemma c_vect : inv PS get_matrices_vect.
Proof. unfold get_matrices_vect. isplit; auto using c_init, c_vwells. Qed.
Lemma c_put_r id v : inv PS (put_r id v). Proof. unfold put_r. go. Qed.
Lemma c_ub : inv PS update_boundaries.
Proof. unfold update_boundaries, update_boundary. isplit; auto using c_put_r. Qed.
Lemma c_uw id f : inv PS (upd_wells id f). Proof. unfold upd_wells. go. Qed.
Lemma c_update_well id : inv PS (update_well id).
Proof. unfold update_well. isplit; auto using c_uw, c_put_r. Qed.
Lemma c_uloop l : forall acc, inv PS (update_wells_loop l acc).
Proof. induction l as [|i l IH]; intros acc; cbn [update_wells_loop]; isplit; auto using c_update_well. Qed.
Lemma c_update_wells : inv PS update_wells.
Proof. unfold update_wells. isplit; auto using c_uloop. destruct a0; isplit. go. Qed.
Lemma c_MB : inv PS check_MB. Proof. unfold check_MB. go. Qed.
Lemma c_rows A d p : inv PS (new_rows A d p). Proof. unfold new_rows. go. Qed.
Section solver.
Context (slv : solver_kind -> @mat F -> list (fl F) -> res (list (fl F))) (sc : Z -> F).
Lemma c_system o : inv PS (get_system sc o).
Proof. unfold get_system. isplit; auto using c_symb, c_vect. Qed.
Lemma c_solve fuel sparse : forall o, inv PS (solve slv sc fuel sparse o).
Proof.
  induction fuel as [|fuel IH]; intros o; cbn [solve]; isplit; auto using c_system, c_rows, c_ub, c_update_wells, c_MB. go.
Qed.
Lemma c_run n fuel sparse thr vect mb pr iso : inv PS (run slv sc n fuel sparse thr vect mb pr iso).
Proof.
  unfold run. isplit; [go|].
  assert (H : forall k o, inv PS (run_loop slv sc k fuel sparse o)); [|apply H].
  induction k as [|k IH]; intros o; cbn [run_loop]; isplit; auto using c_solve.
Qed.
End solver.
Lemma c_exec c : inv PW (exec c).
Proof.
  destruct c; cbn [exec]; auto using c_set_well, c_set_well_obj, c_boundary, c_boundaries, c_all.
  - go.
  - intros [m o'] Pm. unfold of_solution. destruct o' as [s|]; cbn [fst snd] in *; [|exact Pm].
    pose proof (c_solve slv sc fuel sparse o (m, s) Pm) as H. destruct (solve slv sc fuel sparse o (m, s)) as [y r]. exact H.
  - intros [m o'] Pm. unfold of_solution. destruct o' as [s|]; cbn [fst snd] in *; [|exact Pm].
    pose proof (c_run slv sc n fuel sparse thr vect mb pr iso (m, s) Pm) as H.
    destruct (run slv sc n fuel sparse thr vect mb pr iso (m, s)) as [y r]. exact H.
Qed.
Lemma c_after l : forall x, P (fst x) -> P (fst (after x l)).
Proof. induction l as [|c l IH]; intros x Px; cbn [after fold_left]; auto. apply IH. now apply (c_exec c). Qed.
End closed.

(** The part of the model no method changes. *)
Definition core {F} (m : bo F) : bo F :=
  set_ip [] (set_ir [] (set_wells [] (set_wp [] (set_bdict [] (set_bup [] (set_terms [] m)))))).
Lemma core_ip {F} v (m : bo F) : core (set_ip v m) = core m. Proof. now destruct m. Qed.
Lemma core_ir {F} v (m : bo F) : core (set_ir v m) = core m. Proof. now destruct m. Qed.
Lemma core_wells {F} v (m : bo F) : core (set_wells v m) = core m. Proof. now destruct m. Qed.
Lemma core_wp {F} v (m : bo F) : core (set_wp v m) = core m. Proof. now destruct m. Qed.
Lemma core_bdict {F} v (m : bo F) : core (set_bdict v m) = core m. Proof. now destruct m. Qed.
Lemma core_bup {F} v (m : bo F) : core (set_bup v m) = core m. Proof. now destruct m. Qed.
Lemma core_terms {F} v (m : bo F) : core (set_terms v m) = core m. Proof. now destruct m. Qed.
Lemma core_fields {F} (m m' : bo F) : core m = core m' ->
  b_grid m = b_grid m' /\ b_ids m = b_ids m' /\ b_mu m = b_mu m' /\ b_B m = b_B m' /\ b_g m = b_g m' /\ b_tconv m = b_tconv m' /\
  b_vconv m = b_vconv m' /\ b_dt m = b_dt m' /\ b_comp m = b_comp m' /\ b_cmp m = b_cmp m' /\ b_RHS m = b_RHS m'.
Proof. destruct m, m'; unfold core; cbn. intros E. inversion E. repeat split; assumption. Qed.
