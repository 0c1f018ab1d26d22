(** Every well of a model has a radius after successful calls. *)
From Coq Require Import String ZArith Bool Arith List Lia.
From Verif Require Import Prelude PreludeFacts Num GridModel PropModel BlackOilModel FdmModel MonadFacts HistSpec InvFacts ModelFacts SampleFacts AsmFacts StepFacts WellStepFacts DryFacts.
Import ListNotations.

Section radius.
Context {F : Type} {NF : Num F} {NT : NumT F}.
Definition rad (P : Z -> Prop) (x : ws F) : Prop := forall id w, P id -> dget id (b_wells (fst x)) = Some w -> w_r w <> None.
Definition radall : ws F -> Prop := rad (fun _ => True).
Definition but (id0 : Z) : ws F -> Prop := rad (fun id => id <> id0).
Ltac nowell := apply i_set; intros [[] o] [? ?] Hx E; cbn [fst snd] in *; fin; exact Hx.
Lemma but_set id w (x : ws F) : but id x -> but id (set_wells (dset id w (b_wells (fst x))) (fst x), snd x).
Proof. intros H i v N. cbn [fst]. rewrite wells_set_wells, dget_dset_other by congruence. now apply H. Qed.
Lemma but_upd id f : inv (but id) (upd_well id f).
Proof.
  unfold upd_well. apply i_set. intros x x' Hx E. unfold dgetE in E. destruct (dget id (b_wells (fst x))) as [w|] eqn:Ew; [|discriminate]. cbn [rbind] in E.
  destruct (f (fst x) w); [|discriminate]. cbn [rbind] in E. inversion E; subst. now apply but_set.
Qed.
Lemma rad_log P id : inv (rad P) (log_pressure id).
Proof. unfold log_pressure. nowell. Qed.
Lemma all_but id x : radall x -> but id x.
Proof. intros H i w _. now apply H. Qed.
Lemma all_upd id f : (forall m w w', w_r w <> None -> f m w = Ok w' -> w_r w' <> None) -> inv radall (upd_well id f).
Proof.
  intros Hf. unfold upd_well. apply i_set. intros x x' Hx E. unfold dgetE in E. destruct (dget id (b_wells (fst x))) as [w|] eqn:Ew; [|discriminate]. cbn [rbind] in E.
  destruct (f (fst x) w) as [w'|] eqn:Ef; [|discriminate]. cbn [rbind] in E. inversion E; subst. intros i v _. cbn [fst]. rewrite wells_set_wells. destruct (Z.eq_dec i id) as [->|N].
  - rewrite dget_dset_same. intros Q. inversion Q; subst. eapply Hf; [|exact Ef]. now apply (Hx id w).
  - rewrite dget_dset_other by congruence. now apply Hx.
Qed.
Lemma keep P {A} (c : M (ws F) A) : inv P c -> hoare P c (fun _ => P) (fun _ => True).
Proof. intros H. eapply h_weak; [apply inv_hoare; exact H|auto|auto|auto]. Qed.
Lemma rad_tail id : hoare (but id) (set_well_tail id) (fun _ => radall) (fun _ => True).
Proof.
  unfold set_well_tail. eapply h_bind; [apply keep, but_upd|]. intros u0; cbn beta; clear u0. eapply h_bind with (Q := fun _ => radall).
  - apply h_set; [|auto]. intros x x' Hx E. unfold dgetE in E. destruct (dget id (b_wells (fst x))) as [w|] eqn:Ew; [|discriminate]. cbn [rbind] in E.
    destruct (calc_well_G (fst x) id) as [G|] eqn:EG; [|discriminate]. cbn [rbind] in E. inversion E; subst. intros i v _. cbn [fst]. rewrite wells_set_wells. destruct (Z.eq_dec i id) as [->|N].
    + rewrite dget_dset_same. intros Q. inversion Q; subst. unfold calc_well_G, dgetE in EG. rewrite Ew in EG. repeat match type of EG with rbind ?a _ = _ => let e := fresh "e" in destruct a eqn:e; [cbn [rbind] in EG|discriminate EG] end.
      repeat match goal with H : Ok _ = Ok _ |- _ => inversion H; clear H; subst end. match goal with H : keyE (w_r ?v) = Ok _ |- _ => destruct v; cbn in *; intros Z; rewrite Z in H; discriminate H end.
    + rewrite dget_dset_other by congruence. now apply Hx.
  - intros u0; cbn beta; clear u0. eapply h_bind with (Q := fun _ => radall); [apply keep, i_read|]. intros w. cbn beta. apply h_when; [intros _|auto]. eapply h_bind with (Q := fun _ => radall); [apply keep, all_upd|intros u0; cbn beta; clear u0; apply keep, rad_log].
    intros m [] w' H E. inversion E; subst. exact H.
Qed.
Lemma rad_set_well cell q pwf r s : hoare radall (set_well cell q pwf r s) (fun _ => radall) (fun _ => True).
Proof.
  unfold set_well. destruct cell as [id|]; [|apply keep, i_read]. eapply h_weak with (P := but id) (E := fun _ => True); [|apply all_but|intros a x Hx; exact Hx|auto].
  eapply h_bind; [apply keep, i_read|]. intros u0; cbn beta; clear u0. eapply h_bind with (Q := fun _ => but id).
  { apply keep, i_set. intros x x' Hx E. destruct (din id (b_wells (fst x))); inversion E; subst; auto. now apply but_set. }
  intros u0; cbn beta; clear u0. eapply h_bind with (Q := fun _ => but id); [apply keep; isplit; apply but_upd|]. intros u0; cbn beta; clear u0.
  eapply h_bind with (Q := fun _ => but id); [apply keep; isplit; [apply but_upd|apply rad_log]|]. intros u0; cbn beta; clear u0.
  eapply h_bind with (Q := fun _ => but id); [apply keep; apply but_upd|]. intros u0; cbn beta; clear u0.
  eapply h_bind with (Q := fun _ => but id); [apply keep; isplit; apply but_upd|]. intros u0; cbn beta; clear u0.
  eapply h_bind with (Q := fun _ => but id); [apply keep; isplit; apply but_upd|]. intros u0; cbn beta; clear u0. apply rad_tail.
Qed.
Lemma rad_set_well_obj w cell : hoare radall (set_well_obj w cell) (fun _ => radall) (fun _ => True).
Proof.
  unfold set_well_obj. eapply h_bind with (Q := fun _ => radall); [apply keep, i_read|]. intros id. cbn beta. eapply h_bind with (Q := fun _ => radall); [apply keep, i_read|]. intros u0; cbn beta; clear u0.
  eapply h_bind with (Q := fun _ => but id); [|intros u0; cbn beta; clear u0; apply rad_tail]. apply h_set; [|auto]. intros x x' Hx E. inversion E; subst. apply but_set. now apply all_but.
Qed.
Lemma rad_put_p id w : inv radall (put_pressure id w). Proof. unfold put_pressure. nowell. Qed.
Lemma rad_put_q id w : inv radall (put_rate id w). Proof. unfold put_rate. nowell. Qed.
Lemma rad_boundary id c w : inv radall (set_boundary id c w).
Proof. unfold set_boundary. isplit; auto using rad_put_p, rad_put_q. Qed.
Lemma rad_boundaries bd : inv radall (set_boundaries bd).
Proof. unfold set_boundaries. isplit; try (nowell; fail). destruct a1 as [id [c w]]. isplit. apply rad_boundary. Qed.
Lemma rad_allb c w : inv radall (set_all_boundaries c w).
Proof. unfold set_all_boundaries. isplit. apply rad_boundary. Qed.
Lemma rad_fixed (d d' : list (Z * well F)) : fixm d = fixm d' -> (forall id w, dget id d' = Some w -> w_r w <> None) -> forall id w, dget id d = Some w -> w_r w <> None.
Proof. intros E H id w Ew. destruct (fixm_get _ _ _ _ E Ew) as (w' & Ew' & Q). specialize (H id w' Ew'). unfold fixedw in Q. congruence. Qed.
Lemma rad_exec c : hoare radall (exec c) (fun _ => radall) (fun _ => True).
Proof.
  destruct c; cbn [exec]; auto using rad_set_well, rad_set_well_obj, (keep radall), rad_boundary, rad_boundaries, rad_allb.
  - apply keep, i_set. intros x x' Hx E. inversion E; subst. exact Hx.
  - apply keep. intros [m o'] Hx. unfold of_solution. destruct o' as [s|]; cbn [fst snd] in *; [|exact Hx].
    pose proof (fx_solve slv sc (fixm (b_wells m)) fuel sparse o (m, s) eq_refl) as H. destruct (solve slv sc fuel sparse o (m, s)) as [y r]. cbn [fst snd] in *. intros id w _. cbn [fst]. apply (rad_fixed _ _ H). intros i v. now apply Hx.
  - apply keep. intros [m o'] Hx. unfold of_solution. destruct o' as [s|]; cbn [fst snd] in *; [|exact Hx].
    pose proof (fx_run slv sc n fuel sparse thr vect mb pr iso (fixm (b_wells m)) (m, s) eq_refl) as H. destruct (run slv sc n fuel sparse thr vect mb pr iso (m, s)) as [y r]. cbn [fst snd] in *. intros id w _. cbn [fst]. apply (rad_fixed _ _ H). intros i v. now apply Hx.
Qed.
Lemma rad_after l : forall x, all_ok x l -> radall x -> radall (after x l).
Proof.
  induction l as [|c l IH]; intros x A Hx; [exact Hx|]. cbn [all_ok] in A. destruct A as (A1 & A2). cbn [after fold_left]. apply IH; [exact A2|]. pose proof (rad_exec c x Hx) as H. destruct (exec c x) as [x' [[]|e]]; [exact H|discriminate A1].
Qed.
End radius.
