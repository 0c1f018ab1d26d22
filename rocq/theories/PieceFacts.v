(** The counter nsteps is not read by the steps. *)
From Coq Require Import String ZArith Bool Arith List Lia.
From Verif Require Import Prelude PreludeFacts Num GridModel GeoModel PropModel BlackOilModel FdmModel MonadFacts HistSpec PieceSpec.
Import ListNotations.
Open Scope nat_scope.

Section count.
Context {F : Type} {NF : Num F} {NT : NumT F} (k : nat).
Notation phi := (fun x : st F => (fst x, recount k (snd x))).
Notation PP := (fun _ : st F => True).
Ltac er := apply e_read; intros [? []] _; reflexivity.
Ltac es := apply e_set; intros [? []] _; cbn [fst snd recount s_p s_r s_nsteps s_tstep s_As s_ds s_A s_res s_bv s_sym s_err s_cum];
  repeat match goal with |- context [rbind ?t _] => destruct t; cbn [rbind]; [|reflexivity] end; repeat match goal with |- context [match ?v with Some _ => Ok _ | None => Err _ end] => destruct v; [|reflexivity] end; auto.
Lemma c_cell_eq sc id : eqv PP phi (get_cell_eq sc id).
Proof. unfold get_cell_eq. apply e_bind; [er|]. intros t. apply e_bind; [es|]. intros _. er. Qed.
Lemma c_symb sc thr : eqv PP phi (get_matrices_symb sc thr).
Proof.
  unfold get_matrices_symb, get_cells_eq. apply e_bind.
  { apply e_bind; [er|]. intros ids. induction ids as [|id ids IH]; cbn [cells_eq_loop]; [apply e_ret|].
    apply e_bind; [apply c_cell_eq|]. intros e. apply e_bind; [apply IH|]. intros. apply e_ret. }
  intros eqs. apply e_bind.
  { apply e_set. intros [m []] _. cbn. destruct ((s_tstep =? 0) || negb (has s_sym)); auto. }
  intros _. apply e_bind; [|intros; er]. es.
Qed.
Lemma c_addto id v : eqv PP phi (addto_A id v).
Proof. unfold addto_A. es. Qed.
Lemma c_init_vect : eqv PP phi init_vect.
Proof.
  unfold init_vect. apply e_bind; [es|]. intros _. apply e_bind; [es|]. intros _. apply e_bind; [es|]. intros _. apply e_bind; [er|]. intros ids. apply e_iter. intros idb _.
  unfold init_b. apply e_bind; [er|]. intros T. apply e_bind; [er|]. intros b. apply e_bind; [er|]. intros v. apply e_bind; [es|]. intros _. apply c_addto.
Qed.
Lemma c_vect_well id du : eqv PP phi (vect_well id du).
Proof.
  unfold vect_well. apply e_bind; [er|]. intros w. apply e_bind; [er|]. intros [|]; [er|].
  apply e_bind; [er|]. intros [|]; [|apply e_ret]. apply e_bind; [er|]. intros v. apply e_bind; [er|]. intros d. apply e_bind; [er|]. intros done. apply e_bind; [|intros; apply e_ret].
  apply e_when. intros _. apply e_bind; [apply c_addto|]. intros _. es.
Qed.
Lemma c_vect : eqv PP phi get_matrices_vect.
Proof.
  unfold get_matrices_vect. apply e_bind; [er|]. intros ini. apply e_bind; [apply e_when; intros; apply c_init_vect|]. intros _. apply e_bind; [er|]. intros d. apply e_bind; [er|]. intros wids.
  apply e_bind. { generalize (d, false). induction wids as [|id ids IH]; intros du; cbn [vect_wells]; [apply e_ret|]. apply e_bind; [apply c_vect_well|]. auto. }
  intros du. apply e_bind; [er|]. intros d'. apply e_bind; [er|]. intros d''. apply e_bind; [er|]. intros; apply e_ret.
Qed.
Lemma c_put_r id v : eqv PP phi (put_r id v).
Proof. unfold put_r. es. Qed.
Lemma c_upd_boundaries : eqv PP phi update_boundaries.
Proof.
  unfold update_boundaries. apply e_bind; [er|]. intros ids. apply e_iter. intros idb _. unfold update_boundary. apply e_bind; [er|]. intros T. apply e_bind; [er|].
  intros p. apply e_bind; [er|]. intros; apply c_put_r.
Qed.
Lemma c_upd_wells id f : eqv PP phi (upd_wells id f).
Proof. unfold upd_wells. es. Qed.
Lemma c_update_well id : eqv PP phi (update_well id).
Proof.
  unfold update_well. apply e_bind; [er|]. intros w. apply e_bind; [er|]. intros p. apply e_bind; [er|]. intros est. apply e_bind; [er|]. intros lim. apply e_bind.
  { apply e_if.
    - apply e_bind; [apply c_upd_wells|]. intros; apply e_ret.
    - apply e_bind; [er|]. intros b. apply e_bind; [apply c_upd_wells|]. intros; apply e_ret. }
  intros rb. apply e_bind; [apply c_upd_wells|]. intros _. apply e_bind; [er|]. intros q. apply e_bind; [apply c_put_r|]. intros _. apply e_bind; [apply c_upd_wells|]. intros; apply e_ret.
Qed.
Lemma c_update_wells : eqv PP phi update_wells.
Proof.
  unfold update_wells. apply e_bind; [er|]. intros ids. apply e_bind.
  { generalize (@nil (Z * fl F)). induction ids as [|id ids IH]; intros acc; cbn [update_wells_loop]; [apply e_ret|]. apply e_bind; [apply c_update_well|]. intros rb. apply e_if; [apply e_ret|apply IH]. }
  intros [t|]; [|apply e_ret]. apply e_bind; [|intros; apply e_ret]. apply e_iter. intros id _. es.
Qed.
Lemma c_check_MB : eqv PP phi check_MB.
Proof.
  apply e_set. intros [m [a1 a2 a3 a4 a5 a6 a7 a8 a9 b1 b2 b3]] _. cbn [fst snd recount s_p s_r s_nsteps s_tstep s_As s_ds s_A s_res s_bv s_sym s_err s_cum]. destruct (row_at a2 a4); cbn [rbind]; auto. destruct (b_cmp m); [|auto].
  repeat match goal with |- context [rbind ?t _] => destruct t; cbn [rbind]; [|reflexivity] end. auto.
Qed.
Variables (slv : solver_kind -> @mat F -> list (fl F) -> res (list (fl F))) (sc : Z -> F).
Lemma c_solve fuel sparse : forall o, eqv PP phi (solve slv sc fuel sparse o).
Proof.
  induction fuel as [|fuel IH]; intros o; cbn [solve]; [er|].
  apply e_bind. { unfold get_system. destruct (o_print o); [apply e_bind; [apply c_symb|]; intros; apply e_bind; [apply c_vect|]; intros; apply e_ret|]. apply e_if; [apply c_vect|apply c_symb]. }
  intros Ad. apply e_bind; [er|]. intros p. apply e_if; [|apply e_ret].
  apply e_bind. { unfold new_rows. apply e_bind; [es|]. intros _. apply e_bind; [|intros; es]. es. }
  intros _. apply e_bind; [apply c_upd_boundaries|]. intros _. apply e_bind; [apply c_update_wells|]. intros again. apply e_bind; [|intros; apply e_when; intros; apply c_check_MB]. apply e_when. intros _.
  apply e_bind; [es|]. intros _. apply IH.
Qed.
Lemma c_loop n fuel sparse o : eqv PP phi (run_loop slv sc n fuel sparse o).
Proof. induction n as [|n IH]; cbn [run_loop]; [apply e_ret|]. apply e_bind; [apply c_solve|]. auto. Qed.
End count.

(** ** The setters *)
Section setters.
Context {F : Type} {NF : Num F} {NT : NumT F} (k : nat).
Notation phi := (fun x : ws F => (fst x, option_map (recount k) (snd x))).
Notation PP := (fun _ : ws F => True).
Ltac wr := apply e_read; intros [? [[]|]] _; reflexivity.
Ltac wo := apply e_set; intros [? [[]|]] _; cbn [fst snd option_map];
  repeat match goal with |- context [rbind ?t _] => destruct t; cbn [rbind]; [|reflexivity] end; auto.
Lemma c_upd_well id f : eqv PP phi (upd_well id f).
Proof. unfold upd_well. wo. Qed.
Lemma c_log id : eqv PP phi (log_pressure id).
Proof.
  unfold log_pressure. apply e_set. intros [m o] _. cbn [fst snd]. assert (E : get_pressure (m, option_map (recount k) o) id = get_pressure (m, o) id) by (destruct o as [[]|]; reflexivity).
  rewrite E. destruct (get_pressure (m, o) id); cbn [rbind]; auto.
Qed.
Lemma c_tail id : eqv PP phi (set_well_tail id).
Proof.
  unfold set_well_tail. apply e_bind; [apply c_upd_well|]. intros _. apply e_bind; [apply c_upd_well|]. intros _. apply e_bind; [wr|]. intros w. apply e_when. intros _.
  apply e_bind; [apply c_upd_well|]. intros _. apply c_log.
Qed.
Lemma c_set_well cell q pwf r s : eqv PP phi (set_well cell q pwf r s).
Proof.
  unfold set_well. destruct cell as [id|]; [|wr]. apply e_bind; [unfold assert_inside; wr|]. intros _. apply e_bind.
  { apply e_set. intros [m o] _. cbn [fst snd]. destruct (din id (b_wells m)); auto. }
  intros _. apply e_bind; [apply e_opt; intros; apply c_upd_well|]. intros _. apply e_bind; [apply e_opt; intros; apply e_bind; [apply c_upd_well|intros; apply c_log]|]. intros _.
  apply e_bind; [apply c_upd_well|]. intros _. apply e_bind; [apply e_opt; intros; apply c_upd_well|]. intros _. apply e_bind; [apply e_opt; intros; apply c_upd_well|]. intros _. apply c_tail.
Qed.
Lemma c_set_well_obj w cell : eqv PP phi (set_well_obj w cell).
Proof. unfold set_well_obj. apply e_bind; [wr|]. intros id. apply e_bind; [unfold assert_inside; wr|]. intros _. apply e_bind; [apply e_set; auto|]. intros _. apply c_tail. Qed.
Lemma c_put_pressure id v : eqv PP phi (put_pressure id v).
Proof.
  unfold put_pressure. apply e_set. intros [m [[a1 a2 a3 a4 a5 a6 a7 a8 a9 b1 b2 b3]|]] _; cbn [fst snd option_map recount s_tstep s_p].
  - destruct (a4 =? 0); [destruct (pyset (b_ip m) id v)|destruct (set2 a1 a4 id v)]; cbn [rbind]; auto.
  - destruct (pyset (b_ip m) id v); cbn [rbind]; auto.
Qed.
Lemma c_put_rate id v : eqv PP phi (put_rate id v).
Proof.
  unfold put_rate. apply e_set. intros [m [[a1 a2 a3 a4 a5 a6 a7 a8 a9 b1 b2 b3]|]] _; cbn [fst snd option_map recount s_tstep s_r].
  - destruct (a4 =? 0); [destruct (pyset (b_ir m) id v)|destruct (set2 a2 a4 id v)]; cbn [rbind]; auto.
  - destruct (pyset (b_ir m) id v); cbn [rbind]; auto.
Qed.
Lemma c_set_boundary id c v : eqv PP phi (set_boundary id c v).
Proof.
  unfold set_boundary. apply e_if; [apply c_put_rate|]. apply e_if; [apply c_put_pressure|]. apply e_if; [|wr]. apply e_bind; [wr|]. intros; apply c_put_rate.
Qed.
Lemma c_set_boundaries bd : eqv PP phi (set_boundaries bd).
Proof.
  unfold set_boundaries. apply e_bind; [apply e_set; auto|]. intros _. apply e_bind; [wr|]. intros bs. apply e_bind; [|intros; apply e_set; auto].
  apply e_iter. intros [id [c v]] _. apply e_bind; [wr|]. intros _. apply c_set_boundary.
Qed.
Lemma c_set_all c v : eqv PP phi (set_all_boundaries c v).
Proof. unfold set_all_boundaries. apply e_bind; [wr|]. intros bs. apply e_iter. intros; apply c_set_boundary. Qed.
(** Steps, within the whole state. *)
Lemma c_of (c : M (st F) unit) : eqv (fun _ => True) (fun x => (fst x, recount k (snd x))) c -> eqv PP phi (of_solution c).
Proof.
  intros H [m [s|]] _; unfold of_solution; cbn [fst snd option_map]; [|auto]. destruct (H (m, s) I) as (E & _). cbn [fst snd] in E. rewrite E. destruct (c (m, s)) as [[m' s'] r]. auto.
Qed.
End setters.

(** ** Calls *)
Section calls.
Context {F : Type} {NF : Num F} {NT : NumT F}.
Notation call := (call F).
Lemma same_intro (x : ws F) k : same_but_count x (fst x, option_map (recount k) (snd x)).
Proof. split; auto. cbn [snd]. destruct (snd x); cbn; eauto. Qed.
Lemma same_elim (x y : ws F) : same_but_count x y -> exists k, y = (fst x, option_map (recount k) (snd x)).
Proof.
  destruct x as [m o], y as [m' o']. intros (E & H). cbn [fst snd] in *. subst m'. destruct o as [s|], o' as [s'|]; try contradiction; [destruct H as (k & ->); exists k; reflexivity|exists 0; reflexivity].
Qed.
Lemma same_refl (x : ws F) : same_but_count x x.
Proof. split; auto. destruct (snd x) as [s|]; auto. exists (s_nsteps s). now destruct s. Qed.
Lemma same_trans (x y z : ws F) : same_but_count x y -> same_but_count y z -> same_but_count x z.
Proof.
  intros (E1 & H1) (E2 & H2). split; [congruence|]. destruct (snd x), (snd y), (snd z); try contradiction; auto. destruct H1 as (k & ->), H2 as (k' & ->). exists k'. reflexivity.
Qed.
(** A call that is not a run. *)
Lemma exec_same (c : call) x y : unrolled c = [c] -> same_but_count x y -> same_but_count (fst (exec c x)) (fst (exec c y)) /\ snd (exec c y) = snd (exec c x).
Proof.
  intros Hc S. apply same_elim in S as (k & ->).
  assert (E : c = Compile \/ eqv (fun _ => True) (fun x : ws F => (fst x, option_map (recount k) (snd x))) (exec c)).
  { destruct c as [cell q pwf r s|w cell|idb cond v|bd|cond v| |slv sc fuel sparse o|slv sc n fuel sparse thr vect mb pr iso]; cbn [exec]; auto; right.
    - apply c_set_well. - apply c_set_well_obj. - apply c_set_boundary. - apply c_set_boundaries. - apply c_set_all. - apply c_of, c_solve.
    - cbn [unrolled] in Hc. destruct n as [|[|n]]; cbn in Hc; discriminate. }
  destruct E as [->|E]; [split; auto; cbn; apply same_refl|]. destruct (E x I) as (Q & _). rewrite Q. cbn [fst snd]. split; auto. apply same_intro.
Qed.
Lemma solve_recount slv sc fuel sparse o k m (s : fs F) : solve slv sc fuel sparse o (m, recount k s) =
  ((fst (fst (solve slv sc fuel sparse o (m, s))), recount k (snd (fst (solve slv sc fuel sparse o (m, s))))), snd (solve slv sc fuel sparse o (m, s))).
Proof. exact (proj1 (c_solve k slv sc fuel sparse o (m, s) I)). Qed.
Lemma loop_recount slv sc n fuel sparse o k m (s : fs F) : run_loop slv sc n fuel sparse o (m, recount k s) =
  ((fst (fst (run_loop slv sc n fuel sparse o (m, s))), recount k (snd (fst (run_loop slv sc n fuel sparse o (m, s))))), snd (run_loop slv sc n fuel sparse o (m, s))).
Proof. exact (proj1 (c_loop k slv sc n fuel sparse o (m, s) I)). Qed.
Lemma loop_app slv sc a b fuel sparse o (x : st F) : run_loop slv sc (a + b) fuel sparse o x = mbind (run_loop slv sc a fuel sparse o) (fun _ => run_loop slv sc b fuel sparse o) x.
Proof.
  revert x. induction a as [|a IH]; intros x; cbn [Nat.add run_loop]; [reflexivity|]. unfold mbind in *. destruct (solve slv sc fuel sparse o x) as [y [[]|e]]; auto.
Qed.
(** Calls of solve one by one. *)
Lemma loop_steps slv sc fuel sparse o n : forall m (s : fs F), snd (run_loop slv sc n fuel sparse o (m, s)) = Ok tt <-> all_ok (m, Some s) (repeat (Solve slv sc fuel sparse o) n).
Proof.
  induction n as [|n IH]; intros m s; cbn [run_loop repeat all_ok]; [split; auto|]. unfold mbind. cbn [exec]. unfold of_solution. cbn [fst snd].
  destruct (solve slv sc fuel sparse o (m, s)) as [[m' s'] [[]|e]]; cbn [fst snd].
  - rewrite IH. split; [auto|intros (_ & H); exact H].
  - split; [discriminate|intros (H & _); discriminate].
Qed.
Lemma loop_after slv sc fuel sparse o n : forall m (s : fs F), snd (run_loop slv sc n fuel sparse o (m, s)) = Ok tt ->
  after (m, Some s) (repeat (Solve slv sc fuel sparse o) n) = (fst (fst (run_loop slv sc n fuel sparse o (m, s))), Some (snd (fst (run_loop slv sc n fuel sparse o (m, s))))).
Proof.
  induction n as [|n IH]; intros m s; cbn [run_loop repeat]; [reflexivity|]. unfold mbind. cbn [after fold_left exec]. unfold of_solution. cbn [fst snd].
  destruct (solve slv sc fuel sparse o (m, s)) as [[m' s'] [[]|e]]; cbn [fst snd]; [|discriminate]. intros H. exact (IH m' s' H).
Qed.
(** A step with a material balance check leaves an error. *)
Lemma solve_err0 slv sc fuel sparse o (x y : st F) : o_mb o = true -> o_upd o = true -> solve slv sc fuel sparse o x = (y, Ok tt) -> exists e, s_err (snd y) = Some e.
Proof.
  intros Mb Up. destruct fuel as [|fuel]; cbn [solve]; [discriminate|]. unfold mbind at 1. destruct (get_system sc o x) as [x1 [Ad|]]; [|discriminate]. unfold mbind at 1, mread at 1. 
  match goal with |- context [match ?t with Ok _ => _ | Err _ => _ end] => destruct t as [p|]; [|discriminate] end. rewrite Up, Mb. cbn [mwhen].
  unfold mbind at 1. destruct (new_rows _ _ _ x1) as [x2 [[]|]]; [|discriminate]. unfold mbind at 1. destruct (update_boundaries x2) as [x3 [[]|]]; [|discriminate]. unfold mbind at 1. destruct (update_wells x3) as [x4 [ag|]]; [|discriminate].
  unfold mbind at 1. match goal with |- context [mwhen ag ?c x4] => destruct (mwhen ag c x4) as [[m5 s5] [[]|]]; [|discriminate] end.
  unfold check_MB, mset. destruct (row_at (s_r s5) (s_tstep s5)) as [r|]; cbn [rbind]; [|discriminate]. destruct (b_cmp m5).
  - repeat match goal with |- context [rbind ?t _] => destruct t; cbn [rbind]; [|discriminate] end. intros [= <-]. cbn [fst snd]. destruct s5. eexists; reflexivity.
  - intros [= <-]. cbn [fst snd]. destruct s5. eexists; reflexivity.
Qed.
Lemma solve_err slv sc fuel sparse o (x : st F) : o_mb o = true -> o_upd o = true -> snd (solve slv sc fuel sparse o x) = Ok tt -> exists e, s_err (snd (fst (solve slv sc fuel sparse o x))) = Some e.
Proof. intros Mb Up H. apply (solve_err0 slv sc fuel sparse o x _ Mb Up). rewrite <- H. apply surjective_pairing. Qed.
Lemma loop_err slv sc fuel sparse o n : forall x : st F, o_mb o = true -> o_upd o = true -> snd (run_loop slv sc (S n) fuel sparse o x) = Ok tt -> exists e, s_err (snd (fst (run_loop slv sc (S n) fuel sparse o x))) = Some e.
Proof.
  induction n as [|n IH]; intros x Mb Up H.
  - cbn [run_loop] in *. unfold mbind in *. pose proof (solve_err slv sc fuel sparse o x Mb Up) as Q. destruct (solve slv sc fuel sparse o x) as [y [[]|]]; [|discriminate]. now apply Q.
  - cbn [run_loop] in H |- *. unfold mbind at 1. unfold mbind at 1 in H. destruct (solve slv sc fuel sparse o x) as [y [[]|]]; [|discriminate]. now apply (IH y).
Qed.
Lemma set_recount v (s : fs F) : set_nsteps v s = recount v s.
Proof. now destruct s. Qed.
(** What run computes, in terms of the loop. *)
Lemma run_is slv sc n fuel sparse thr vect mb pr iso m (s : fs F) : let L := run_loop slv sc n fuel sparse (mkOpts thr vect mb true pr iso) (m, s) in
  run slv sc n fuel sparse thr vect mb pr iso (m, s) =
  ((fst (fst L), recount (s_nsteps s + n) (snd (fst L))),
   match snd L with Err e => Err e | Ok _ => if mb then match s_err (snd (fst L)) with Some _ => Ok tt | None => Err AttributeError end else Ok tt end).
Proof.
  intros L. unfold run. unfold mbind at 1. unfold mset at 1. cbn [fst snd]. rewrite set_recount. unfold mbind at 1. rewrite loop_recount. fold L. destruct L as [[m' s'] [[]|e]]; cbn [fst snd]; [|reflexivity].
  destruct mb; cbn [mwhen]; [|reflexivity]. unfold mread. cbn [fst snd]. destruct s'. cbn. destruct s_err; reflexivity.
Qed.
End calls.
