(** The cache of the boundary terms is not seen while the conditions stay. *)
From Coq Require Import String ZArith Bool Arith List Lia.
From Verif Require Import Prelude PreludeFacts Num GridModel GeoModel PropModel BlackOilModel FdmModel MonadFacts HistSpec InvFacts MemoModel MemoSpec.
Import ListNotations.
Open Scope nat_scope.

Section memo.
Context {F : Type} {NF : Num F} {NT : NumT F}.
Hypothesis (Eqb : forall a b : F, neqb a b = true -> a = b).
Variable vt : bool.

(** What the boundary terms depend on. *)
Definition conf (m : bo F) := (b_bdict m, b_bup m, b_g m, b_grid m).
(** The cached terms are those of now. *)
Definition fresh (k : memo F) (m : bo F) : Prop :=
  Forall (fun e => b_term m (fst (fst (fst e))) (snd (fst (fst e))) (snd (fst e)) = Ok (snd e) /\ (vt = true -> In (snd (fst (fst e))) (b_bup m))) (mm_sym k) /\
  Forall (fun e => b_num m (fst (fst (fst (fst e)))) (snd (fst (fst (fst e)))) (Some (snd (fst e))) (snd (fst (fst e))) = Ok (snd e) /\ (vt = true -> In (snd (fst (fst (fst e)))) (b_bup m))) (mm_num k).
Lemma fresh0 m : fresh memo0 m. Proof. split; constructor. Qed.
Lemma fresh_conf k m m' : conf m' = conf m -> fresh k m -> fresh k m'.
Proof.
  unfold conf, fresh, b_term, b_num, dz, gz. intros E. injection E as E1 E2 E3 E4. rewrite E1, E2, E3, E4. auto.
Qed.

Definition bup_of (g : list (Z * (string * F)) * list Z * F * gobj F) : list Z := snd (fst (fst g)).
(** The method with the cache does what the method without does, given what the
    boundary terms depend on. *)
Section given.
Variable g : list (Z * (string * F)) * list Z * F * gobj F.
Definition tr {A} (c' : M (mst F) A) (c : M (st F) A) : Prop := forall x k, conf (fst x) = g -> fresh k (fst x) ->
  exists k', c' (x, k) = ((fst (c x), k'), snd (c x)) /\ fresh k' (fst (fst (c x))) /\ conf (fst (fst (c x))) = g.
Definition kept {A} (c : M (st F) A) : Prop := inv (fun x => conf (fst x) = g) c.
Lemma t_plain {A} (c : M (st F) A) : kept c -> tr (uncached c) c.
Proof.
  intros H x k Hg G. exists k. unfold uncached. cbn [fst snd]. specialize (H x Hg). destruct (c x) as [y r]. cbn [fst snd] in *. split; [reflexivity|]. split; [|exact H]. apply fresh_conf with (fst x); congruence.
Qed.
Lemma t_bind {A B} (c' : M (mst F) A) c (f' : A -> M (mst F) B) f : tr c' c -> (forall a, tr (f' a) (f a)) -> tr (mbind c' f') (mbind c f).
Proof.
  intros Hc Hf x k Hg G. destruct (Hc x k Hg G) as (k1 & E & G1 & C1). unfold mbind. rewrite E. destruct (c x) as [y [a|e]]; cbn [fst snd] in *; [|exists k1; auto]. now apply Hf.
Qed.
Lemma t_ret {A} (a : A) : tr (mret a) (mret a). Proof. intros x k Hg G. exists k. auto. Qed.
Lemma t_when b c' c : tr c' c -> tr (mwhen b c') (mwhen b c). Proof. destruct b; cbn; auto. intros _. apply t_ret. Qed.
Lemma t_iter {A} (f' : A -> M (mst F) unit) f l : (forall a, In a l -> tr (f' a) (f a)) -> tr (miter f' l) (miter f l).
Proof. induction l as [|a l IH]; cbn [miter]; intros H; [apply t_ret|]. apply t_bind; [apply H; now left|]. intros _. apply IH. intros; apply H; now right. Qed.
Lemma t_ext {A} (c' : M (mst F) A) c d : (forall x, c x = d x) -> tr c' c -> tr c' d.
Proof. intros E H x k Hg G. rewrite <- E. auto. Qed.
Lemma t_read {A} (f : st F -> res A) : tr (uncached (mread f)) (mread f). Proof. apply t_plain, i_read. Qed.
(** A read of the boundaries to update. *)
Lemma t_bup {B} (h' : list Z -> M (mst F) B) h : tr (h' (bup_of g)) (h (bup_of g)) ->
  tr (mbind (uncached (mread (fun x : st F => Ok (b_bup (fst x))))) h') (mbind (mread (fun x : st F => Ok (b_bup (fst x)))) h).
Proof.
  intros H x k Hg G. unfold mbind, uncached, mread. cbn [fst snd]. replace (b_bup (fst x)) with (bup_of g) by now rewrite <- Hg. now apply H.
Qed.

(** ** The two terms *)
Lemma find_hit {A} (f : A -> bool) l a (P : A -> Prop) : find f l = Some a -> Forall P l -> f a = true /\ P a.
Proof. intros E H. apply find_some in E as (I & E). split; auto. eapply Forall_forall in H; eauto. Qed.
Lemma key_eq id idb T (k : Z * Z * F) : key id idb T k = true -> k = (id, idb, T).
Proof. destruct k as [[a b] c]. unfold key. cbn. intros H. apply andb_true_iff in H as (H & H3). apply andb_true_iff in H as (H1 & H2). apply Z.eqb_eq in H1, H2. apply Eqb in H3. congruence. Qed.
Lemma t_term id idb T : (vt = true -> In idb (bup_of g)) -> tr (b_term_m id idb T) (mread (fun x : st F => b_term (fst x) id idb T)).
Proof.
  intros Hv x k Hg (G1 & G2). unfold mread. cbn [fst snd]. replace (bup_of g) with (b_bup (fst x)) in Hv by now rewrite <- Hg. unfold b_term_m, find_sym. cbn [fst snd]. destruct (find _ (mm_sym k)) as [e|] eqn:E; cbn [option_map].
  - destruct (find_hit _ _ _ _ E G1) as (Hk & Ht & _). apply key_eq in Hk. destruct e as [[[a b] c] v]. cbn [fst snd] in *. injection Hk as -> -> ->. exists k. rewrite Ht. split; [reflexivity|]. split; [now split|exact Hg].
  - destruct (b_term (fst x) id idb T) as [v|er] eqn:Eb; [|exists k; split; [reflexivity|]; split; [now split|exact Hg]]. eexists. split; [reflexivity|]. split; [|exact Hg]. split; cbn [mm_sym mm_num]; auto.
Qed.
Lemma t_num id idb p T : (vt = true -> In idb (bup_of g)) -> tr (b_num_m id idb p T) (mread (fun x : st F => b_num (fst x) id idb p T)).
Proof.
  intros Hv x k Hg (G1 & G2). unfold mread. cbn [fst snd]. replace (bup_of g) with (b_bup (fst x)) in Hv by now rewrite <- Hg. unfold b_num_m, find_num. cbn [fst snd]. destruct p as [p|]; [|exists k; split; [reflexivity|]; split; [now split|exact Hg]]. destruct (find _ (mm_num k)) as [e|] eqn:E; cbn [option_map].
  - destruct (find_hit _ _ _ _ E G2) as (Hk & Ht & _). apply andb_true_iff in Hk as (Hk & Hp). apply key_eq in Hk. apply Eqb in Hp. destruct e as [[[[a b] c] q] v]. cbn [fst snd] in *. injection Hk as -> -> ->. subst q. exists k. rewrite Ht. split; [reflexivity|]. split; [now split|exact Hg].
  - destruct (b_num (fst x) id idb (Some p) T) as [v|er] eqn:Eb; [|exists k; split; [reflexivity|]; split; [now split|exact Hg]]. eexists. split; [reflexivity|]. split; [|exact Hg]. split; cbn [mm_sym mm_num]; auto.
Qed.

(** ** Methods that keep what the terms depend on *)
Ltac fin := repeat match goal with
  | H : Ok _ = Ok _ |- _ => inversion H; clear H; subst
  | H : Err _ = Ok _ |- _ => discriminate
  | H : rbind ?e _ = Ok _ |- _ => destruct e eqn:?; cbn [rbind] in H
  | H : match ?e with _ => _ end = Ok _ |- _ => destruct e eqn:?
  end; cbn [fst snd] in *; auto.
Ltac go := isplit; try (apply i_set; intros [[] ?] [? ?] ? ?; cbn [fst snd] in *; fin; fail).
Lemma k_addto id v : kept (addto_A id v). Proof. unfold kept, addto_A. go. Qed.
Lemma k_vwell id du : kept (vect_well id du). Proof. unfold kept, vect_well. isplit; try apply k_addto; go. Qed.
Lemma k_vwells l : forall du, kept (vect_wells l du).
Proof. unfold kept in *. induction l as [|i l IH]; intros du; cbn [vect_wells]; isplit; [apply k_vwell|apply IH]. Qed.
Lemma k_put_r id v : kept (put_r id v). Proof. unfold kept, put_r. go. Qed.
Lemma k_uw id f : kept (upd_wells id f). Proof. unfold kept, upd_wells. go. Qed.
Lemma k_update_well id : kept (update_well id).
Proof. unfold kept, update_well. isplit; try apply k_uw; apply k_put_r. Qed.
Lemma k_uloop l : forall acc, kept (update_wells_loop l acc).
Proof. unfold kept in *. induction l as [|i l IH]; intros acc; cbn [update_wells_loop]; isplit; [apply k_update_well|apply IH]. Qed.
Lemma k_update_wells : kept update_wells.
Proof. unfold kept, update_wells. isplit; [apply k_uloop|]. destruct a0; isplit. go. Qed.
Lemma k_MB : kept check_MB. Proof. unfold kept, check_MB. apply i_set. intros [m s] [? ?] H E. cbn [fst snd] in *. destruct (b_cmp m); fin. Qed.
Lemma k_rows A d p : kept (new_rows A d p). Proof. unfold kept, new_rows. go. Qed.

(** ** The vectorised assembly *)
Lemma t_init_b idb : (vt = true -> In idb (bup_of g)) -> tr (init_b_m idb) (init_b idb).
Proof.
  intros Hv. unfold init_b_m, init_b. apply t_bind; [apply t_read|]. intros T. apply t_bind; [now apply t_term|]. intros b. apply t_plain. unfold kept. isplit; [|apply k_addto]. go.
Qed.
Lemma t_init : tr init_vect_m init_vect.
Proof.
  unfold init_vect_m, init_vect. apply t_bind; [apply t_plain; unfold kept; go|intros _]. apply t_bind; [apply t_plain; unfold kept; go|intros _]. apply t_bind; [apply t_plain; unfold kept; go|intros _].
  apply t_bup. apply t_iter. intros idb I. now apply t_init_b.
Qed.
Lemma t_vect : tr get_matrices_vect_m get_matrices_vect.
Proof.
  unfold get_matrices_vect_m, get_matrices_vect. apply t_bind; [apply t_read|]. intros ini. apply t_bind; [apply t_when, t_init|]. intros _. apply t_plain. unfold kept. isplit. apply k_vwells.
Qed.
Lemma t_ub : tr update_boundaries_m update_boundaries.
Proof.
  unfold update_boundaries_m, update_boundaries. apply t_bup. apply t_iter. intros idb I. unfold update_boundary_m, update_boundary. apply t_bind; [apply t_read|]. intros T. apply t_bind; [apply t_read|]. intros p.
  apply t_bind; [now apply t_num|]. intros b. apply t_plain, k_put_r.
Qed.

(** ** The symbolic assembly *)
Lemma t_mapM id (T : list (Z * F)) l : vt = false ->
  tr (mmapM (fun idb => do t <- uncached (mread (fun _ : st F => dgetE idb T)) ;; b_term_m id idb t) l)
     (mread (fun x : st F => rmapM (fun idb => let* t := dgetE idb T in b_term (fst x) id idb t) l)).
Proof.
  intros V. induction l as [|idb l IH]; cbn [mmapM rmapM]; [apply t_ret|].
  apply t_ext with (c := mbind (mbind (mread (fun _ : st F => dgetE idb T)) (fun t => mread (fun x : st F => b_term (fst x) id idb t))) (fun b => mbind (mread (fun x : st F => rmapM (fun idb => let* t := dgetE idb T in b_term (fst x) id idb t) l)) (fun bs => mret (b :: bs)))).
  - intros x. unfold mbind, mread, mret. destruct (dgetE idb T) as [t|]; cbn [rbind]; [|reflexivity]. destruct (b_term (fst x) id idb t) as [b|]; cbn [rbind]; [|reflexivity]. destruct (rmapM _ l); reflexivity.
  - apply t_bind; [apply t_bind; [apply t_read|]; intros t; apply t_term; congruence|]. intros b. apply t_bind; [exact IH|]. intros bs. apply t_ret.
Qed.
Lemma t_new id : vt = false -> tr (new_terms_m id) (mread (fun x : st F => new_terms x id)).
Proof.
  intros V. unfold new_terms_m. match goal with |- tr (mbind (uncached ?a) (fun h => mbind (mmapM (@?b h) (snd h)) (fun bs => uncached (@?cc h bs)))) _ =>
    apply t_ext with (c := mbind a (fun h => mbind (mread (fun x : st F => rmapM (fun idb => let* t := dgetE idb (fst (fst h)) in b_term (fst x) id idb t) (snd h))) (fun bs => cc h bs))) end.
  - intros [m s]. unfold mbind, mread, new_terms. cbn [fst snd]. destruct (passert _); cbn [rbind]; [|reflexivity]. destruct (get_cell_neighbors _ _ _) as [nb|]; cbn [rbind]; [|reflexivity]. destruct (get_cell_boundaries _ _) as [bn|]; cbn [rbind]; [|reflexivity].
    destruct (get_cell_trans _ _ _) as [T|]; cbn [rbind]; [|reflexivity]. destruct (rmapM _ (dirs_list nb)) as [ns|]; cbn [rbind fst snd]; [|reflexivity]. destruct (rmapM _ (dirs_list bn)); reflexivity.
  - apply t_bind; [apply t_read|]. intros h. apply t_bind; [now apply t_mapM|]. intros bs. apply t_read.
Qed.
Lemma t_cell_eq sc id : vt = false -> tr (get_cell_eq_m sc id) (get_cell_eq sc id).
Proof.
  intros V. unfold get_cell_eq_m, get_cell_eq.
  match goal with |- tr (mbind (uncached ?a) (fun o => mbind (@?b o) (fun t => mbind (uncached (@?cc t)) (fun _ => uncached (@?d t))))) _ =>
    apply t_ext with (c := mbind a (fun o => mbind (mread (fun x : st F => match o with Some t => old_terms x id t | None => new_terms x id end)) (fun t => mbind (cc t) (fun _ => d t)))) end.
  - intros x. unfold mbind, mread. cbn [fst snd]. destruct (dget id (b_terms (fst x))); reflexivity.
  - apply t_bind; [apply t_read|]. intros o. apply t_bind; [destruct o; [apply t_read|now apply t_new]|]. intros t. apply t_bind; [apply t_plain; unfold kept; go|]. intros _. apply t_read.
Qed.
Lemma t_loop sc l : vt = false -> tr (cells_eq_loop_m sc l) (cells_eq_loop sc l).
Proof. intros V. induction l as [|i l IH]; cbn [cells_eq_loop_m cells_eq_loop]; [apply t_ret|]. apply t_bind; [now apply t_cell_eq|]. intros e. apply t_bind; [exact IH|]. intros es. apply t_ret. Qed.
Lemma t_symb sc thr : vt = false -> tr (get_matrices_symb_m sc thr) (get_matrices_symb sc thr).
Proof.
  intros V. unfold get_matrices_symb_m, get_matrices_symb, get_cells_eq_m, get_cells_eq. apply t_bind; [apply t_bind; [apply t_read|]; intros ids; now apply t_loop|]. intros eqs. apply t_plain. unfold kept. go.
Qed.

(** ** Steps *)
Section solver.
Context (slv : solver_kind -> @mat F -> list (fl F) -> res (list (fl F))) (sc : Z -> F).
Lemma t_system o : (vt = true -> o_vect o = true /\ o_print o = false) -> tr (get_system_m sc o) (get_system sc o).
Proof.
  intros Hv. unfold get_system_m, get_system. destruct vt eqn:V.
  - destruct (Hv eq_refl) as (-> & ->). apply t_vect.
  - destruct (o_print o); [apply t_bind; [now apply t_symb|]; intros Ad; apply t_bind; [apply t_vect|]; intros _; apply t_ret|]. destruct (o_vect o); [apply t_vect|now apply t_symb].
Qed.
Lemma t_solve fuel sparse : forall o, (vt = true -> o_vect o = true /\ o_print o = false) -> tr (solve_m slv sc fuel sparse o) (solve slv sc fuel sparse o).
Proof.
  induction fuel as [|fuel IH]; intros o Hv; cbn [solve_m solve]; [apply t_read|]. apply t_bind; [now apply t_system|]. intros Ad. apply t_bind; [apply t_read|]. intros p. destruct (o_upd o); [|apply t_ret].
  apply t_bind; [apply t_plain, k_rows|]. intros _. apply t_bind; [apply t_ub|]. intros _. apply t_bind; [apply t_plain, k_update_wells|]. intros again. apply t_bind; [|intros _; apply t_plain; unfold kept; isplit; apply k_MB].
  apply t_when. apply t_bind; [apply t_plain; unfold kept; go|]. intros _. apply IH. cbn. intros V. split; auto. now apply Hv.
Qed.
Lemma t_run_loop fuel sparse o n : (vt = true -> o_vect o = true /\ o_print o = false) -> tr (run_loop_m slv sc n fuel sparse o) (run_loop slv sc n fuel sparse o).
Proof. intros Hv. induction n as [|n IH]; cbn [run_loop_m run_loop]; [apply t_ret|]. apply t_bind; [now apply t_solve|]. intros _. exact IH. Qed.
Lemma t_run n fuel sparse thr vect mb pr iso : (vt = true -> vect = true /\ pr = false) -> tr (run_m slv sc n fuel sparse thr vect mb pr iso) (run slv sc n fuel sparse thr vect mb pr iso).
Proof.
  intros Hv. unfold run_m, run. apply t_bind; [apply t_plain; unfold kept; go|]. intros _. apply t_bind; [now apply t_run_loop|]. intros _. apply t_plain. unfold kept. isplit.
Qed.
End solver.
End given.

(** ** Calls *)
Definition freshW (k : memo F) (x : ws F) : Prop := fresh k (fst x).
Lemma t_of (c' : M (mst F) unit) c : (forall g, tr g c' c) -> forall x k, fresh k (fst x) ->
  exists k', of_solution_m c' (x, k) = ((fst (of_solution c x), k'), snd (of_solution c x)) /\ fresh k' (fst (fst (of_solution c x))).
Proof.
  intros H [m [s|]] k G; unfold of_solution_m, of_solution; cbn [fst snd] in *; [|exists k; auto]. destruct (H _ (m, s) k eq_refl G) as (k' & E & G' & _). rewrite E. destruct (c (m, s)) as [[m' s'] r]. cbn [fst snd] in *. exists k'. auto.
Qed.
(** Calls that change neither the grid nor the fluid. *)
Lemma exec_conf c x : b_g (fst (fst (exec c x))) = b_g (fst x) /\ b_grid (fst (fst (exec c x))) = b_grid (fst x).
Proof.
  pose proof (c_exec (fun m => b_g m = b_g (fst x) /\ b_grid m = b_grid (fst x))) as H. apply (H ltac:(now intros v []) ltac:(now intros v []) ltac:(now intros v []) ltac:(now intros v []) ltac:(now intros v []) ltac:(now intros v []) ltac:(now intros v []) c x). auto.
Qed.
Lemma fresh_stays k x y : b_g (fst y) = b_g (fst x) -> b_grid (fst y) = b_grid (fst x) -> conditions_stay vt x y -> fresh k (fst x) -> fresh k (fst y).
Proof.
  intros E1 E2 S (G1 & G2). split.
  - eapply Forall_impl; [|exact G1]. intros [[[id idb] T] v] (B & W). cbn [fst snd] in *. destruct (S idb W) as (D & W'). split; auto. unfold b_term, dz, gz in *. rewrite E1, E2, D. exact B.
  - eapply Forall_impl; [|exact G2]. intros [[[[id idb] T] p] v] (B & W). cbn [fst snd] in *. destruct (S idb W) as (D & W'). split; auto. unfold b_num, dz, gz in *. rewrite E1, E2, D. exact B.
Qed.
Lemma memo_history (l : list (call F)) : forall stepped x k, (stepped = true -> fresh k (fst x)) -> (stepped = false -> k = memo0) -> undisturbed vt stepped x l ->
  fst (after_m (x, k) l) = after x l /\ outcomes_m (x, k) l = outcomes x l.
Proof.
  induction l as [|c l IH]; intros stepped x k G1 G2 U; [auto|]. destruct U as (S & V & U). cbn [after after_m fold_left outcomes outcomes_m].
  assert (G : fresh k (fst x)). { destruct stepped; auto. rewrite G2 by auto. apply fresh0. }
  set (stepped' := match c with Compile => false | Solve _ _ _ _ _ | Run _ _ _ _ _ _ _ _ _ _ => true | _ => stepped end) in U.
  assert (E : exists k', exec_m c (x, k) = ((fst (exec c x), k'), snd (exec c x)) /\ (stepped' = true -> fresh k' (fst (fst (exec c x)))) /\ (stepped' = false -> k' = memo0)).
  { pose proof (exec_conf c x) as (C1 & C2).
    destruct c as [cell q pwf r s|w cell|idb cond v|bd|cond v| |slv sc fuel sparse o|slv sc n fuel sparse thr vect mb pr iso];
    try (exists k; split; [cbn [exec_m]; unfold uncached; cbn [fst snd]; match goal with |- context [exec ?c x] => destruct (exec c x) as [y r0] end; reflexivity|]; split; [|exact G2]; intros St; apply (fresh_stays k x); auto; fail).
    - exists memo0. split; [reflexivity|]. split; [discriminate|reflexivity].
    - destruct (t_of (solve_m slv sc fuel sparse o) (solve slv sc fuel sparse o)) with (x := x) (k := k) as (k' & E & G'); auto; [intros g; apply t_solve; exact V|]. exists k'. split; [exact E|]. split; [auto|discriminate].
    - destruct (t_of (run_m slv sc n fuel sparse thr vect mb pr iso) (run slv sc n fuel sparse thr vect mb pr iso)) with (x := x) (k := k) as (k' & E & G'); auto; [intros g; apply t_run; exact V|]. exists k'. split; [exact E|]. split; [auto|discriminate]. }
  destruct E as (k' & E & G1' & G2'). rewrite E. cbn [fst snd]. destruct (IH stepped' (fst (exec c x)) k' G1' G2' U) as (Q1 & Q2). split; [exact Q1|]. f_equal; exact Q2.
Qed.
End memo.
