(** Models without an initial pressure: NaN is kept. *)
From Coq Require Import String ZArith Bool Arith List Lia Reals Lra.
From Verif Require Import Prelude PreludeFacts Num GridModel GridSpec GridProofs GridThm GeoModel GeoSpec PropModel PropSpec PropProofs
  UnitsModel BlackOilModel FdmModel MonadFacts HistSpec InvFacts ModelSpec ModelFacts WellStepFacts BalanceSpec CanonFacts NbrFacts TotalSpec TotalSet LimitSpec.
Import ListNotations.
Close Scope R_scope.
Open Scope nat_scope.

Lemma nan_upd (d : list (fl R)) i v : all_nan d -> v = None -> all_nan (upd d i v).
Proof.
  intros H -> w. revert i. induction d as [|a d IH]; intros i I; [destruct i; exact (H w I)|].
  destruct i; cbn [upd] in I; destruct I as [<-|I].
  - reflexivity.
  - apply H. now right.
  - apply H. now left.
  - apply (IH (fun w J => H w (or_intror J)) i I).
Qed.
Lemma nan_nth (d : list (fl R)) i : all_nan d -> nth i d None = None.
Proof. intros H. destruct (nth_in_or_default i d None) as [J|J]; auto. Qed.
Lemma nan_sub (m : bo R) d id v d' : all_nan d -> sub_d m d id v = Ok d' -> all_nan d'.
Proof.
  intros H E. unfold sub_d in E. destruct (cell_i m id) as [i|]; cbn [rbind] in E; [|discriminate]. injection E as <-.
  apply nan_upd; auto. rewrite (nan_nth d i H). reflexivity.
Qed.
Lemma nan_map2l {A} (f : A -> fl R -> fl R) (l : list A) (p : list (fl R)) : (forall a, f a None = None) -> all_nan p -> all_nan (map2 f l p).
Proof.
  intros Hf. revert p. induction l as [|a l IH]; intros [|b p] H v I; cbn in I; try contradiction. destruct I as [<-|I].
  - rewrite (H b (or_introl eq_refl)). apply Hf.
  - apply (IH p); auto. intros w J. apply H. now right.
Qed.
Lemma nan_map2r {A} (f : fl R -> A -> fl R) (l : list A) : forall (p : list (fl R)), (forall a, f None a = None) -> all_nan p -> all_nan (map2 f p l).
Proof.
  induction l as [|a l IH]; intros [|b p] Hf H v I; cbn in I; try contradiction. destruct I as [<-|I].
  - rewrite (H b (or_introl eq_refl)). apply Hf.
  - apply (IH p); auto. intros w J. apply H. now right.
Qed.

Section nan.
Context {m0 : bo R} {x y z : nat} {u : bool} {dx dy dz : dinput R} (K : model m0 x y z u dx dy dz) (Cm : b_cmp m0 = true).
Notation g := (gr (geom (b_grid m0))).
Notation ids := (b_ids m0).
(** NaN for all cells *)
Definition nanrow (row : list (fl R)) : Prop := forall id v, In id ids -> pyget row id = Ok v -> v = None.
Lemma nanrow_nil : nanrow [].
Proof. intros id v _ E. unfold pyget in E. cbn in E. destruct (0 <=? _)%Z; [destruct (Z.to_nat _)|]; discriminate. Qed.
Lemma nanrow_last rows : Forall nanrow rows -> nanrow (last rows []).
Proof.
  intros H. destruct rows as [|r l]; [exact nanrow_nil|]. rewrite Forall_forall in H. apply H. rewrite (app_removelast_last [] (l := r :: l)) at 2; [|discriminate]. apply in_or_app. right. now left.
Qed.
Lemma ids_pos id : In id ids -> (0 <= id)%Z.
Proof. intros I. destruct (ids_facts K) as (_ & H & _). specialize (H id I). lia. Qed.
Lemma nanrow_value row id : nanrow row -> In id ids -> value row id = None.
Proof.
  intros H I. pose proof (ids_pos id I) as P. unfold value. destruct (nth_error row (Z.to_nat id)) as [v|] eqn:E.
  - rewrite (nth_error_nth _ _ _ E). apply (H id v I). unfold pyget. rewrite (proj2 (Z.ltb_ge id 0)) by lia. rewrite (proj2 (Z.leb_le 0 id)) by lia. now rewrite E.
  - apply nth_overflow. now apply nth_error_None.
Qed.
Lemma nan_pyset row i row' : nanrow row -> pyset row i None = Ok row' -> nanrow row'.
Proof.
  intros H E id v I G. unfold pyset in E. set (i' := if (i <? 0)%Z then (i + Z.of_nat (length row))%Z else i) in E.
  destruct ((0 <=? i') && (i' <? Z.of_nat (length row)))%Z eqn:B; [|discriminate]. injection E as <-.
  apply andb_prop in B as (B1 & B2). apply Z.leb_le in B1. apply Z.ltb_lt in B2. pose proof (ids_pos id I) as P.
  destruct (Z.eq_dec id i') as [->|N].
  - assert (Q : pyget (upd row (Z.to_nat i') None) i' = Ok None); [|congruence].
    apply (pyget_pyset_same row); [lia|]. unfold pyset. rewrite (proj2 (Z.ltb_ge i' 0)) by lia. rewrite (proj2 (Z.leb_le 0 i')), (proj2 (Z.ltb_lt _ _)) by lia. reflexivity.
  - apply (H id v I). rewrite <- G. symmetry. apply (pyget_pyset_other row _ i' id None); try lia. unfold pyset. rewrite (proj2 (Z.ltb_ge i' 0)) by lia. rewrite (proj2 (Z.leb_le 0 i')), (proj2 (Z.ltb_lt _ _)) by lia. reflexivity.
Qed.
Lemma nan_many is (p : list (fl R)) row row' : nanrow row -> all_nan p -> set_many is p row = Ok row' -> nanrow row'.
Proof.
  intros H N E. unfold set_many in E. destruct (length is =? length p); [|discriminate]. revert p row H N E.
  induction is as [|i is IH]; intros [|v p] row H N E; cbn in E; try (injection E as <-; exact H).
  destruct (pyset row i v) as [r1|e] eqn:E1; [|rewrite fold_err in E; discriminate].
  apply (IH p r1); auto; [|intros w J; apply N; now right]. apply (nan_pyset row i); auto. rewrite <- E1. f_equal. symmetry. apply N. now left.
Qed.
Lemma nan_other row i v row' : (exists b, boundary_cell g b /\ i = natural_id g b) -> nanrow row -> pyset row i v = Ok row' -> nanrow row'.
Proof.
  intros Hb H E id w I G. destruct (L_C03_interior_boundary_partition g (md_wf K) (md_flow _ _ _ _ _ _ _ _ K)) as (inner & bound & E1 & E2 & _ & _ & H1 & H2 & Rg & Ex).
  rewrite (md_ids _ _ _ _ _ _ _ _ K) in E1. injection E1 as <-. apply H2 in Hb.
  pose proof (ids_pos id I). assert (0 <= i)%Z by (apply Rg; auto). assert (i <> id) by (intros ->; eapply Ex; eauto).
  apply (H id w I). rewrite <- G. symmetry. eapply pyget_pyset_other; eauto.
Qed.
Lemma nan_rows_upd rows t row : Forall nanrow rows -> nanrow row -> Forall nanrow (upd rows t row).
Proof. intros H N. revert t. induction H as [|r l Hr Hl IH]; intros [|t]; cbn; constructor; auto. Qed.

(** What all calls keep. *)
Definition fixd (m : bo R) : Prop := core m = core m0.
Definition NI (X : ws R) : Prop := fixd (fst X) /\ nanrow (b_ip (fst X)) /\ forall s, snd X = Some s -> Forall nanrow (s_p s).
Definition NS (X : st R) : Prop := fixd (fst X) /\ nanrow (b_ip (fst X)) /\ Forall nanrow (s_p (snd X)).

Ltac fin := repeat match goal with
  | H : Ok _ = Ok _ |- _ => inversion H; clear H; subst
  | H : Err _ = Ok _ |- _ => discriminate
  | H : rbind ?e _ = Ok _ |- _ => destruct e eqn:?; cbn [rbind] in H
  | H : match ?e with _ => _ end = Ok _ |- _ => destruct e eqn:?
  end; cbn [fst snd] in *.
Lemma keep_m m m' s s' : core m' = core m -> b_ip m' = b_ip m -> s_p s' = s_p s -> NS (m, s) -> NS (m', s').
Proof. intros H1 H2 H3 (A & B & C). unfold NS, fixd in *. cbn [fst snd] in *. rewrite H1, H2, H3. auto. Qed.
Ltac same := match goal with H : NS (?m, ?s) |- NS (?m', ?s') => apply (keep_m m m' s s'); [|..|exact H];
  [try destruct m; reflexivity|try destruct m; reflexivity|try destruct s; repeat match goal with |- context [if ?b then _ else _] => destruct b end; reflexivity] end.
Ltac go := isplit; try (apply i_set; intros [? ?] [? ?] ? ?; cbn [fst snd] in *; fin; same; fail).
Lemma n_cell_eq sc id : inv NS (get_cell_eq sc id). Proof. unfold get_cell_eq. go. Qed.
Lemma n_loop sc l : inv NS (cells_eq_loop sc l).
Proof. induction l as [|i l IH]; cbn [cells_eq_loop]; isplit; auto using n_cell_eq. Qed.
Lemma n_symb sc thr : inv NS (get_matrices_symb sc thr).
Proof. unfold get_matrices_symb, get_cells_eq. isplit; auto using n_loop; go. Qed.
Lemma n_addto id v : inv NS (addto_A id v). Proof. unfold addto_A. go. Qed.
Lemma n_init_b id : inv NS (init_b id). Proof. unfold init_b. isplit; auto using n_addto; go. Qed.
Lemma n_init : inv NS init_vect. Proof. unfold init_vect. isplit; auto using n_init_b; go. Qed.
Lemma n_vwell id du : inv NS (vect_well id du). Proof. unfold vect_well. isplit; auto using n_addto; go. Qed.
Lemma n_vwells l : forall du, inv NS (vect_wells l du).
Proof. induction l as [|i l IH]; intros du; cbn [vect_wells]; isplit; auto using n_vwell. Qed.
Lemma n_put_r id v : inv NS (put_r id v). Proof. unfold put_r. go. Qed.
Lemma n_ub : inv NS update_boundaries.
Proof. unfold update_boundaries, update_boundary. isplit; auto using n_put_r. Qed.
Lemma n_uw id f : inv NS (upd_wells id f). Proof. unfold upd_wells. go. Qed.
Lemma n_update_well id : inv NS (update_well id).
Proof. unfold update_well. isplit; auto using n_uw, n_put_r. Qed.
Lemma n_uloop l : forall acc, inv NS (update_wells_loop l acc).
Proof. induction l as [|i l IH]; intros acc; cbn [update_wells_loop]; isplit; auto using n_update_well. Qed.
Lemma n_update_wells : inv NS update_wells.
Proof. unfold update_wells. isplit; auto using n_uloop. destruct a0; isplit. go. Qed.
Lemma n_MB : inv NS check_MB. Proof. unfold check_MB. go. Qed.
Lemma n_drop : inv NS (mset (fun X : st R => Ok (fst X, drop_rows (snd X)))).
Proof.
  apply i_set. intros [m s] X' (A & B & C) E. injection E as <-. unfold NS. cbn [fst snd]. split; [exact A|]. split; [exact B|].
  unfold drop_rows. destruct s; cbn. rewrite Forall_forall in *. intros r I. apply C. cbn. rewrite <- (firstn_skipn s_tstep s_p). apply in_or_app. now left.
Qed.

(** The right side of the vectorised assembly is NaN. *)
Lemma nan_at row l v : nanrow row -> (forall id, In id l -> In id ids) -> at_ids l row = Ok v -> all_nan v.
Proof.
  intros N. unfold at_ids. revert v. induction l as [|i l IH]; intros v S E; cbn in E; [injection E as <-; intros w []|].
  destruct (pyget row i) as [a|] eqn:Ea; cbn [rbind] in E; [|discriminate]. destruct (rmapM (pyget row) l) as [vs|] eqn:El; cbn [rbind] in E; [|discriminate]. injection E as <-.
  intros w [<-|J]; [apply (N i); auto; apply S; now left|]. apply (IH vs); auto. intros id I. apply S. now right.
Qed.
Lemma nan_init X d : NS X -> init_d X = Ok d -> all_nan d.
Proof.
  destruct X as [m s]. intros (A & B & C) E. cbn [fst snd] in *. destruct (core_fields _ _ A) as (_ & Ei & _ & _ & _ & _ & _ & _ & _ & Ec & _). unfold init_d in E. rewrite Ec, Cm in E.
  destruct (at_ids (b_ids m) (b_RHS m)) as [rhs|]; cbn [rbind] in E; [|discriminate].
  destruct (nth_error (s_p s) (s_tstep s)) as [row|] eqn:En; cbn [rbind] in E; [|discriminate].
  destruct (at_ids (b_ids m) row) as [p|] eqn:Ep; cbn [rbind] in E; [|discriminate]. injection E as <-.
  apply nan_map2l; [reflexivity|]. rewrite Forall_forall in C. apply (nan_at row (b_ids m)); auto; [apply C; eapply nth_error_In; eauto|]. intros id. now rewrite Ei.
Qed.
Definition nan_du (du : list (fl R) * bool) (X : st R) : Prop := NS X /\ all_nan (fst du).
Lemma nan_vwell id du : hoare (fun X => NS X /\ all_nan (fst du)) (vect_well id du) nan_du NS.
Proof.
  intros X (HX & Hd). pose proof (n_vwell id du X HX) as Hi. destruct (vect_well id du X) as [X' [du'|e]] eqn:E; cbn [fst] in Hi; [|exact Hi]. split; [exact Hi|].
  unfold vect_well in E. apply mbind_ok in E as (w & X1 & E1 & E). apply mread_ok in E1 as (-> & _). apply mbind_ok in E as (cq & X1 & E1 & E). apply mread_ok in E1 as (-> & _).
  destruct cq.
  - apply mread_ok in E as (_ & E). fin. cbn [fst]. eapply nan_sub; eauto.
  - apply mbind_ok in E as (cp & X1 & E1 & E). apply mread_ok in E1 as (-> & _). destruct cp.
    + apply mbind_ok in E as (v & X1 & E1 & E). apply mread_ok in E1 as (-> & _). apply mbind_ok in E as (d & X1 & E1 & E). apply mread_ok in E1 as (-> & E1).
      apply mbind_ok in E as (dn & X1 & _ & E). apply mbind_ok in E as (t & X2 & _ & E). unfold mret in E. inversion E; subst. cbn [fst]. eapply nan_sub; eauto.
    + unfold mret in E. inversion E; subst. exact Hd.
Qed.
Lemma nan_vwells l : forall du, hoare (fun X => NS X /\ all_nan (fst du)) (vect_wells l du) nan_du NS.
Proof.
  induction l as [|i l IH]; intros du; cbn [vect_wells]; [apply h_ret; auto|]. eapply h_bind; [apply nan_vwell|]. intros du'. exact (IH du').
Qed.
Lemma nan_b (X : st R) d e d' : all_nan d -> vect_b X d e = Ok d' -> all_nan d'.
Proof.
  destruct X as [m s]. intros H E. unfold vect_b in E. destruct (get_cell_neighbors (bgrid m) (fst e) false) as [nb|]; cbn [rbind] in E; [|discriminate].
  destruct (dirs_list nb) as [|id l]; [injection E as <-; exact H|]. destruct (String.eqb _ _); fin; eapply nan_sub; eauto.
Qed.
Lemma nan_bs (X : st R) l : forall d d', all_nan d -> fold_left (fun acc e => let* d := acc in vect_b X d e) l (Ok d) = Ok d' -> all_nan d'.
Proof.
  induction l as [|e l IH]; intros d d' H E; cbn [fold_left rbind] in E; [injection E as <-; exact H|].
  destruct (vect_b X d e) as [d1|x0] eqn:E1; [eapply IH; [eapply nan_b; eauto|exact E]|].
  exfalso. clear -E. revert E. induction l as [|e' l IH]; cbn; [discriminate|exact IH].
Qed.
Lemma nan_z (m : bo R) d d' : all_nan d -> update_z m d = Ok d' -> all_nan d'.
Proof.
  intros H E. unfold update_z in E. fin; auto. apply nan_map2r; auto.
Qed.
Lemma nan_vect : hoare NS get_matrices_vect (fun Ad X => NS X /\ all_nan (snd Ad)) NS.
Proof.
  unfold get_matrices_vect.
  apply h_bind with (Q := fun _ => NS); [apply h_read; auto|]. intros ini. apply h_bind with (Q := fun _ => NS); [apply h_when; [intros _; apply inv_hoare; exact n_init|auto]|]. intros _.
  apply h_bind with (Q := fun d X => NS X /\ all_nan d); [apply h_read; auto; intros X d HX E; split; [exact HX|eapply nan_init; eauto]|]. intros d.
  apply h_bind with (Q := fun _ X => NS X /\ all_nan d); [apply h_read; [auto|intros X H; apply H]|]. intros wids.
  eapply h_bind; [exact (nan_vwells wids (d, false))|]. intros du.
  apply h_bind with (Q := fun d X => NS X /\ all_nan d). { apply h_read; [|intros X H; apply H]. intros X d' (HX & Hd) E. split; [exact HX|]. eapply nan_bs; [exact Hd|exact E]. } intros d'.
  apply h_bind with (Q := fun d X => NS X /\ all_nan d). { apply h_read; [|intros X H; apply H]. intros X d2 (HX & Hd) E. split; [exact HX|]. destruct (snd du); [eapply nan_z; eauto|injection E as <-; exact Hd]. } intros d2.
  apply h_bind with (Q := fun _ X => NS X /\ all_nan d2); [apply h_read; [auto|intros X H; apply H]|]. intros A. apply h_ret. auto.
Qed.
(** The symbolic assembly raises. *)
Lemma symb_loop_fails sc l : l <> [] -> (forall id, In id l -> In id ids) -> hoare NS (cells_eq_loop sc l) (fun _ _ => False) NS.
Proof.
  intros Nl Sl. destruct l as [|i l]; [contradiction|]. cbn [cells_eq_loop]. apply h_bind with (Q := fun _ _ => False); [|intros e X []].
  intros X HX. pose proof (n_cell_eq sc i X HX) as Hi. destruct (get_cell_eq sc i X) as [X' [e|e]] eqn:E; cbn [fst] in Hi; [|exact Hi].
  unfold get_cell_eq in E. apply mbind_ok in E as (t & X1 & E1 & E). apply mread_ok in E1 as (-> & E1). apply mbind_ok in E as (tt' & X2 & _ & E). apply mread_ok in E as (_ & E).
  assert (Ha : l0 (t_a t) = None); [|unfold cell_row in E; rewrite Ha in E; destruct (l0 _); discriminate].
  assert (Q : forall a, a_term (fst X) (snd X) i = Ok a -> l0 a = None).
  { destruct X as [m s], HX as (A & B & C). cbn [fst snd] in *. intros a Ea. destruct (core_fields _ _ A) as (_ & _ & _ & _ & _ & _ & _ & _ & _ & Ec & _). unfold a_term in Ea. rewrite Ec, Cm in Ea.
    destruct (pyget (b_RHS m) i); cbn [rbind] in Ea; [|discriminate]. destruct (at2 (s_p s) (s_tstep s) i) as [p|] eqn:Ep; cbn [rbind] in Ea; [|discriminate]. injection Ea as <-. cbn [l0].
    unfold at2 in Ep. destruct (nth_error (s_p s) (s_tstep s)) as [row|] eqn:En; [|discriminate]. rewrite Forall_forall in C. rewrite (C row (nth_error_In _ _ En) i p (Sl i (or_introl eq_refl)) Ep). reflexivity. }
  destruct X as [m s], HX as (A & _). cbn [fst snd] in *. destruct (core_fields _ _ A) as (_ & _ & _ & _ & _ & _ & _ & _ & _ & Ec & _).
  destruct (dget i (b_terms m)) as [t0|].
  - unfold old_terms in E1. rewrite Ec, Cm in E1. destruct (match dget i (b_wells m) with Some w => _ | None => _ end); cbn [rbind] in E1; [|discriminate].
    destruct (a_term m s i) as [a0|] eqn:Ea; cbn [rbind] in E1; [|discriminate]. injection E1 as <-. cbn [t_a]. auto.
  - unfold new_terms in E1. repeat match type of E1 with rbind ?e _ = Ok _ => destruct e eqn:?; cbn [rbind] in E1; [|discriminate] end. injection E1 as <-. cbn [t_a]. auto.
Qed.
Lemma ids_some : ids <> [].
Proof.
  intros E. destruct (L_C03_interior_boundary_partition g (md_wf K) (md_flow _ _ _ _ _ _ _ _ K)) as (inner & bound & E1 & _ & _ & _ & _ & _ & _ & _ & L).
  rewrite (md_ids _ _ _ _ _ _ _ _ K) in E1. injection E1 as <-. rewrite E in L. destruct (md_wf K) as (H1 & H2 & H3). cbn [length] in L. nia.
Qed.
Lemma symb_fails sc thr : hoare NS (get_matrices_symb sc thr) (fun _ _ => False) NS.
Proof.
  unfold get_matrices_symb. apply h_bind with (Q := fun _ _ => False); [|intros e X []]. unfold get_cells_eq.
  apply h_bind with (Q := fun l X => NS X /\ l = ids).
  - apply h_read; auto. intros X l HX E. split; [exact HX|]. destruct HX as (A & _). destruct (core_fields _ _ A) as (_ & Ei & _). destruct (thr && _); [discriminate|]. injection E as <-. exact Ei.
  - intros l. eapply h_weak with (P := fun X => NS X /\ l = ids); [|intros X H; exact H|intros a X H; exact H|intros X H; exact H].
    intros X (HX & ->). exact (symb_loop_fails sc ids ids_some (fun id I => I) X HX).
Qed.
Section solver.
Context (slv : solver_kind -> @mat R -> list (fl R) -> res (list (fl R))) (sc : Z -> R) (Hs : passes_nan slv).
Lemma n_rows A d p : all_nan p -> inv NS (new_rows A d p).
Proof.
  intros Hp. unfold new_rows. isplit; apply i_set; intros [m s] X' (HA & HB & HC) E; cbn [fst snd] in *.
  - injection E as <-. unfold NS. cbn [fst snd]. split; [exact HA|]. split; [exact HB|]. destruct s; cbn in *. apply Forall_app. split; [exact HC|]. constructor; [|constructor]. now apply nanrow_last.
  - destruct (row_at (s_p s) (s_tstep s)) as [row|] eqn:Er; cbn [rbind] in E; [|discriminate]. destruct (set_many (b_ids m) p row) as [row'|] eqn:Em; cbn [rbind] in E; [|discriminate]. injection E as <-.
    unfold NS. cbn [fst snd]. split; [exact HA|]. split; [exact HB|]. destruct s; cbn in *. apply nan_rows_upd; auto. eapply nan_many; [|exact Hp|exact Em].
    unfold row_at in Er. destruct (nth_error s_p s_tstep) as [r|] eqn:En; [|discriminate]. injection Er as <-. rewrite Forall_forall in HC. apply HC. eapply nth_error_In; eauto.
  - injection E as <-. unfold NS. cbn [fst snd]. split; [exact HA|]. split; [exact HB|]. destruct s; exact HC.
Qed.
Lemma nan_system o : hoare NS (get_system sc o) (fun Ad X => NS X /\ all_nan (snd Ad) /\ o_vect o = true /\ o_print o = false) NS.
Proof.
  unfold get_system. destruct (o_print o).
  - apply h_bind with (Q := fun _ _ => False); [apply symb_fails|intros a X []].
  - destruct (o_vect o); [|eapply h_weak; [apply symb_fails| | |]; auto; intros a X []]. eapply h_weak; [exact nan_vect| | |]; auto. intros a X (H1 & H2). auto.
Qed.
Lemma n_solve fuel sparse : forall o, hoare NS (solve slv sc fuel sparse o) (fun _ X => NS X /\ o_vect o = true /\ o_print o = false) NS.
Proof.
  induction fuel as [|fuel IH]; intros o; cbn [solve]; [apply h_err; auto|].
  eapply h_bind; [apply nan_system|]. intros Ad.
  apply h_bind with (Q := fun p X => NS X /\ all_nan p /\ o_vect o = true /\ o_print o = false).
  - apply h_read; [|intros X H; apply H]. intros X p (HX & Hd & Ho) E. split; [exact HX|]. split; [|exact Ho]. destruct (pick_solver sparse (o_iso o)) as [k|]; cbn [rbind] in E; [|discriminate]. exact (Hs _ _ _ _ Hd E).
  - intros p. intros X (HX & Hp & Ho). destruct (o_upd o); [|cbn; auto].
    assert (Q : inv NS (do _ <- new_rows (fst Ad) (snd Ad) p ;; do _ <- update_boundaries ;; do again <- update_wells ;;
      do _ <- mwhen again (do _ <- mset (fun x : st R => Ok (fst x, drop_rows (snd x))) ;; solve slv sc fuel sparse (mkOpts (o_thr o) (o_vect o) false true false (Some "cgs"%string))) ;; mwhen (o_mb o) check_MB)).
    { isplit; auto using n_rows, n_ub, n_update_wells, n_drop, n_MB. apply hoare_inv. eapply h_weak; [apply IH| | |]; auto. intros b Y (HY & _). exact HY. }
    apply inv_hoare in Q. specialize (Q X HX). match goal with |- match ?e with _ => _ end => destruct e as [X' [b|b]] end; auto.
Qed.
Lemma n_loop_run n fuel sparse o : hoare NS (run_loop slv sc n fuel sparse o) (fun _ X => NS X /\ (0 < n -> o_vect o = true /\ o_print o = false)) NS.
Proof.
  induction n as [|n IH]; cbn [run_loop]; [apply h_ret; intros X H; split; [exact H|lia]|]. eapply h_bind; [apply n_solve|]. intros b X (HX & Ho). specialize (IH X HX).
  destruct (run_loop slv sc n fuel sparse o X) as [X' [c|c]]; [|exact IH]. split; [apply IH|auto].
Qed.
Lemma n_run n fuel sparse thr vect mb pr iso : hoare NS (run slv sc n fuel sparse thr vect mb pr iso) (fun _ X => NS X /\ (0 < n -> vect = true /\ pr = false)) NS.
Proof.
  unfold run. apply h_bind with (Q := fun _ => NS).
  - apply h_set; auto. intros [m s] X' H E. injection E as <-. apply (keep_m m m s); auto. now destruct s.
  - intros _. eapply h_bind; [apply n_loop_run|]. intros b. cbv beta. cbn [o_vect o_print]. apply h_when; [intros _|auto]. apply h_read; [auto|]. intros X H. apply H.
Qed.
End solver.

(** The calls on the model. *)
Lemma keep_w m m' (o o' : option (fs R)) : core m' = core m -> b_ip m' = b_ip m -> (forall s', o' = Some s' -> exists s, o = Some s /\ s_p s' = s_p s) -> NI (m, o) -> NI (m', o').
Proof. intros H1 H2 H3 (A & B & C). unfold NI, fixd in *. cbn [fst snd] in *. rewrite H1, H2. split; [auto|]. split; [auto|]. intros s' E. destruct (H3 s' E) as (s & E' & ->). auto. Qed.
Ltac samew := match goal with H : NI (?m, ?s) |- NI (?m', ?s') => apply (keep_w m m' s s'); [|..|exact H];
  [try destruct m; reflexivity|try destruct m; reflexivity|intros ? ->; eexists; split; reflexivity] end.
Ltac gow := isplit; try (apply i_set; intros [? ?] [? ?] ? ?; cbn [fst snd] in *; fin; samew; fail).
Lemma w_upd id f : inv NI (upd_well id f). Proof. unfold upd_well. gow. Qed.
Lemma w_log id : inv NI (log_pressure id). Proof. unfold log_pressure. gow. Qed.
Lemma w_tail id : inv NI (set_well_tail id).
Proof. unfold set_well_tail. isplit; auto using w_upd, w_log. Qed.
Lemma w_set_well cell q pwf r s : inv NI (set_well cell q pwf r s).
Proof.
  unfold set_well. destruct cell as [id|]; [|apply i_read]. unfold assert_inside. isplit; auto using w_upd, w_log, w_tail.
  apply i_set. intros [m o] [m' o'] Pm E. cbn [fst] in *. destruct (din id (b_wells m)); inversion E; subst; auto. samew.
Qed.
Lemma w_set_well_obj w cell : inv NI (set_well_obj w cell).
Proof. unfold set_well_obj, assert_inside. isplit; auto using w_tail. gow. Qed.
Lemma w_put_q id v : inv NI (put_rate id v).
Proof.
  unfold put_rate. apply i_set. intros [m o] [m' o'] H E. cbn [fst snd] in *. destruct o as [s|].
  - destruct (s_tstep s =? 0); fin; [samew|]. match goal with H : NI (?a, Some ?b) |- NI (?a', _) => apply (keep_w a a' (Some b)); auto; intros s' Es; injection Es as <-; exists b; split; [reflexivity|now destruct b] end.
  - fin. samew.
Qed.
Notation bcell i := (exists b, boundary_cell g b /\ i = natural_id g b).
Lemma w_put_p id v : bcell id -> inv NI (put_pressure id v).
Proof.
  intros Hb. unfold put_pressure. apply i_set. intros [m o] [m' o'] (A & B & C) E. unfold NI. cbn [fst snd] in *.
  assert (Q : forall row, pyset (b_ip m) id v = Ok row -> fixd (set_ip row m) /\ nanrow (b_ip (set_ip row m)) /\ (forall s, o = Some s -> Forall nanrow (s_p s))).
  { intros row Er. split; [unfold fixd; now rewrite core_ip|]. split; [|exact C]. replace (b_ip (set_ip row m)) with row by now destruct m. eapply nan_other; eauto. }
  destruct o as [s|].
  - destruct (s_tstep s =? 0) eqn:Et.
    + destruct (pyset (b_ip m) id v) as [row|] eqn:Er; cbn [rbind] in E; [|discriminate]. injection E as <- <-. exact (Q row eq_refl).
    + unfold set2 in E. destruct (nth_error (s_p s) (s_tstep s)) as [r0|] eqn:En; cbn [rbind] in E; [|discriminate]. destruct (pyset r0 id v) as [r1|] eqn:Er; cbn [rbind] in E; [|discriminate]. injection E as <- <-.
      split; [exact A|]. split; [exact B|]. intros s' Es. injection Es as <-. specialize (C s eq_refl). replace (s_p (set_p (upd (s_p s) (s_tstep s) r1) s)) with (upd (s_p s) (s_tstep s) r1) by now destruct s.
      apply nan_rows_upd; auto. rewrite Forall_forall in C. eapply nan_other; [exact Hb| |exact Er]. apply C. eapply nth_error_In; eauto.
  - destruct (pyset (b_ip m) id v) as [row|] eqn:Er; cbn [rbind] in E; [|discriminate]. injection E as <- <-. exact (Q row eq_refl).
Qed.
Lemma w_boundary id c v : bcell id -> inv NI (set_boundary id c v).
Proof. intros Hb. unfold set_boundary. isplit; auto using w_put_q, w_put_p. Qed.
Lemma w_bids : hoare NI (mread (fun X : ws R => get_boundaries_id (bgrid (fst X)))) (fun bs X => NI X /\ forall i, In i bs -> bcell i) NI.
Proof.
  apply h_read; auto. intros X bs HX E. split; [exact HX|]. destruct HX as (A & _). destruct (core_fields _ _ A) as (Eg & _). unfold bgrid, ggrid in E. rewrite Eg in E.
  destruct (L_C03_interior_boundary_partition g (md_wf K) (md_flow _ _ _ _ _ _ _ _ K)) as (inner & bound & _ & E2 & _ & _ & _ & H2 & _). rewrite E in E2. injection E2 as <-. intros i. apply H2.
Qed.
Lemma w_boundaries bd : inv NI (set_boundaries bd).
Proof.
  unfold set_boundaries. apply i_bind; [gow|]. intros _. apply hoare_inv. eapply h_bind; [exact w_bids|]. intros bs X (HX & Hb). revert X HX. apply inv_hoare. isplit; [|gow].
  destruct a as [id [c v]]. apply hoare_inv. apply h_bind with (Q := fun _ X => NI X /\ bcell id).
  - apply h_read; auto. intros X t HX E. split; [exact HX|]. apply Hb. unfold passert in E. destruct (zmem id bs) eqn:Ez; [|discriminate]. unfold zmem in Ez. apply existsb_exists in Ez as (i & I & Ei). apply Z.eqb_eq in Ei. congruence.
  - intros t X (HX & Hc). exact (inv_hoare _ _ (w_boundary id c v Hc) X HX).
Qed.
Lemma w_all c v : inv NI (set_all_boundaries c v).
Proof.
  unfold set_all_boundaries. apply hoare_inv. eapply h_bind; [exact w_bids|]. intros bs X (HX & Hb). revert X HX. apply inv_hoare. apply i_iter. intros i I. apply w_boundary. auto.
Qed.
Lemma nan_exec c : careful m0 c -> forall X, NI X -> NI (fst (exec c X)) /\ (symbolically c -> snd (exec c X) <> Ok tt).
Proof.
  intros Hc X HX. destruct c; cbn [exec symbolically careful] in *.
  1-5: split; [|contradiction].
  - now apply w_set_well.
  - now apply w_set_well_obj.
  - now apply w_boundary.
  - now apply w_boundaries.
  - now apply w_all.
  - split; [|contradiction]. destruct HX as (A & B & _). unfold NI. cbn. split; [exact A|]. split; [exact B|]. intros s E. injection E as <-. constructor; [exact B|constructor].
  - destruct X as [m [s|]]; [|split; [exact HX|discriminate]]. assert (H : NS (m, s)) by (destruct HX as (A & B & C); exact (conj A (conj B (C s eq_refl)))).
    unfold of_solution. cbn [fst snd]. pose proof (n_solve slv sc Hc fuel sparse o (m, s) H) as Q. destruct (solve slv sc fuel sparse o (m, s)) as [[m' s'] [t|e]]; cbn [fst snd].
    + destruct Q as ((A & B & C) & V & P). split; [split; [exact A|split; [exact B|intros s1 E; injection E as <-; exact C]]|]. intros [D|D]; congruence.
    + destruct Q as (A & B & C). split; [split; [exact A|split; [exact B|intros s1 E; injection E as <-; exact C]]|discriminate].
  - destruct X as [m [s|]]; [|split; [exact HX|discriminate]]. assert (H : NS (m, s)) by (destruct HX as (A & B & C); exact (conj A (conj B (C s eq_refl)))).
    unfold of_solution. cbn [fst snd]. pose proof (n_run slv sc Hc n fuel sparse thr vect mb pr iso (m, s) H) as Q. destruct (run slv sc n fuel sparse thr vect mb pr iso (m, s)) as [[m' s'] [t|e]]; cbn [fst snd].
    + destruct Q as ((A & B & C) & V). split; [split; [exact A|split; [exact B|intros s1 E; injection E as <-; exact C]]|]. intros (Hn & D) _. destruct (V Hn) as (V1 & V2). destruct D; congruence.
    + destruct Q as (A & B & C). split; [split; [exact A|split; [exact B|intros s1 E; injection E as <-; exact C]]|discriminate].
Qed.
Lemma nan_after l : Forall (careful m0) l -> forall X, NI X -> NI (after X l).
Proof. induction 1 as [|c l Hc Hl IH]; intros X HX; cbn [after fold_left]; auto. apply IH. now apply nan_exec. Qed.
Lemma nan_unknown X : NI X -> unknown X.
Proof.
  intros (A & B & C) id I. destruct (core_fields _ _ A) as (_ & Ei & _). rewrite Ei in I. split; [now apply nanrow_value|]. intros s row Es Ir. apply nanrow_value; auto. specialize (C s Es). rewrite Forall_forall in C. auto.
Qed.
Lemma nan_new (gg : gobj R) f unit dt : bo_new gg f unit None dt = Ok m0 -> NI (m0, None).
Proof.
  intros E. split; [reflexivity|]. split; [|discriminate]. cbn [fst]. unfold bo_new in E. destruct (set_units uobj0 unit) as [un [t|]]; [|discriminate].
  repeat match type of E with rbind ?e _ = Ok _ => destruct e eqn:?; cbn [rbind] in E; [|discriminate] end. injection E as E. intros id v _ G. rewrite <- E in G. cbn [b_ip] in G. 
  unfold pyget in G. destruct (0 <=? _)%Z; [|discriminate]. destruct (nth_error _ _) as [w|] eqn:En; [|discriminate]. injection G as <-. eapply repeat_spec, nth_error_In, En.
Qed.
End nan.
