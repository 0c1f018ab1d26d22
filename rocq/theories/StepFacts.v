(** Facts on single steps: what is kept, what is appended. *)
From Coq Require Import String ZArith Bool Arith List Lia.
From Verif Require Import Prelude PreludeFacts Num GridModel GeoModel PropModel BlackOilModel FdmModel
  MonadFacts HistSpec InvFacts StepSpec.
Import ListNotations.
Open Scope nat_scope.

Ltac fin := repeat match goal with
  | H : Ok _ = Ok _ |- _ => inversion H; clear H; subst
  | H : Err _ = Ok _ |- _ => discriminate
  | H : rbind ?e _ = Ok _ |- _ => destruct e eqn:?; cbn [rbind] in H
  | H : match ?e with _ => _ end = Ok _ |- _ => destruct e eqn:?
  end; cbn [fst snd] in *.

Lemma i_and {S A} (P Q : S -> Prop) (c : M S A) : inv P c -> inv Q c -> inv (fun x => P x /\ Q x) c.
Proof. intros H1 H2 s (? & ?). split; auto. Qed.

Section step.
Context {F : Type} {NF : Num F} {NT : NumT F}.

(** ** Assembly changes nothing observable *)
Definition pub (x : st F) := (core (fst x), settings (fst x), results (snd x)).
Ltac samep := apply i_set; intros [[] []] [? ?] ? ?; fin; repeat match goal with |- context [if ?b then _ else _] => destruct b end; first [assumption|reflexivity].
Lemma pb_eq v sc id : inv (fun x => pub x = v) (get_cell_eq sc id).
Proof. unfold get_cell_eq. isplit; samep. Qed.
Lemma pb_loop v sc l : inv (fun x => pub x = v) (cells_eq_loop sc l).
Proof. induction l as [|i l IH]; cbn [cells_eq_loop]; isplit; auto using pb_eq. Qed.
Lemma pb_symb v sc thr : inv (fun x => pub x = v) (get_matrices_symb sc thr).
Proof.
  unfold get_matrices_symb, get_cells_eq. isplit; auto using pb_loop; try samep.
Qed.
Lemma pb_addto v id w : inv (fun x => pub x = v) (addto_A id w). Proof. unfold addto_A. samep. Qed.
Lemma pb_init_b v id : inv (fun x => pub x = v) (init_b id). Proof. unfold init_b. isplit; auto using pb_addto; samep. Qed.
Lemma pb_init v : inv (fun x => pub x = v) init_vect. Proof. unfold init_vect. isplit; auto using pb_init_b; samep. Qed.
Lemma pb_vwell v id du : inv (fun x => pub x = v) (vect_well id du).
Proof. unfold vect_well. isplit; auto using pb_addto; samep. Qed.
Lemma pb_vwells v l : forall du, inv (fun x => pub x = v) (vect_wells l du).
Proof. induction l as [|i l IH]; intros du; cbn [vect_wells]; isplit; auto using pb_vwell. Qed.
Lemma pb_vect v : inv (fun x => pub x = v) get_matrices_vect.
Proof. unfold get_matrices_vect. isplit; auto using pb_init, pb_vwells. Qed.
Lemma pb_system v sc o : inv (fun x => pub x = v) (get_system sc o).
Proof. unfold get_system. isplit; auto using pb_symb, pb_vect. Qed.
Lemma system_pub sc o x : pub (fst (get_system sc o x)) = pub x.
Proof. now apply pb_system. Qed.

(** ** Rows *)
Lemma upd_app_last {A} (l : list A) a b : upd (l ++ [a]) (length l) b = l ++ [b].
Proof. induction l as [|c l IH]; simpl; [reflexivity|now rewrite IH]. Qed.
Lemma nth_error_last {A} (l : list A) a : nth_error (l ++ [a]) (length l) = Some a.
Proof. rewrite nth_error_app2 by lia. now rewrite Nat.sub_diag. Qed.

(** Only the last row of the rates and the wells change. *)
Definition tailed (p r : list (list (fl F))) (Ad : list (@mat F) * list (list (fl F))) n (c : bo F) (bd : list (Z * (string * F))) (up : list Z)
  (x : st F) : Prop :=
  s_p (snd x) = p /\ (exists rr, s_r (snd x) = r ++ [rr] /\ length rr = length (last r [])) /\ s_tstep (snd x) = length r /\
  (s_As (snd x), s_ds (snd x)) = Ad /\ s_nsteps (snd x) = n /\ core (fst x) = c /\ b_bdict (fst x) = bd /\ b_bup (fst x) = up.
Lemma pyset_length {A} (l : list A) i v l' : pyset l i v = Ok l' -> length l' = length l.
Proof. unfold pyset. destruct (_ && _)%bool; intros E; inversion E. apply upd_length. Qed.
Lemma ta_put_r p r Ad n c bd up id v : inv (tailed p r Ad n c bd up) (put_r id v).
Proof.
  unfold put_r. apply i_set. intros [m s] [m' s'] H E. cbn [fst snd] in *.
  destruct H as (H1 & (rr & H2 & H2') & H3 & H4). cbn [fst snd] in *. unfold set2 in E. rewrite H3, H2, nth_error_last in E.
  destruct (pyset rr id v) as [row|] eqn:Er; cbn [rbind] in E; [|discriminate]. inversion E; subst; clear E. rewrite upd_app_last.
  split; [now destruct s|]. split; [|destruct s; cbn in *; tauto]. exists row. split; [now destruct s|].
  apply pyset_length in Er. congruence.
Qed.
Lemma ta_wells p r Ad n c bd up id f : inv (tailed p r Ad n c bd up) (upd_wells id f).
Proof. unfold upd_wells. apply i_set. intros [[] s] [? ?] Hx E. fin. exact Hx. Qed.
Lemma ta_ub p r Ad n c bd up : inv (tailed p r Ad n c bd up) update_boundaries.
Proof. unfold update_boundaries, update_boundary. isplit; auto using ta_put_r. Qed.
Lemma ta_update_well p r Ad n c bd up id : inv (tailed p r Ad n c bd up) (update_well id).
Proof. unfold update_well. isplit; auto using ta_put_r, ta_wells. Qed.
Lemma ta_uloop p r Ad n c bd up l : forall acc, inv (tailed p r Ad n c bd up) (update_wells_loop l acc).
Proof. induction l as [|i l IH]; intros acc; cbn [update_wells_loop]; isplit; auto using ta_update_well. Qed.
Lemma ta_update_wells p r Ad n c bd up : inv (tailed p r Ad n c bd up) update_wells.
Proof.
  unfold update_wells. isplit; auto using ta_uloop. destruct a0; isplit. apply i_set. intros [[] s] [? ?] Hx E. fin. exact Hx.
Qed.
Lemma ta_MB p r Ad n c bd up : inv (tailed p r Ad n c bd up) check_MB.
Proof.
  unfold check_MB. apply i_set. intros [m []] [? ?] Hx E. cbn [fst snd] in *. destruct (b_cmp m); fin; exact Hx.
Qed.

(** The rows a solution gets at the start of a step. *)
Lemma rows_ok A d p m s x : shaped s -> new_rows A d p (m, s) = (x, Ok tt) ->
  exists row, set_many (b_ids m) p (last (s_p s) []) = Ok row /\ fst x = m /\
    tailed (s_p s ++ [row]) (s_r s) (s_As s ++ [A], s_ds s ++ [d]) (s_nsteps s) (core m) (b_bdict m) (b_bup m) x /\
    s_r (snd x) = s_r s ++ [last (s_r s) []] /\ s_A (snd x) = s_A s /\ s_res (snd x) = s_res s /\ s_bv (snd x) = s_bv s /\ s_sym (snd x) = s_sym s.
Proof.
  intros (L1 & L2) E. unfold new_rows in E. apply mbind_ok in E as (a0 & X0 & E0 & E). apply mset_ok in E0. cbn [fst snd] in E0. inversion E0; subst X0; clear E0.
  apply mbind_ok in E as (a & X & E1 & E2). apply mset_ok in E1. cbn [fst snd] in E1. unfold row_at in E1.
  destruct s as [sp sr sn stp sAs sds sA sre sbv ssy se scu]. cbn [set_p set_tstep s_p s_tstep s_r] in *. rewrite <- L1, nth_error_last in E1. cbn [rbind] in E1.
  destruct (set_many (b_ids m) p (last sp [])) as [row|] eqn:Es; [|discriminate]. cbn [rbind] in E1. inversion E1; subst X; clear E1.
  rewrite upd_app_last in E2. apply mset_ok in E2. inversion E2; subst x; clear E2. exists row. cbn. split; auto. split; auto. split; auto.
  repeat split; cbn; try congruence. exists (last sr []). auto.
Qed.

(** ** A whole step *)
Section solver.
Context (slv : solver_kind -> @mat F -> list (fl F) -> res (list (fl F))) (sc : Z -> F).

(** What a successful step leaves: [n] more systems stored than needed. *)
Definition stepped (sparse : bool) (n : nat) (m : bo F) (s : fs F) (x : st F) : Prop :=
  exists k A d p row l l', slv k A d = Ok p /\ set_many (b_ids m) p (last (s_p s) []) = Ok row /\
    (exists i, pick_solver sparse i = Ok k) /\
    length l = n /\ length l' = n /\
    tailed (s_p s ++ [row]) (s_r s) (s_As s ++ l ++ [A], s_ds s ++ l' ++ [d]) (s_nsteps s) (core m) (b_bdict m) (b_bup m) x.

Lemma drop_ok m s row x p r Ad n c bd up : shaped s -> p = s_p s ++ [row] -> r = s_r s ->
  tailed p r Ad n c bd up (m, x) -> s_p (drop_rows x) = s_p s /\ s_r (drop_rows x) = s_r s /\ s_tstep (drop_rows x) = s_tstep s /\
  (s_As (drop_rows x), s_ds (drop_rows x)) = Ad /\ s_nsteps (drop_rows x) = n.
Proof.
  intros (L1 & L2) -> -> (H1 & (rr & H2 & _) & H3 & H4 & H5 & _). cbn [fst snd] in *. destruct x. cbn in *. rewrite H1, H2, H3.
  assert (Fl : forall T (l : list T) a, firstn (length l) (l ++ [a]) = l).
  { intros T l a. rewrite firstn_app, firstn_all, Nat.sub_diag. cbn. apply app_nil_r. }
  rewrite Fl. rewrite L2, <- L1, Fl. repeat split; auto. lia.
Qed.

Lemma solve_ok fuel sparse : forall o m s X, shaped s -> o_upd o = true -> solve slv sc fuel sparse o (m, s) = (X, Ok tt) ->
  exists n, stepped sparse n m s X /\ (b_wells m = [] -> n = 0).
Proof.
  induction fuel as [|fuel IH]; intros o m s X L U E; cbn [solve] in E; [discriminate|].
  apply mbind_ok in E as ([A d] & [m1 s1] & E1 & E). pose proof (system_pub sc o (m, s)) as P1. rewrite E1 in P1. cbn [fst snd] in P1.
  apply mbind_ok in E as (p & X2 & E2 & E). apply mread_ok in E2 as (-> & E2). cbn [fst snd] in E2.
  destruct (pick_solver sparse (o_iso o)) as [k|] eqn:Ek; [|discriminate]. cbn [rbind] in E2.
  rewrite U in E. cbv beta match in E. apply mbind_ok in E as ([] & X3 & E3 & E).
  unfold pub in P1. cbn [fst snd] in P1. assert (Pc : core m1 = core m) by congruence. assert (Ps : settings m1 = settings m) by congruence.
  assert (Pr : results s1 = results s) by congruence. unfold settings in Ps. unfold results in Pr.
  assert (Rp : s_p s1 = s_p s) by congruence. assert (Rr : s_r s1 = s_r s) by congruence. assert (Rt : s_tstep s1 = s_tstep s) by congruence.
  assert (Rn : s_nsteps s1 = s_nsteps s) by congruence. assert (RA : s_As s1 = s_As s) by congruence. assert (Rd : s_ds s1 = s_ds s) by congruence.
  assert (Sw : b_wells m1 = b_wells m) by congruence. assert (Sb : b_bdict m1 = b_bdict m) by congruence. assert (Su : b_bup m1 = b_bup m) by congruence.
  assert (L' : shaped s1) by (unfold shaped in *; rewrite Rp, Rr, Rt; exact L).
  assert (Ei : b_ids m1 = b_ids m) by apply (core_fields _ _ Pc).
  destruct (rows_ok _ _ _ _ _ _ L' E3) as (row & R1 & Rm & R2 & _). rewrite Ei, Rp in R1.
  rewrite Rp, Rr, RA, Rd, Rn, Pc, Sb, Su in R2.
  apply mbind_ok in E as ([] & X4 & E4 & E). assert (R4 : tailed (s_p s ++ [row]) (s_r s) (s_As s ++ [A], s_ds s ++ [d]) (s_nsteps s) (core m) (b_bdict m) (b_bup m) X4).
  { pose proof (ta_ub _ _ _ _ _ _ _ X3 R2) as H. rewrite E4 in H. exact H. }
  apply mbind_ok in E as (again & X5 & E5 & E). pose proof (ta_update_wells _ _ _ _ _ _ _ X4 R4) as R5. rewrite E5 in R5. cbn [fst] in R5.
  apply mbind_ok in E as ([] & X6 & E6 & E).
  assert (MB : forall Y p r Ad n c bd up, tailed p r Ad n c bd up Y -> mwhen (o_mb o) check_MB Y = (X, Ok tt) -> tailed p r Ad n c bd up X).
  { intros Y p' r Ad n c bd up H HE. destruct (o_mb o); cbn [mwhen] in HE; [|inversion HE; subst; exact H].
    pose proof (ta_MB _ _ _ _ _ _ _ _ H) as H'. rewrite HE in H'. exact H'. }
  destruct again; cbn [mwhen] in E6.
  - apply mbind_ok in E6 as ([] & X7 & E7 & E8). apply mset_ok in E7. destruct X5 as [m5 s5]. inversion E7; subst X7; clear E7. cbn [fst snd] in E8.
    destruct (drop_ok m5 s row s5 _ _ _ _ _ _ _ L eq_refl eq_refl R5) as (D1 & D2 & D3 & D4 & D5).
    destruct (IH (mkOpts (o_thr o) (o_vect o) false true false (Some "cgs"%string)) m5 (drop_rows s5) X6) as (n & (k' & A' & d' & p' & row' & l & l' & S1 & S2 & Sk & S3 & S4 & S5) & _); auto.
    { unfold shaped in *. rewrite D1, D2, D3. exact L. }
    destruct R5 as (_ & _ & _ & _ & _ & C5 & B5 & U5). cbn [fst snd] in *.
    exists (S n). split.
    + exists k', A', d', p', row', (A :: l), (d :: l'). rewrite D1 in S2.
      assert (Ei5 : b_ids m5 = b_ids m) by apply (core_fields _ _ C5). rewrite Ei5 in S2. split; auto. split; auto. split; auto. split; [cbn; congruence|]. split; [cbn; congruence|].
      rewrite D1, D2, D5, C5, B5, U5 in S5. inversion D4 as [[DA Dd]]. rewrite DA, Dd in S5. rewrite <- !app_assoc in S5.
      eapply MB; eauto.
    + intros W. exfalso. (* no well asks for re-solving *)
      assert (W4 : b_wells (fst X4) = []).
      { assert (I : inv (fun x : st F => b_wells (fst x) = []) update_boundaries).
        { unfold update_boundaries, update_boundary, put_r. isplit. apply i_set. intros [? ?] [? ?] Hx Ex. fin. exact Hx. }
        specialize (I X3). rewrite E4 in I. apply I. rewrite Rm. congruence. }
      unfold update_wells in E5. rewrite (mbind_run _ _ X4 X4 [] ) in E5 by (unfold mread; now rewrite W4). cbn in E5. discriminate.
  - inversion E6; subst X6. exists 0. split; [|auto].
    exists k, A, d, p, row, [], []. repeat split; eauto; try (eapply MB; eauto). 
Qed.
End solver.
End step.

(** ** Histories *)
Section hist.
Context {F : Type} {NF : Num F} {NT : NumT F}.
(** Calls between the steps keep the number of rows. *)
Definition meas (x : ws F) :=
  option_map (fun s => (length (s_p s), length (s_r s), s_tstep s, s_nsteps s, s_As s, s_ds s)) (snd x).
Ltac samew := apply i_set; intros [m o] [m' o'] Hx E; cbn [fst snd] in *; fin; assumption.
Lemma set2_length {A} (rows : list (list A)) t id v rows' : set2 rows t id v = Ok rows' -> length rows' = length rows.
Proof. unfold set2. intros E. fin. apply upd_length. Qed.
Lemma me_upd_well v id f : inv (fun x => meas x = v) (upd_well id f).
Proof. unfold upd_well. apply i_set; intros [m o] [m' o'] Hx E. fin. reflexivity. Qed.
Lemma me_log v id : inv (fun x => meas x = v) (log_pressure id).
Proof. unfold log_pressure. apply i_set; intros [m o] [m' o'] Hx E. fin. reflexivity. Qed.
Lemma me_tail v id : inv (fun x => meas x = v) (set_well_tail id).
Proof. unfold set_well_tail. isplit; auto using me_upd_well, me_log. Qed.
Lemma me_set_well v cell q pwf r s : inv (fun x => meas x = v) (set_well cell q pwf r s).
Proof.
  unfold set_well, assert_inside. destruct cell as [id|]; [|apply i_read]. isplit; auto using me_upd_well, me_log, me_tail.
  apply i_set. intros [m o] [m' o'] Hx E. cbn [fst snd] in *. rewrite <- Hx. clear Hx. destruct (din id (b_wells m)); inversion E; reflexivity.
Qed.
Lemma me_set_well_obj v w cell : inv (fun x => meas x = v) (set_well_obj w cell).
Proof.
  unfold set_well_obj, assert_inside. isplit; auto using me_tail. apply i_set; intros [m o] [m' o'] Hx E. fin. reflexivity.
Qed.
Lemma me_put_p v id w : inv (fun x => meas x = v) (put_pressure id w).
Proof.
  unfold put_pressure. apply i_set. intros [m o] [m' o'] Hx E. cbn [fst snd] in *. rewrite <- Hx. clear Hx.
  destruct o as [s|]; [destruct (s_tstep s =? 0)|]; fin; try reflexivity.
  apply set2_length in Heqr. unfold meas. cbn [snd option_map]. destruct s; cbn in *. now rewrite Heqr.
Qed.
Lemma me_put_q v id w : inv (fun x => meas x = v) (put_rate id w).
Proof.
  unfold put_rate. apply i_set. intros [m o] [m' o'] Hx E. cbn [fst snd] in *. rewrite <- Hx. clear Hx.
  destruct o as [s|]; [destruct (s_tstep s =? 0)|]; fin; try reflexivity.
  apply set2_length in Heqr. unfold meas. cbn [snd option_map]. destruct s; cbn in *. now rewrite Heqr.
Qed.
Lemma me_boundary v id c w : inv (fun x => meas x = v) (set_boundary id c w).
Proof. unfold set_boundary. isplit; auto using me_put_p, me_put_q. Qed.
Lemma me_boundaries v bd : inv (fun x => meas x = v) (set_boundaries bd).
Proof.
  unfold set_boundaries. isplit; try (apply i_set; intros [m o] [m' o'] Hx E; fin; reflexivity). destruct a1 as [id [c w]]. isplit. apply me_boundary.
Qed.
Lemma me_all v c w : inv (fun x => meas x = v) (set_all_boundaries c w).
Proof. unfold set_all_boundaries. isplit. apply me_boundary. Qed.
Lemma me_exec c x : ~ stepping c -> c <> Compile -> meas (fst (exec c x)) = meas x.
Proof.
  intros N C. destruct c; cbn [exec stepping] in *; try tauto;
    [apply me_set_well|apply me_set_well_obj|apply me_boundary|apply me_boundaries|apply me_all]; reflexivity.
Qed.

(** Rows, counters and stored systems of a solution. *)
Definition counted (strict : bool) (x : ws F) : Prop := forall s, snd x = Some s ->
  shaped s /\ length (s_As s) = length (s_ds s) /\ s_tstep s <= length (s_As s) /\ (strict = true -> S (s_tstep s) = s_nsteps s).

Lemma meas_counted b x y : meas x = meas y -> counted b x -> counted b y.
Proof.
  intros E H s Es. unfold meas in E. rewrite Es in E. cbn [option_map] in E. destruct (snd x) as [s0|] eqn:E0; [|discriminate]. cbn [option_map] in E.
  specialize (H s0 E0). inversion E as [[H1 H2 H3 H4 H5 H6]]. unfold shaped in *. rewrite H1, H2, H3, H4, H5, H6 in H. rewrite ?H3, ?H4, ?H5, ?H6. exact H.
Qed.
Lemma tailed_counted p row r Ad n c bd up (X : st F) : tailed (p ++ [row]) r Ad n c bd up X -> length p = length r ->
  shaped (snd X) /\ s_tstep (snd X) = length r /\ s_As (snd X) = fst Ad /\ s_ds (snd X) = snd Ad /\ s_nsteps (snd X) = n.
Proof.
  intros (H1 & (rr & H2 & _) & H3 & H4 & H5 & _) L. unfold shaped. rewrite H1, H2, !app_length, H3. cbn [length].
  inversion H4 as [[HA Hd]]. cbn [fst snd]. repeat split; auto; lia.
Qed.
Lemma solve_counted slv sc fuel sparse o m s X : shaped s -> length (s_As s) = length (s_ds s) -> s_tstep s <= length (s_As s) ->
  solve slv sc fuel sparse o (m, s) = (X, Ok tt) ->
  shaped (snd X) /\ length (s_As (snd X)) = length (s_ds (snd X)) /\ s_tstep (snd X) <= length (s_As (snd X)) /\
  s_nsteps (snd X) = s_nsteps s /\ s_tstep (snd X) = s_tstep s + (if o_upd o then 1 else 0).
Proof.
  intros L1 L2 L3 E. destruct (o_upd o) eqn:U.
  - destruct (solve_ok slv sc _ _ _ _ _ _ L1 U E) as (n & (k & A & d & p & row & l & l' & _ & _ & _ & N1 & N2 & T) & _).
    destruct L1 as (La & Lb). destruct (tailed_counted _ _ _ _ _ _ _ _ _ T) as (T1 & T2 & T3 & T4 & T5); [congruence|].
    rewrite T2, T3, T4, T5. cbn [fst snd]. rewrite !app_length, N1, N2. cbn [length]. repeat split; try apply T1; lia.
  - destruct fuel; cbn [solve] in E; [discriminate|]. apply mbind_ok in E as (Ad & X1 & E1 & E). apply mbind_ok in E as (p & X2 & E2 & E).
    apply mread_ok in E2 as (-> & E2). rewrite U in E. inversion E; subst X. pose proof (system_pub sc o (m, s)) as P. rewrite E1 in P. cbn [fst snd] in P.
    unfold pub in P. inversion P as [[P1 P2 P3 P4 P5 P6 P7 P8 P9 P10 P11 P12 P13 P14 P15]]. cbn [fst snd] in *. unfold shaped in *.
    rewrite P8, P9, P10, P11, P12, P13. repeat split; try tauto; try lia.
Qed.
Lemma loop_counted slv sc n fuel sparse o : o_upd o = true -> forall m s X, shaped s -> length (s_As s) = length (s_ds s) -> s_tstep s <= length (s_As s) ->
  run_loop slv sc n fuel sparse o (m, s) = (X, Ok tt) ->
  shaped (snd X) /\ length (s_As (snd X)) = length (s_ds (snd X)) /\ s_tstep (snd X) <= length (s_As (snd X)) /\
  s_nsteps (snd X) = s_nsteps s /\ s_tstep (snd X) = s_tstep s + n.
Proof.
  intros U. induction n as [|n IH]; intros m s X L1 L2 L3 E; cbn [run_loop] in E.
  - inversion E; subst. cbn [fst snd]. repeat split; try apply L1; auto; lia.
  - apply mbind_ok in E as ([] & [m1 s1] & E1 & E). destruct (solve_counted _ _ _ _ _ _ _ _ L1 L2 L3 E1) as (S1 & S2 & S3 & S4 & S5). cbn [fst snd] in *.
    rewrite U in S5. destruct (IH _ _ _ S1 S2 S3 E) as (R1 & R2 & R3 & R4 & R5). repeat split; try apply R1; auto; try congruence; lia.
Qed.
Lemma run_counted slv sc n fuel sparse thr vect mb pr iso m s X : shaped s -> length (s_As s) = length (s_ds s) -> s_tstep s <= length (s_As s) ->
  run slv sc n fuel sparse thr vect mb pr iso (m, s) = (X, Ok tt) ->
  shaped (snd X) /\ length (s_As (snd X)) = length (s_ds (snd X)) /\ s_tstep (snd X) <= length (s_As (snd X)) /\
  s_nsteps (snd X) = s_nsteps s + n /\ s_tstep (snd X) = s_tstep s + n.
Proof.
  intros L1 L2 L3 E. unfold run in E. apply mbind_ok in E as ([] & X1 & E1 & E). apply mset_ok in E1. inversion E1; subst X1; clear E1.
  apply mbind_ok in E as ([] & X2 & E2 & E). cbn [fst snd] in *.
  assert (X2 = X) as ->. { destruct mb; cbn [mwhen] in E; [apply mread_ok in E; now destruct E|now inversion E]. }
  assert (H := fun a b c => loop_counted slv sc n fuel sparse (mkOpts thr vect mb true pr iso) eq_refl _ _ _ a b c E2). destruct s; cbn in *. apply H; auto.
Qed.
Lemma ok_counted b l : forall x, counted b x -> (b = true -> Forall no_solve l) -> all_ok x l -> counted b (after x l).
Proof.
  induction l as [|c l IH]; intros x H N A; cbn [after fold_left]; auto. destruct A as (A1 & A2). apply IH; auto.
  2:{ intros B. specialize (N B). now inversion N. }
  destruct x as [m o]. clear IH A2. destruct c; try (eapply meas_counted; [symmetry; apply me_exec; cbn; [tauto|discriminate]|exact H]).
  - intros s E. inversion E; subst. unfold fdm_new, shaped; cbn. auto.
  - intros s' E. cbn [exec] in *. unfold of_solution in *. cbn [fst snd] in *. destruct o as [s|]; [|discriminate].
    destruct (solve slv sc fuel sparse o0 (m, s)) as [Y r] eqn:ES. cbn [fst snd] in *. subst r. inversion E; subst s'.
    destruct (H s eq_refl) as (H1 & H2 & H3 & H4). destruct (solve_counted _ _ _ _ _ _ _ _ H1 H2 H3 ES) as (S1 & S2 & S3 & S4 & S5).
    split; auto. split; auto. split; auto. intros B. specialize (N B). inversion N as [|? ? N1 N2]. destruct N1.
  - intros s' E. cbn [exec] in *. unfold of_solution in *. cbn [fst snd] in *. destruct o as [s|]; [|discriminate].
    destruct (run slv sc n fuel sparse thr vect mb pr iso (m, s)) as [Y r] eqn:ES. cbn [fst snd] in *. subst r. inversion E; subst s'.
    destruct (H s eq_refl) as (H1 & H2 & H3 & H4). destruct (run_counted _ _ _ _ _ _ _ _ _ _ _ _ _ H1 H2 H3 ES) as (S1 & S2 & S3 & S4 & S5).
    split; auto. split; auto. split; auto. intros B. specialize (H4 B). lia.
Qed.
End hist.
