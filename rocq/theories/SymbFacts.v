(** The symbolic system in canonical form: the equation of a cell says that what
    flows in equals what is taken up. *)
From Coq Require Import String ZArith Bool Arith List Lia Reals Lra.
From Verif Require Import Prelude PreludeFacts Num GridModel GridSpec GridProofs GeoModel GeoSpec GeoProofs
  PropModel PropSpec MatrixProofs BlackOilModel FdmModel MonadFacts SumFacts ModelSpec ModelFacts VectFacts FaceFacts AsmFacts BalanceSpec CanonFacts LinFacts NbrFacts.
Import ListNotations.
Close Scope R_scope.
Open Scope nat_scope.

(** ** Sums of terms *)
Definition lsum (l : list (lin R)) : lin R := fold_left ladd l (lconst (Some n0)).
Definition cst (a : lin R) : R := match l0 a with Some c => c | None => 0%R end.
Lemma lsum_acc (l : list (lin R)) : forall b, lc (fold_left ladd l b) = (lc b ++ flat_map (fun a => lc a) l)%list /\
  (forall c, l0 (fold_left ladd l b) = Some c -> exists cb, l0 b = Some cb /\ (forall a, In a l -> l0 a <> None) /\ c = (cb + sumR (map cst l))%R).
Proof.
  induction l as [|a l IH]; intros b; cbn [fold_left flat_map].
  - split; [now rewrite app_nil_r|]. intros c E. exists c. split; auto. split; [intros ? []|]. cbn. lra.
  - destruct (IH (ladd b a)) as (H1 & H2). split.
    + rewrite H1. cbn [ladd lc]. now rewrite app_assoc.
    + intros c E. destruct (H2 c E) as (cb & E1 & E2 & E3). cbn [ladd l0] in E1. destruct (l0 b) as [b0|]; [|discriminate]. destruct (l0 a) as [a0|] eqn:Ea; [|discriminate].
      exists b0. split; auto. split.
      * intros a' [<-|I]; [congruence|auto].
      * cbn [map sumR]. unfold cst at 1. rewrite Ea. cbn in E1. inversion E1; subst. lra.
Qed.
Lemma lsum_coef l j : coef (lc (lsum l)) j = sumR (map (fun a => coef (lc a) j) l).
Proof.
  unfold lsum. rewrite (proj1 (lsum_acc l _)). cbn [lconst lc app]. induction l as [|a l IH]; cbn [flat_map map sumR]; [reflexivity|]. now rewrite coef_app, IH.
Qed.
Lemma lsum_val l c v : l0 (lsum l) = Some c ->
  (forall a, In a l -> l0 a <> None) /\ (c + dot (lc (lsum l)) v = sumR (map (fun a => cst a + dot (lc a) v) l))%R.
Proof.
  intros E. destruct (lsum_acc l (lconst (Some n0))) as (H1 & H2). destruct (H2 c E) as (cb & E1 & E2 & ->). cbn in E1. inversion E1; subst cb. split; auto.
  rewrite sumR_plus. unfold lsum. rewrite H1. cbn [lconst lc app].
  assert (D : dot (flat_map (fun a => lc a) l) v = sumR (map (fun a => dot (lc a) v) l)).
  { clear. induction l as [|a l IH]; cbn [flat_map map sumR]; [reflexivity|]. now rewrite dot_app, IH. }
  rewrite D. lra.
Qed.
Lemma rmapM_map {A B} (f : A -> res B) (h : A -> B) l ps : rmapM f l = Ok ps -> (forall a b, In a l -> f a = Ok b -> b = h a) -> ps = map h l.
Proof.
  revert ps. induction l as [|a l IH]; intros ps E H; cbn [rmapM] in E; [now inversion E|].
  destruct (f a) as [b|] eqn:Ea; cbn [rbind] in E; [|discriminate]. destruct (rmapM f l) as [bs|] eqn:El; cbn [rbind] in E; [|discriminate]. inversion E; subst. cbn [map]. f_equal.
  - apply H; auto. now left.
  - apply IH; auto. intros; apply H; auto. now right.
Qed.

(** ** The terms of a cell *)
Definition nlin (m : bo R) (id j : Z) : lin R :=
  mkLin (Some (- (tr m id j * (b_g m * (height (m := m) j - height (m := m) id))))%R) [(j, tr m id j); (id, (- tr m id j)%R)].
Definition blin (m : bo R) (id j : Z) : lin R :=
  match dget j (b_bdict m) with
  | Some (c, v) => if smem (lower c) PRESS
     then mkLin (Some (tr m id j * 2 * (v - b_g m * (height (m := m) j - height (m := m) id)))%R) [(id, (- (tr m id j * 2))%R)]
     else lconst (Some v)
  | None => lconst (Some 0%R)
  end.
Definition wlin (m : bo R) (id : Z) : res (list (lin R)) :=
  match dget id (b_wells m) with Some w => let* t := w_term m id w in Ok [t] | None => Ok [] end.
Definition new_f (m : bo R) (id : Z) : res (list (lin R)) :=
  let* _ := passert (zmem id (b_ids m)) in
  let* nb := get_cell_neighbors (bgrid m) id false in
  let* bn := get_cell_boundaries (bgrid m) id in
  let* T := get_cell_trans m id true in
  let* ns := rmapM (fun idn => let* t := dgetE idn T in n_term m id idn t) (dirs_list nb) in
  let* bs := rmapM (fun idb => let* t := dgetE idb T in b_term m id idb t) (dirs_list bn) in
  let* w := wlin m id in
  Ok (ns ++ bs ++ w)%list.
Lemma new_terms_eq m s id : new_terms (m, s) id = let* f := new_f m id in let* a := a_term m s id in Ok (mkTerms f a).
Proof.
  unfold new_terms, new_f, wlin. destruct (passert _); cbn [rbind]; auto. destruct (get_cell_neighbors _ _ _); cbn [rbind]; auto.
  destruct (get_cell_boundaries _ _); cbn [rbind]; auto. destruct (get_cell_trans _ _ _); cbn [rbind]; auto.
  destruct (rmapM _ _); cbn [rbind]; auto. destruct (rmapM _ _); cbn [rbind]; auto. destruct (dget id (b_wells m)); cbn [rbind]; auto.
  destruct (w_term _ _ _); reflexivity.
Qed.

(** What flows into a cell, and what it takes up, at pressures [v]. *)
Definition bsrc (m : bo R) (id j : Z) (pv : R) : R :=
  match dget j (b_bdict m) with
  | Some (c, v) => if smem (lower c) PRESS then (tr m id j * 2 * (v - pv - b_g m * (height (m := m) j - height (m := m) id)))%R else v
  | None => 0%R
  end.
Definition wsrc (m : bo R) (id : Z) (pv : R) : R :=
  match dget id (b_wells m) with
  | Some w => match w_mode m w with Ok (inl (Some q)) => q | Ok (inr (J, Some p)) => (J * (pv - p))%R | _ => 0%R end
  | None => 0%R
  end.
Definition inflow (m : bo R) (id : Z) (v : Z -> R) : R :=
  (sumR (map (fun j => tr m id j * ((v j - v id) - b_g m * (height (m := m) j - height (m := m) id))) (nbs m id)) +
   sumR (map (fun j => bsrc m id j (v id)) (bns m id)) + wsrc m id (v id))%R.
Definition oldv (s : fs R) (id : Z) : R := match at2 (s_p s) (s_tstep s) id with Ok (Some v) => v | _ => 0%R end.
Definition rhs (m : bo R) (id : Z) : R := nth (Z.to_nat id) (b_RHS m) 0%R.
Definition uptake (m : bo R) (s : fs R) (id : Z) (v : Z -> R) : R := if b_cmp m then (rhs m id * (v id - oldv s id))%R else 0%R.

Section symb.
Context {m : bo R} {x y z : nat} {u : bool} {dx dy dz : dinput R} (K : model m x y z u dx dy dz).
Notation N := (length (b_ids m)).

Lemma new_f_ok id f : In id (b_ids m) -> new_f m id = Ok f ->
  exists w, wlin m id = Ok w /\ f = (map (nlin m id) (nbs m id) ++ map (blin m id) (bns m id) ++ w)%list.
Proof.
  intros H E. unfold new_f in E. destruct (passert _); cbn [rbind] in E; [|discriminate].
  destruct (get_cell_neighbors _ _ _) as [nb|] eqn:En; cbn [rbind] in E; [|discriminate]. destruct (get_cell_boundaries _ _) as [bn|] eqn:Eb; cbn [rbind] in E; [|discriminate].
  destruct (get_cell_trans m id true) as [T|] eqn:ET; cbn [rbind] in E; [|discriminate].
  assert (Nn : nbs m id = dirs_list nb) by (unfold nbs; now rewrite En). assert (Nb : bns m id = dirs_list bn) by (unfold bns; now rewrite Eb).
  assert (G : forall j, In j (nbs m id ++ bns m id)%list -> dget j T = Some (tr m id j)).
  { intros j Hj. destruct (tr_get K id j H Hj) as (T' & E' & D). rewrite ET in E'. now inversion E'; subst. }
  destruct (rmapM _ (dirs_list nb)) as [ns|] eqn:E1; cbn [rbind] in E; [|discriminate]. destruct (rmapM _ (dirs_list bn)) as [bs|] eqn:E2; cbn [rbind] in E; [|discriminate].
  destruct (wlin m id) as [w|] eqn:Ew; cbn [rbind] in E; [|discriminate]. inversion E; subst f; clear E. exists w. split; auto. rewrite Nn, Nb. f_equal; [|f_equal].
  - apply (rmapM_map _ (nlin m id) _ _ E1). intros j b Hj E. unfold dgetE in E. rewrite <- Nn in Hj. rewrite (G j) in E by (apply in_or_app; auto). cbn [rbind] in E.
    unfold n_term in E. rewrite (dz_id K id j) in E by (auto; apply in_or_app; auto). cbn [rbind] in E. now inversion E.
  - apply (rmapM_map _ (blin m id) _ _ E2). intros j b Hj E. unfold dgetE in E. rewrite <- Nb in Hj. rewrite (G j) in E by (apply in_or_app; auto). cbn [rbind] in E.
    unfold b_term in E. unfold blin. rewrite (dz_id K id j) in E by (auto; apply in_or_app; auto). destruct (dget j (b_bdict m)) as [[c v]|]; [|now inversion E].
    destruct (smem _ _); cbn [rbind] in E; inversion E; reflexivity.
Qed.
Lemma w_val id w v : wlin m id = Ok w -> (forall a, In a w -> l0 a <> None) ->
  sumR (map (fun a => cst a + dot (lc a) v)%R w) = wsrc m id (v id).
Proof.
  unfold wlin, wsrc. destruct (dget id (b_wells m)) as [wl|]; [|intros E _; now inversion E]. unfold w_term. destruct (w_mode m wl) as [[q|[J p]]|]; cbn [rbind]; try discriminate; intros E H; inversion E; subst; clear E; specialize (H _ (or_introl eq_refl)); cbn [map sumR].
  - destruct q as [q|]; [|now destruct H]. unfold cst, dot. cbn. lra.
  - destruct p as [p|]; [|now destruct H]. unfold cst, dot. cbn. lra.
Qed.
Lemma new_f_val id f c v : In id (b_ids m) -> new_f m id = Ok f -> l0 (lsum f) = Some c -> (c + dot (lc (lsum f)) v = inflow m id v)%R.
Proof.
  intros H E El. destruct (new_f_ok id f H E) as (w & Ew & Ef). destruct (lsum_val f c v El) as (Nn & ->). rewrite Ef in Nn |- *. rewrite !map_app, !sumR_app.
  rewrite (w_val id w v Ew) by (intros a Ia; apply Nn; apply in_or_app; right; apply in_or_app; auto).
  unfold inflow. rewrite !map_map. rewrite <- Rplus_assoc. f_equal. f_equal; apply sumR_ext; intros j Hj.
  - unfold nlin, cst, dot. cbn. lra.
  - unfold blin, bsrc. destruct (dget j (b_bdict m)) as [[c' v']|]; [destruct (smem _ _)|]; unfold cst, dot; cbn; lra.
Qed.
Lemma a_val s id a ca v : In id (b_ids m) -> a_term m s id = Ok a -> l0 a = Some ca ->
  (ca + dot (lc a) v = uptake m s id v)%R /\ (forall j, coef (lc a) j = if Z.eqb id j then (if b_cmp m then rhs m id else 0%R) else 0%R) /\
  (b_cmp m = true -> at2 (s_p s) (s_tstep s) id = Ok (Some (oldv s id))).
Proof.
  unfold a_term, uptake. intros H E E0. destruct (b_cmp m).
  - rewrite (pyget_id K _ 0%R) in E by (auto; apply K). cbn [rbind] in E. fold (rhs m id) in E.
    destruct (at2 (s_p s) (s_tstep s) id) as [[p|]|] eqn:Ep; cbn [rbind] in E; inversion E; subst; cbn in E0; [|discriminate]. inversion E0; subst.
    unfold oldv. rewrite Ep. split; [unfold dot; cbn; lra|]. split; [|auto]. intros j. cbn [lc]. rewrite coef_cons. unfold coef. cbn. destruct (Z.eqb id j); lra.
  - inversion E; subst. cbn in E0. inversion E0; subst. split; [unfold dot; cbn; lra|]. split; [|discriminate]. intros j. unfold coef. cbn. destruct (Z.eqb id j); reflexivity.
Qed.

(** The columns of a row: the cell and its neighbours. *)
Hypothesis Pr : productive m.
Lemma sumR_one_sided (l : list R) : (forall r, In r l -> (r <= 0)%R) -> (sumR l <= 0)%R.
Proof. induction l as [|a l IH]; intros H; cbn; [lra|]. specialize (IH (fun r I => H r (or_intror I))). specialize (H a (or_introl eq_refl)). lra. Qed.
Lemma n_coef id j : In id (b_ids m) -> j <> id -> sumR (map (fun a => coef (lc a) j) (map (nlin m id) (nbs m id))) = if zmem j (nbs m id) then tr m id j else 0%R.
Proof.
  intros H Ne. rewrite map_map. rewrite (sumR_ext _ (fun k => if Z.eqb j k then tr m id k else 0%R)).
  - destruct (zmem j (nbs m id)) eqn:M.
    + apply zmem_In in M. apply (sum_pick (nbs m id) j (tr m id)); auto. now apply (nodup_nbs K).
    + apply zmem_false in M. rewrite (sumR_ext _ (fun _ => 0%R)); [clear; induction (nbs m id); cbn; lra|]. intros k Ik. destruct (Z.eqb_spec j k); [subst; contradiction|reflexivity].
  - intros k Ik. unfold nlin. cbn [lc]. rewrite !coef_cons. unfold coef. cbn [filter map sumR]. rewrite (Z.eqb_sym j k). destruct (Z.eqb_spec id j); [congruence|]. destruct (Z.eqb k j); lra.
Qed.
Lemma b_coef id j k : coef (lc (blin m id k)) j = if Z.eqb id j then coef (lc (blin m id k)) id else 0%R.
Proof.
  unfold blin. destruct (dget k (b_bdict m)) as [[c v]|]; [destruct (smem _ _)|]; cbn [lc lconst]; try (unfold coef; cbn; destruct (Z.eqb id j); reflexivity).
  rewrite !coef_cons. unfold coef. cbn [filter map sumR]. rewrite Z.eqb_refl. destruct (Z.eqb id j); lra.
Qed.
Lemma b_coef_neg id k : In id (b_ids m) -> In k (bns m id) -> (coef (lc (blin m id k)) id <= 0)%R.
Proof.
  intros H J. pose proof (tr_bn K id k H J). unfold blin. destruct (dget k (b_bdict m)) as [[c v]|]; [destruct (smem _ _)|]; cbn [lc lconst]; try (unfold coef; cbn; lra).
  rewrite coef_cons. unfold coef. cbn [filter map sumR]. rewrite Z.eqb_refl. lra.
Qed.
Lemma w_coef id w : wlin m id = Ok w -> (forall a j, In a w -> j <> id -> coef (lc a) j = 0%R) /\ (forall a, In a w -> (coef (lc a) id <= 0)%R).
Proof.
  unfold wlin. destruct (dget id (b_wells m)) as [wl|] eqn:Ew; [|intros E; inversion E; split; intros; contradiction]. unfold w_term. unfold w_mode.
  destruct (if has (w_q wl) then con_is wl "q" else Ok false) as [[]|]; cbn [rbind]; try discriminate.
  - destruct (keyE (w_q wl)); cbn [rbind]; [|discriminate]. intros E; inversion E; subst. split; [intros a' j [<-|[]] _|intros a' [<-|[]]]; unfold coef; cbn; lra.
  - destruct (keyE (w_G wl)) as [G|] eqn:EG; cbn [rbind]; [|discriminate]. destruct (keyE (w_pwf wl)); cbn [rbind]; [|discriminate]. intros E; inversion E; subst.
    assert (P : (0 <= G)%R). { apply (Pr id wl G Ew). unfold keyE in EG. destruct (w_G wl); [now inversion EG|discriminate]. }
    assert (Q : (0 < b_B m * b_mu m)%R) by (apply Rmult_lt_0_compat; apply K).
    split; [intros a' j [<-|[]] Ne|intros a' [<-|[]]]; cbn [lc]; rewrite coef_cons; unfold coef; cbn [filter map sumR].
    + destruct (Z.eqb_spec id j); [congruence|lra].
    + rewrite Z.eqb_refl. cbn. assert (0 <= G / (b_B m * b_mu m))%R by (apply Rmult_le_pos; auto; left; now apply Rinv_0_lt_compat). unfold Rdiv in *. lra.
Qed.
Lemma row_cols s id f a ca ks : In id (b_ids m) -> new_f m id = Ok f -> a_term m s id = Ok a -> l0 a = Some ca -> ks <> [] ->
  (forall j, In j (map fst ks) <-> (coef (lc (lsum f)) j - coef (lc a) j <> 0)%R) ->
  forall j, In j (map fst (ks : list (Z * R))) <-> j = id \/ In j (nbs m id).
Proof.
  intros H Ef Ea E0 Nk C. destruct (new_f_ok id f H Ef) as (w & Ew & Eq). destruct (a_val s id a ca (fun _ => 0%R) H Ea E0) as (_ & Ca & _).
  destruct (w_coef id w Ew) as (Wo & Wi).
  assert (Z0 : forall l : list (lin R), sumR (map (fun _ : lin R => 0%R) l) = 0%R) by (induction l; cbn; lra).
  assert (Off : forall j, j <> id -> (coef (lc (lsum f)) j - coef (lc a) j)%R = if zmem j (nbs m id) then tr m id j else 0%R).
  { intros j Ne. rewrite Ca. destruct (Z.eqb_spec id j); [congruence|]. rewrite lsum_coef, Eq, !map_app, !sumR_app. rewrite (n_coef id j) by auto.
    rewrite (sumR_ext _ (fun _ => 0%R) w) by (intros; now apply Wo). rewrite Z0.
    rewrite (sumR_ext _ (fun _ => 0%R) (map (blin m id) (bns m id))); [rewrite Z0; lra|]. intros b Ib. apply in_map_iff in Ib as (k & <- & Ik). rewrite b_coef. destruct (Z.eqb_spec id j); congruence. }
  assert (Nb : forall j, In j (nbs m id) -> In j (map fst ks)).
  { intros j J. apply C. destruct (nbs_in K id j H J) as (_ & _ & Ne). rewrite Off by auto. pose proof J as J'. apply zmem_In in J'. rewrite J'. destruct (tr_nb K id j H J). lra. }
  assert (Only : forall j, In j (map fst ks) -> j = id \/ In j (nbs m id)).
  { intros j J. destruct (Z.eq_dec j id) as [|Ne]; [now left|right]. apply C in J. rewrite Off in J by auto. destruct (zmem j (nbs m id)) eqn:M; [now apply zmem_In|lra]. }
  intros j. split; [apply Only|]. intros [->|J]; [|now apply Nb]. destruct (nbs m id) as [|j0 l] eqn:El.
  - destruct ks as [|[k c] ks]; [congruence|]. destruct (Only k (or_introl eq_refl)) as [->|[]]. now left.
  - apply C. rewrite Ca, Z.eqb_refl. rewrite lsum_coef, Eq, !map_app, !sumR_app.
    assert (B1 : (sumR (map (fun a => coef (lc a) id) w) <= 0)%R) by (apply sumR_one_sided; intros r Ir; apply in_map_iff in Ir as (b & <- & Ib); now apply Wi).
    assert (B2 : (sumR (map (fun a => coef (lc a) id) (map (blin m id) (bns m id))) <= 0)%R).
    { apply sumR_one_sided. intros r Ir. apply in_map_iff in Ir as (b & <- & Ib). apply in_map_iff in Ib as (k & <- & Ik). now apply b_coef_neg. }
    assert (B3 : (0 <= if b_cmp m then rhs m id else 0)%R).
    { destruct (cell_i_pos K id H) as (p & Hp & Hn & _). pose proof (acc_sign K p Hp) as S. rewrite (acc_ok K p id Hn) in S. fold (rhs m id) in S. destruct (b_cmp m); lra. }
    assert (B4 : (sumR (map (fun a => coef (lc a) id) (map (nlin m id) (nbs m id))) < 0)%R).
    { rewrite map_map. assert (G : forall k, In k (nbs m id) -> (coef (lc (nlin m id k)) id < 0)%R).
      { intros k Ik. destruct (tr_nb K id k H Ik) as (P & _). destruct (nbs_in K id k H Ik) as (_ & _ & Ne). unfold nlin. cbn [lc]. rewrite !coef_cons. unfold coef. cbn [filter map sumR].
        rewrite Z.eqb_refl. destruct (Z.eqb_spec k id); [congruence|]. lra. }
      rewrite El in G |- *. cbn [map sumR]. assert ((sumR (map (fun k => coef (lc (nlin m id k)) id) l) <= 0)%R).
      { apply sumR_one_sided. intros r Ir. apply in_map_iff in Ir as (k & <- & Ik). left. apply G. now right. }
      specialize (G j0 (or_introl eq_refl)). lra. }
    rewrite El in B4. lra.
Qed.

(** ** Cached terms *)
Definition TI (m' : bo R) : Prop := forall id t, dget id (b_terms m') = Some t ->
  new_f m id = Ok (t_f t) /\ (b_cmp m = false -> t_a t = lconst (Some n0)).
Definition like (m' : bo R) : Prop := exists T, m' = set_terms T m /\ TI m'.
Lemma like_terms m' id : like m' -> (forall f t, f = t_f t -> new_f m id = Ok f -> (b_cmp m = false -> t_a t = lconst (Some n0)) -> like (set_terms (dset id t (b_terms m')) m')).
Proof.
  intros (T & -> & I) f t -> E Ea. eexists. split; [destruct m; reflexivity|]. intros j t' D.
  assert (D' : dget j (dset id t (b_terms (set_terms T m))) = Some t') by (destruct m; exact D). clear D. rewrite dget_dset_z in D'.
  destruct (Z.eqb_spec j id) as [->|]; [inversion D'; subst; auto|]. now apply I.
Qed.
Lemma cell_eq_ok sc m' s id X e : like m' -> In id (b_ids m) -> get_cell_eq sc id (m', s) = (X, Ok e) ->
  exists f a, new_f m id = Ok f /\ a_term m s id = Ok a /\ like (fst X) /\ snd X = s /\ cell_row (sc id) (lsum f) a = Ok e.
Proof.
  intros Lk H E. unfold get_cell_eq in E. apply mbind_ok in E as (t & X1 & E1 & E). apply mread_ok in E1 as (-> & E1). cbn [fst snd] in E1.
  apply mbind_ok in E as ([] & X2 & E2 & E). apply mset_ok in E2. cbn [fst snd] in E2. inversion E2; subst X2; clear E2. apply mread_ok in E as (-> & E).
  assert (Q : new_f m id = Ok (t_f t) /\ a_term m s id = Ok (t_a t)).
  { pose proof Lk as (T & Em & I). destruct (dget id (b_terms m')) as [t0|] eqn:Ed.
    - destruct (I id t0 Ed) as (If & Ia).
      assert (Eo : old_terms (m', s) id t0 = old_terms (m, s) id t0) by (rewrite Em; destruct m; reflexivity). rewrite Eo in E1. clear Eo. unfold old_terms in E1.
      assert (Ff : forall f, match dget id (b_wells m) with Some w => let* c := con_is w "pwf" in if c then let* wt := w_term m id w in replace_last (t_f t0) wt else Ok (t_f t0) | None => Ok (t_f t0) end = Ok f -> f = t_f t0).
      { intros f Ef. destruct (dget id (b_wells m)) as [w|] eqn:Ew; [|now inversion Ef]. destruct (con_is w "pwf") as [[]|]; cbn [rbind] in Ef; [|now inversion Ef|discriminate].
        destruct (w_term m id w) as [wt|] eqn:Ewt; cbn [rbind] in Ef; [|discriminate]. destruct (new_f_ok id _ H If) as (w' & Ew' & Eq). unfold wlin in Ew'. rewrite Ew, Ewt in Ew'. cbn [rbind] in Ew'. inversion Ew'; subst w'.
        rewrite Eq in Ef |- *. rewrite app_assoc in Ef |- *. unfold replace_last in Ef. destruct (_ ++ [wt])%list eqn:El; [now apply app_eq_nil in El as (_ & ?)|]. rewrite <- El in Ef |- *. rewrite removelast_last in Ef. now inversion Ef. }
      match type of E1 with (let* f := ?c in _) = _ => destruct c as [f|]; cbn [rbind] in E1; [|discriminate] end. specialize (Ff f eq_refl). subst f.
      destruct (b_cmp m) eqn:Ec.
      + destruct (a_term m s id) as [a|]; cbn [rbind] in E1; [|discriminate]. inversion E1; subst. auto.
      + cbn [rbind] in E1. inversion E1; subst. cbn [t_f t_a]. split; auto. unfold a_term. rewrite Ec. now rewrite Ia.
    - assert (Eo : new_terms (m', s) id = new_terms (m, s) id) by (rewrite Em; destruct m; reflexivity). rewrite Eo, new_terms_eq in E1.
      destruct (new_f m id); cbn [rbind] in E1; [|discriminate]. destruct (a_term m s id); cbn [rbind] in E1; [|discriminate]. inversion E1; subst. auto. }
  destruct Q as (Q1 & Q2). exists (t_f t), (t_a t). split; auto. split; auto. split; [|split; auto]. cbn [fst]. eapply (like_terms m' id Lk); eauto.
  intros Ec. unfold a_term in Q2. rewrite Ec in Q2. now inversion Q2.
Qed.
Lemma loop_ok sc s ids : forall m' X es, like m' -> (forall id, In id ids -> In id (b_ids m)) -> cells_eq_loop sc ids (m', s) = (X, Ok es) ->
  like (fst X) /\ snd X = s /\ map fst es = ids /\
  forall id e, In (id, e) es -> exists f a, new_f m id = Ok f /\ a_term m s id = Ok a /\ cell_row (sc id) (lsum f) a = Ok e.
Proof.
  induction ids as [|i ids IH]; intros m' X es Lk H E; cbn [cells_eq_loop] in E.
  - inversion E; subst. split; auto. split; auto. split; auto. intros ? ? [].
  - apply mbind_ok in E as (e & X1 & E1 & E). apply mbind_ok in E as (es' & X2 & E2 & E). inversion E; subst X2 es; clear E.
    destruct (cell_eq_ok sc m' s i X1 e Lk (H i (or_introl eq_refl)) E1) as (f & a & Q1 & Q2 & Q3 & Q4 & Q5). destruct X1 as [m1 s1]. cbn [fst snd] in *. subst s1.
    destruct (IH m1 X es' Q3 (fun id I => H id (or_intror I)) E2) as (R1 & R2 & R3 & R4). split; auto. split; auto. split; [cbn; congruence|].
    intros id e' [I|I]; [inversion I; subst; eauto|eauto].
Qed.

(** ** Rows of the system *)
Definition banded (A : @mat R) : Prop := msize A = N /\ forall p q, p < N -> q < N -> p <> q -> scoup m p q = 0%R -> ment A p q = 0%R.
Definition SI (s : fs R) : Prop := s_tstep s = 0 \/ s_sym s = None \/ exists A d, s_sym s = Some (A, d) /\ banded A /\ length d = N.
Lemma scoup_nb p q id j : nth_error (b_ids m) p = Some id -> nth_error (b_ids m) q = Some j -> (scoup m p q <> 0%R <-> In j (nbs m id)).
Proof.
  intros E E'. unfold scoup. rewrite E, E'. destruct (zmem j (nbs m id)) eqn:M.
  - apply zmem_In in M. split; auto. intros _. destruct (tr_nb K id j (nth_error_In _ _ E) M). lra.
  - apply zmem_false in M. split; [congruence|contradiction].
Qed.
(** The pressures as a function of the cell. *)
Definition at_cells (y : list R) (id : Z) : R := nth (pos (m := m) id) y 0%R.

Lemma symb_row_ok s id f a e A d A' d' sc : In id (b_ids m) -> new_f m id = Ok f -> a_term m s id = Ok a -> cell_row sc (lsum f) a = Ok e -> sc <> 0%R ->
  banded A -> length d = N -> symb_row m id e (A, d) = Ok (A', d') ->
  banded A' /\ length d' = N /\ (forall p, p <> pos (m := m) id -> nth p d' None = nth p d None /\ forall q, ment A' p q = ment A p q) /\
  (b_cmp m = true -> at2 (s_p s) (s_tstep s) id = Ok (Some (oldv s id))) /\
  exists r, nth (pos (m := m) id) d' None = Some r /\ forall y, times A' y (pos (m := m) id) = r <-> inflow m id (at_cells y) = uptake m s id (at_cells y).
Proof.
  intros H Ef Ea Er Hs Bd Ld E. destruct e as [ks r0]. unfold symb_row in E. cbn [fst snd] in E.
  destruct (rmapM _ ks) as [es|] eqn:Ek; cbn [rbind] in E; [|discriminate]. destruct (cell_i_pos K id H) as (i & Hi & Hn & Ei). rewrite Ei in E. cbn [rbind] in E.
  destruct r0 as [r|]; cbn [rbind] in E; [|discriminate]. inversion E; subst A' d'; clear E.
  destruct (row_ok sc (lsum f) a ks r Hs Er) as (cf & ca & rr & E1 & E2 & -> & Nd & Cols & Nk & Eq).
  pose proof (row_cols s id f a ca ks H Ef Ea E2 Nk Cols) as C. clear Cols.
  assert (Pi : pos (m := m) id = i) by (unfold pos; now rewrite Ei). rewrite Pi.
  assert (Inn : forall j, In j (map fst ks) -> In j (b_ids m)).
  { intros j J. apply C in J as [->|J]; auto. now apply (nbs_in K id j H). }
  assert (Es : es = map (fun kc => (pos (m := m) (fst kc), snd kc)) ks).
  { apply (rmapM_map _ _ _ _ Ek). intros [j c] b J Eb. cbn [fst snd] in *. apply (in_map fst) in J. apply Inn in J. destruct (cell_i_pos K j J) as (q & _ & _ & Eq'). rewrite Eq' in Eb. cbn [rbind] in Eb.
    inversion Eb. unfold pos. now rewrite Eq'. }
  assert (Ef' : map fst es = map (pos (m := m)) (map fst ks)) by (rewrite Es, !map_map; reflexivity).
  assert (Nf : NoDup (map fst es)).
  { rewrite Ef'. apply NoDup_map_in; auto. intros j k J1 J2 Q. pose proof (pos_nth K j (Inn j J1)) as P1. pose proof (pos_nth K k (Inn k J2)) as P2. rewrite Q in P1. congruence. }
  assert (Sz : msize A = N) by apply Bd.
  assert (Out : forall q, q < N -> ~ In q (map fst es) -> ment A i q = 0%R).
  { intros q Hq Nq. apply (proj2 Bd); auto.
    - intros <-. apply Nq. rewrite Ef'. apply in_map_iff. exists id. split; auto. apply C. now left.
    - destruct (nth_id q Hq) as (j & Ej & Ij). destruct (Req_dec (scoup m i q) 0) as [|Nz]; auto. exfalso. apply (scoup_nb i q id j Hn Ej) in Nz. apply Nq. rewrite Ef'. apply in_map_iff. exists j.
      split; [unfold pos; now rewrite (cell_i_ok K q j Ej)|]. apply C. now right. }
  split; [|split; [|split; [|split]]].
  - split; [now rewrite mat_row_size|]. intros p q Hp Hq Ne Sc. cbn [fst]. destruct (Nat.eq_dec p i) as [->|Np].
    + rewrite mat_row_other; [now apply (proj2 Bd)|]. right. intros Iq. rewrite Ef' in Iq. apply in_map_iff in Iq as (j & Ej & J). apply C in J as [->|J]; [congruence|].
      assert (Ij : In j (b_ids m)) by (apply (nbs_in K id j H); auto). pose proof (pos_nth K j Ij) as Pj. rewrite Ej in Pj. apply (scoup_nb i q id j Hn Pj) in J. contradiction.
    + rewrite mat_row_other by auto. now apply (proj2 Bd).
  - cbn [snd]. now rewrite upd_length'.
  - intros p Np. cbn [fst snd]. split; [|intros q; now apply mat_row_other; left].
    apply nth_upd_other. auto.
  - now apply (a_val s id a ca (fun _ => 0%R) H Ea E2).
  - exists rr. cbn [fst snd]. split; [apply nth_upd_same; lia|]. intros y0. rewrite mat_row_times; auto.
    + rewrite Es, map_map. cbn [fst snd]. fold (dot ks (at_cells y0)). change (sumR (map (fun x => (snd x * nth (pos (m := m) (fst x)) y0 0)%R) ks)) with (dot ks (at_cells y0)). rewrite Eq.
      rewrite (new_f_val id f cf _ H Ef E1). destruct (a_val s id a ca (at_cells y0) H Ea E2) as (-> & _). tauto.
    + intros e Ie. rewrite Sz. assert (Q : In (fst e) (map fst es)) by now apply in_map. rewrite Ef' in Q. apply in_map_iff in Q as (j & <- & J). apply (pos_in K). auto.
    + intros q Hq. rewrite Sz in Hq. now apply Out.
Qed.

Lemma rows_ok sc s eqs order : (forall id, sc id <> 0%R) ->
  (forall id e, In (id, e) eqs -> exists f a, new_f m id = Ok f /\ a_term m s id = Ok a /\ cell_row (sc id) (lsum f) a = Ok e) ->
  NoDup order -> (forall id, In id order -> In id (b_ids m)) ->
  forall A d A' d', banded A -> length d = N -> symb_rows m false eqs order (A, d) = Ok (A', d') ->
  banded A' /\ length d' = N /\
  (forall p, (forall id, In id order -> p <> pos (m := m) id) -> nth p d' None = nth p d None /\ forall q, ment A' p q = ment A p q) /\
  forall id, In id order -> (b_cmp m = true -> at2 (s_p s) (s_tstep s) id = Ok (Some (oldv s id))) /\
    exists r, nth (pos (m := m) id) d' None = Some r /\ forall y, times A' y (pos (m := m) id) = r <-> inflow m id (at_cells y) = uptake m s id (at_cells y).
Proof.
  intros Hs He. induction order as [|id order IH]; intros Nd Ho A d A' d' Bd Ld E.
  - cbn in E. inversion E; subst. split; auto. split; auto. split; auto. intros id [].
  - unfold symb_rows in E. cbn [fold_left rbind] in E. inversion Nd as [|? ? Nin Nd']; subst.
    destruct (dgetE id eqs) as [e|] eqn:Ee; cbn [rbind] in E.
    2:{ exfalso. match type of E with fold_left ?f _ ?z = _ => assert (Z : forall l, fold_left f l z = z) by (induction l as [|? ? IHl]; cbn [fold_left]; [reflexivity|exact IHl]); rewrite Z in E; discriminate end. }
    destruct (symb_row m id e (A, d)) as [[A1 d1]|] eqn:E1; cbn [rbind] in E.
    2:{ exfalso. match type of E with fold_left ?f _ ?z = _ => assert (Z : forall l, fold_left f l z = z) by (induction l as [|? ? IHl]; cbn [fold_left]; [reflexivity|exact IHl]); rewrite Z in E; discriminate end. }
    assert (Iid : In id (b_ids m)) by (apply Ho; now left).
    unfold dgetE in Ee. destruct (dget id eqs) as [e'|] eqn:Ed; [|discriminate]. inversion Ee; subst e'. clear Ee. apply dget_In in Ed.
    destruct (He id e Ed) as (f & a & Q1 & Q2 & Q3).
    destruct (symb_row_ok s id f a e A d A1 d1 (sc id) Iid Q1 Q2 Q3 (Hs id) Bd Ld E1) as (B1 & L1 & O1 & P1 & r & R1 & R2).
    destruct (IH Nd' (fun j I => Ho j (or_intror I)) A1 d1 A' d' B1 L1 E) as (B2 & L2 & O2 & P2). split; auto. split; auto. split.
    + intros p Hp. destruct (O2 p) as (X1 & X2); [intros; apply Hp; now right|]. destruct (O1 p) as (Y1 & Y2); [apply Hp; now left|].
      split; [congruence|]. intros q. now rewrite X2.
    + intros j [<-|J]; [|now apply P2]. split; auto. exists r.
      assert (Nj : forall k, In k order -> pos (m := m) id <> pos (m := m) k).
      { intros k Ik Q. pose proof (pos_nth K id Iid) as Y1. pose proof (pos_nth K k (Ho k (or_intror Ik))) as Y2. rewrite Q in Y1. assert (id = k) by congruence. subst. contradiction. }
      destruct (O2 _ Nj) as (X1 & X2). split; [congruence|]. intros y0. rewrite <- R2. unfold times. rewrite (proj1 B1), (proj1 B2).
      rewrite (rsum_ext _ (fun q => (ment A1 (pos (m := m) id) q * nth q y0 0)%R)); [tauto|]. intros q _. now rewrite X2.
Qed.

Theorem symbolic sc s X A d : (forall id, sc id <> 0%R) -> like m -> SI s -> get_matrices_symb sc false (m, s) = (X, Ok (A, d)) ->
  like (fst X) /\ snd X = set_sym (Some (A, d)) s /\ banded A /\ length d = N /\
  (b_cmp m = true -> forall id, In id (b_ids m) -> at2 (s_p s) (s_tstep s) id = Ok (Some (oldv s id))) /\
  (forall p, p < N -> nth p d None <> None) /\
  forall y, length y = N -> (solves A d y <-> forall id, In id (b_ids m) -> inflow m id (at_cells y) = uptake m s id (at_cells y)).
Proof.
  intros Hs Lk Si E. unfold get_matrices_symb in E. apply mbind_ok in E as (es & X1 & E1 & E). unfold get_cells_eq in E1. apply mbind_ok in E1 as (ids & X2 & E2 & E1). apply mread_ok in E2 as (-> & E2).
  cbn [fst snd andb] in E2. inversion E2; subst ids; clear E2.
  destruct (loop_ok sc s (b_ids m) m X1 es Lk (fun _ i => i) E1) as (L1 & S1 & F1 & Q1). destruct X1 as [m1 s1]. cbn [fst snd] in *. subst s1. clear E1.
  apply mbind_ok in E as ([] & X2 & E2 & E). apply mset_ok in E2. cbn [fst snd] in E2. inversion E2; subst X2; clear E2.
  apply mbind_ok in E as ([] & X2 & E2 & E). apply mset_ok in E2. cbn [fst snd] in E2.
  assert (Em : b_ids m1 = b_ids m) by (destruct L1 as (T & -> & _); destruct m; reflexivity).
  match type of E2 with context [attrE (s_sym ?s2)] => set (s2' := s2) in * end.
  destruct (s_sym s2') as [[A0 d0]|] eqn:Es2; cbn [attrE rbind] in E2; [|discriminate].
  assert (B0 : banded A0 /\ length d0 = N).
  { unfold s2' in Es2. rewrite Em in Es2. destruct ((s_tstep s =? 0) || negb (has (s_sym s))) eqn:Eb.
    - destruct s; cbn in Es2. inversion Es2; subst. split; [split; [reflexivity|reflexivity]|apply repeat_length].
    - destruct Si as [Si|[Si|(A1 & d1 & Si & Bd & Ld)]].
      + rewrite Si in Eb. discriminate.
      + rewrite Si in Eb. cbn in Eb. rewrite orb_true_r in Eb. discriminate.
      + rewrite Si in Es2. inversion Es2; subst. auto. }
  destruct (symb_rows m1 false es (b_ids m1) (A0, d0)) as [[A1 d1]|] eqn:Er; cbn [rbind] in E2; [|discriminate]. inversion E2; subst X2; clear E2.
  apply mread_ok in E as (-> & E). cbn [fst snd] in E. assert (Ed : A = A1 /\ d = d1) by (destruct s2'; cbn in E; inversion E; auto). destruct Ed as (-> & ->). clear E.
  assert (Er' : symb_rows m false es (b_ids m) (A0, d0) = Ok (A1, d1)).
  { rewrite <- Er, Em. destruct L1 as (T & -> & _). destruct m; reflexivity. }
  destruct (rows_ok sc s es (b_ids m) Hs Q1 (proj1 (ids_facts K)) (fun _ i => i) A0 d0 A1 d1 (proj1 B0) (proj2 B0) Er') as (B1 & L2 & _ & P).
  cbn [fst snd]. split; auto. split; [unfold s2'; destruct (_ || _); destruct s; reflexivity|]. split; auto. split; auto. split; [|split].
  - intros C id I. now apply P.
  - intros p Hp. destruct (nth_id p Hp) as (id & En & I). destruct (P id I) as (_ & r & R & _).
    unfold pos in R. rewrite (cell_i_ok K p id En) in R. congruence.
  - intros y0 Ly. unfold solves. rewrite (proj1 B1). split.
    + intros (_ & _ & H) id I. destruct (P id I) as (_ & r & R & S). apply S. specialize (H (pos (m := m) id) (pos_in K id I)). congruence.
    + intros H. split; auto. split; auto. intros p Hp. destruct (nth_id p Hp) as (id & En & I). destruct (P id I) as (_ & r & R & S). specialize (H id I). apply S in H.
      unfold pos in R, H. rewrite (cell_i_ok K p id En) in R, H. congruence.
Qed.
End symb.
