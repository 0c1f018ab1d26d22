(** The two ways of assembling the equations, in one form: what flows between the
    cells, plus wells, plus boundaries, is what the cells take up. *)
From Coq Require Import String ZArith Bool Arith List Lia Reals Lra.
From Verif Require Import Prelude PreludeFacts Num GridModel GridSpec GridProofs GeoModel GeoSpec GeoProofs
  PropModel PropSpec MatrixProofs BlackOilModel FdmModel MonadFacts HistSpec InvFacts SumFacts ModelSpec ModelFacts VectFacts FaceFacts AsmFacts BalanceSpec
  StepSpec SolverSpec StepFacts WellStepFacts CanonFacts LinFacts NbrFacts SymbFacts BalFacts.
Import ListNotations.
Close Scope R_scope.
Open Scope nat_scope.

Lemma sum_sub (S l : list Z) (h : Z -> R) : NoDup S -> NoDup l -> (forall j, In j l -> In j S) ->
  sumR (map (fun j => if zmem j l then h j else 0%R) S) = sumR (map h l).
Proof.
  intros NS. induction l as [|a l IH]; intros Nl Hl; cbn [map sumR].
  - rewrite (sumR_ext _ (fun _ => 0%R)) by reflexivity. clear. induction S; cbn; [reflexivity|]. rewrite IHS. lra.
  - inversion Nl; subst. rewrite <- IH by (auto; intros; apply Hl; now right). rewrite <- (sum_pick S a h) by (auto; apply Hl; now left).
    rewrite <- sumR_plus. apply sumR_ext. intros j _. unfold zmem. cbn [existsb]. rewrite (Z.eqb_sym a j). destruct (Z.eqb_spec j a) as [->|]; cbn [orb]; [|lra].
    fold (zmem a l). destruct (zmem a l) eqn:M; [apply zmem_In in M; contradiction|lra].
Qed.
(** A sum over keys looked up in a dictionary. *)
Lemma sum_dget {A} (F : A -> R) (D : list (Z * A)) : forall L : list Z, NoDup L -> NoDup (dkeys D) ->
  sumR (map (fun j => match dget j D with Some v => F v | None => 0%R end) L) = sumR (map (fun e => if zmem (fst e) L then F (snd e) else 0%R) D).
Proof.
  induction D as [|[k v] D IH]; intros L NL ND; cbn [map sumR].
  - induction L as [|j L IHL]; cbn [map sumR]; auto. inversion NL; subst. rewrite IHL; auto. cbn. lra.
  - inversion ND as [|? ? Nk ND']; subst. rewrite <- (IH L NL ND'). cbn [fst snd].
    rewrite (sumR_ext _ (fun j => ((if Z.eqb k j then F v else 0) + match dget j D with Some v => F v | None => 0 end)%R)).
    + rewrite sumR_plus. f_equal. destruct (zmem k L) eqn:M.
      * apply zmem_In in M. now apply (sum_pick L k (fun _ => F v)).
      * apply zmem_false in M. rewrite (sumR_ext _ (fun _ => 0%R)); [clear; induction L; cbn; lra|]. intros j J. destruct (Z.eqb_spec k j); [subst; contradiction|reflexivity].
    + intros j J. cbn [dget]. rewrite (Z.eqb_sym k j). destruct (Z.eqb_spec j k) as [->|]; [|lra].
      destruct (dget k D) eqn:Ed; [|lra]. exfalso. apply Nk. apply dget_keys. congruence.
Qed.

Lemma nth_repeat_lt' {A} (a d : A) n i : i < n -> nth i (repeat a n) d = a.
Proof. revert i. induction n as [|n IH]; intros [|i] H; cbn; auto; try lia. apply IH. lia. Qed.

Section form.
Context {m : bo R} {x y z : nat} {u : bool} {dx dy dz : dinput R} (K : model m x y z u dx dy dz).
Notation g := (gr (geom (b_grid m))).
Notation N := (length (b_ids m)).

Lemma nbs_sum p id (f : Z -> R) : nth_error (b_ids m) p = Some id ->
  sumR (map (fun j => tr m id j * f j)%R (nbs m id)) = rsum (fun q => scoup m p q * f (nth q (b_ids m) 0%Z))%R 0 N.
Proof.
  intros E. assert (I : In id (b_ids m)) by (eapply nth_error_In; eauto).
  rewrite (rsum_sumR _ (b_ids m) (fun j => if zmem j (nbs m id) then tr m id j * f j else 0)%R).
  - symmetry. apply (sum_sub (b_ids m) (nbs m id) (fun j => tr m id j * f j)%R).
    + apply (ids_facts K).
    + now apply (nodup_nbs K).
    + intros j J. now apply (nbs_in K) in J.
  - intros q j Eq. unfold scoup. rewrite E, Eq. rewrite (nth_error_nth _ _ _ Eq). destruct (zmem j (nbs m id)); lra.
Qed.

(** The weight of the fluid column above the datum at the cell in place p. *)
Definition weight (p : nat) : R := (b_g m * height (m := m) (nth p (b_ids m) 0%Z))%R.
(** What flows in from the wells and over the boundaries. *)
Definition hw (yy : list R) (id : Z) : R := (wk1 (m := m) (wof (m := m) id) - wk2 (m := m) (wof (m := m) id) * nth (pos (m := m) id) yy 0)%R.
Definition hb (s : fs R) (yy : list R) (e : Z * (string * R)) : R :=
  (bk1 (m := m) s e - (if String.eqb (fst (snd e)) "pressure" then bT (m := m) (fst e) * nth (bpos (m := m) (fst e)) yy 0 else 0))%R.
(** The symbolic path reads the value given, the vectorised one the rate recorded. *)
Definition rated (s : fs R) : Prop := forall e, In e (b_bdict m) ->
  fst (snd e) = "pressure"%string \/ (smem (lower (fst (snd e))) PRESS = false /\ at2 (s_r s) (s_tstep s) (fst e) = Ok (Some (snd (snd e)))).

Hypothesis Wk : NoDup (dkeys (b_wells m)).
Hypothesis Wi : forall id, In id (dkeys (b_wells m)) -> In id (b_ids m).
Hypothesis Ws : forall id w, dget id (b_wells m) = Some w -> settled w.
Hypothesis Bk : NoDup (dkeys (b_bdict m)).
Hypothesis Bf : forall e, In e (b_bdict m) -> face_id m (fst e).

Lemma wsrc_form p id (yy : list R) : nth_error (b_ids m) p = Some id ->
  wsrc m id (at_cells (m := m) yy id) = over (dkeys (b_wells m)) (pos (m := m)) (hw yy) p.
Proof.
  intros E. assert (I : In id (b_ids m)) by (eapply nth_error_In; eauto). assert (Ep : pos (m := m) id = p) by (unfold pos; now rewrite (cell_i_ok K p id E)).
  destruct (dget id (b_wells m)) as [w|] eqn:Ew.
  - assert (J : In id (dkeys (b_wells m))) by (apply dget_keys; congruence).
    assert (Np : NoDup (map (pos (m := m)) (dkeys (b_wells m)))).
    { apply NoDup_map_in; auto. intros a b Ha Hb Q. pose proof (pos_nth K a (Wi a Ha)) as P1. pose proof (pos_nth K b (Wi b Hb)) as P2. rewrite Q in P1. congruence. }
    rewrite <- Ep at 1. rewrite (over_hit (dkeys (b_wells m)) (pos (m := m)) (hw yy) id Np J). unfold hw, wsrc, at_cells, wof. rewrite Ew.
    unfold w_mode, wk1, wk2, con, Jw, rate_of, pwf_set.
    destruct (Ws id w Ew) as [(C & q & Q)|(C & q & Q & _)]; rewrite C.
    + rewrite Q. cbn [has]. unfold con_is. rewrite C. cbn. lra.
    + replace (if has (w_q w) then con_is w "q" else Ok false) with (@Ok bool false) by (destruct (has (w_q w)); auto; unfold con_is; now rewrite C). cbn [rbind].
      rewrite Q. destruct (w_G w) as [G|]; cbn; [|lra]. field. split; apply Rgt_not_eq; apply K.
  - rewrite over_miss; [unfold wsrc; now rewrite Ew|]. intros j J Q. pose proof (pos_nth K j (Wi j J)) as P1. rewrite Q, E in P1. inversion P1; subst j. apply dget_keys in J. congruence.
Qed.
Lemma bsrc_form s p id (yy : list R) : rated s -> nth_error (b_ids m) p = Some id ->
  sumR (map (fun j => bsrc m id j (at_cells (m := m) yy id)) (bns m id)) = over (b_bdict m) (fun e => bpos (m := m) (fst e)) (hb s yy) p.
Proof.
  intros Rt E. assert (I : In id (b_ids m)) by (eapply nth_error_In; eauto). assert (Ep : pos (m := m) id = p) by (unfold pos; now rewrite (cell_i_ok K p id E)).
  (* the value of an entry, seen from cell id *)
  set (Fv := fun e : Z * (string * R) => let '(c, v) := snd e in if smem (lower c) PRESS then (tr m id (fst e) * 2 * (v - at_cells (m := m) yy id - b_g m * (height (m := m) (fst e) - height (m := m) id)))%R else v).
  set (D' := map (fun e => (fst e, e)) (b_bdict m)).
  assert (Dk : dkeys D' = dkeys (b_bdict m)) by (unfold D', dkeys; rewrite map_map; reflexivity).
  rewrite (sumR_ext _ (fun j => match dget j D' with Some e => Fv e | None => 0%R end)).
  2:{ intros j J. unfold bsrc, D'. clear. induction (b_bdict m) as [|[k [c v]] l IH]; cbn [map dget fst snd]; auto. destruct (Z.eqb_spec j k) as [->|]; auto. }
  rewrite (sum_dget Fv D' (bns m id)) by (rewrite ?Dk; auto; now apply (nodup_bns K)).
  unfold D', over. rewrite map_map. cbn [fst snd]. apply sumR_ext. intros e Ie. pose proof (Bf e Ie) as Fc. destruct (edge_bns K (fst e) id Fc I) as (Q1 & Q2).
  assert (Ei : In (fst (edge (m := m) (fst e))) (b_ids m)) by now apply (edge_face K).
  unfold one, bpos. destruct (zmem (fst e) (bns m id)) eqn:M.
  - apply zmem_In in M. pose proof (Q2 M) as Et. apply Q1 in M as Ee. rewrite Ee, Ep, Nat.eqb_refl.
    destruct e as [k [c v]]. cbn [fst snd] in *. unfold Fv, hb, bk1. cbn [fst snd].
    destruct (Rt _ Ie) as [C|(C & Rr)]; cbn [fst snd] in C.
    + subst c. replace (smem (lower "pressure") PRESS) with true by reflexivity. rewrite String.eqb_refl. unfold bconst, bT, bval, bpos. rewrite (dget_In_nodup _ _ _ Bk Ie). rewrite Ee, Et.
      rewrite (dz_id K id k) by (auto; apply in_or_app; right; now apply Q1). unfold at_cells. lra.
    + rewrite C. cbn [fst snd] in Rr. destruct (String.eqb_spec c "pressure") as [->|]; [discriminate|]. unfold brate. rewrite Rr. lra.
  - apply zmem_false in M. destruct (Nat.eqb_spec (pos (m := m) (fst (edge (m := m) (fst e)))) p) as [Q|]; auto. exfalso. apply M, Q1.
    pose proof (pos_nth K _ Ei) as P1. rewrite Q, E in P1. congruence.
Qed.
Lemma inflow_form s p id (yy : list R) : rated s -> nth_error (b_ids m) p = Some id ->
  inflow m id (at_cells (m := m) yy) = (flux N (scoup m) (fun q => nth q yy 0 - weight q) p +
    over (dkeys (b_wells m)) (pos (m := m)) (hw yy) p + over (b_bdict m) (fun e => bpos (m := m) (fst e)) (hb s yy) p)%R.
Proof.
  intros Rt E. unfold inflow. rewrite (wsrc_form p id yy E), (bsrc_form s p id yy Rt E).
  assert (I : In id (b_ids m)) by (eapply nth_error_In; eauto).
  rewrite (nbs_sum p id (fun j => (at_cells (m := m) yy j - at_cells (m := m) yy id) - b_g m * (height (m := m) j - height (m := m) id))%R E).
  rewrite (rsum_ext _ (fun q => scoup m p q * ((nth q yy 0 - weight q) - (nth p yy 0 - weight p)))%R); [unfold flux; lra|].
  intros q Hq. apply Rmult_eq_compat_l.
  assert (Hq' : q < N) by lia. destruct (nth_id q Hq') as (j & Eq & J). unfold weight. rewrite (nth_error_nth _ _ _ Eq), (nth_error_nth _ _ _ E). unfold at_cells, pos.
  rewrite (cell_i_ok K q j Eq), (cell_i_ok K p id E). ring.
Qed.

(** ** Either path *)
Hypothesis Bu : b_bup m = pressured (b_bdict m).
Lemma over_minus {A} (l : list A) i v v' p : over l i (fun a => v a - v' a)%R p = (over l i v p - over l i v' p)%R.
Proof. unfold over, one. rewrite <- sumR_minus. apply sumR_ext. intros a _. destruct (i a =? p); lra. Qed.
Lemma over_bup p : over (b_bup m) (bpos (m := m)) (bT (m := m)) p =
  over (b_bdict m) (fun e => bpos (m := m) (fst e)) (fun e => if String.eqb (fst (snd e)) "pressure" then bT (m := m) (fst e) else 0%R) p.
Proof.
  rewrite Bu. unfold pressured, over. rewrite map_map. rewrite sumR_filter. apply sumR_ext. intros e _. unfold one. destruct (String.eqb _ _); destruct (_ =? p); reflexivity.
Qed.
(** The equations of a solution on the vectorised path. *)
Lemma vect_form s A (f : nat -> R) (yy : list R) p : p < N ->
  form (m := m) A (fun p => over (b_bup m) (bpos (m := m)) (bT (m := m)) p + over (dkeys (b_wells m)) (pos (m := m)) (fun id => wk2 (m := m) (wof (m := m) id)) p)%R ->
  f p = (- (acc m p * oldp (m := m) s p) - over (dkeys (b_wells m)) (pos (m := m)) (fun id => wk1 (m := m) (wof (m := m) id)) p
          - over (b_bdict m) (fun e => bpos (m := m) (fst e)) (bk1 (m := m) s) p)%R ->
  f p = times A yy p <->
  (flux N (coupling m) (fun q => nth q yy 0) p + over (dkeys (b_wells m)) (pos (m := m)) (hw yy) p + over (b_bdict m) (fun e => bpos (m := m) (fst e)) (hb s yy) p
    = acc m p * (nth p yy 0 - oldp (m := m) s p))%R.
Proof.
  intros Hp Fm ->. rewrite (times_form K A _ yy p Fm Hp). unfold hw, hb. rewrite !over_minus. rewrite over_bup.
  rewrite (Rmult_plus_distr_r (acc m p)), (Rmult_plus_distr_r (over (b_bdict m) _ _ p)).
  pose proof (over_times (dkeys (b_wells m)) (pos (m := m)) (fun id => wk2 (m := m) (wof (m := m) id)) (fun q => nth q yy 0%R) p) as Q1. cbv beta in Q1. rewrite Q1.
  pose proof (over_times (b_bdict m) (fun e => bpos (m := m) (fst e)) (fun e => if String.eqb (fst (snd e)) "pressure" then bT (m := m) (fst e) else 0%R) (fun q => nth q yy 0%R) p) as Q2. cbv beta in Q2. rewrite Q2.
  rewrite (over_ext (b_bdict m) _ (fun a => ((if String.eqb (fst (snd a)) "pressure" then bT (m := m) (fst a) else 0) * nth (bpos (m := m) (fst a)) yy 0)%R)
     (fun e => if String.eqb (fst (snd e)) "pressure" then (bT (m := m) (fst e) * nth (bpos (m := m) (fst e)) yy 0)%R else 0%R)) by (intros e _; destruct (String.eqb _ _); lra).
  lra.
Qed.
Definition kept (s : fs R) : Prop := (s_A s = None \/ DI3 (m := m) s) /\
  (s_sym s = None \/ exists A d, s_sym s = Some (A, d) /\ banded (m := m) A /\ length d = N).
Lemma vect_sym v : inv (fun X : st R => s_sym (snd X) = v) get_matrices_vect.
Proof.
  assert (Ad : forall id w, inv (fun X : st R => s_sym (snd X) = v) (addto_A id w)).
  { intros id w. unfold addto_A. apply i_set. intros [m1 []] [? ?] Hx E. cbn [fst snd] in *. fin; auto. }
  assert (Vw : forall id du, inv (fun X : st R => s_sym (snd X) = v) (vect_well id du)).
  { intros id du. unfold vect_well. isplit; auto. apply i_set. intros [m1 []] [? ?] Hx E. cbn [fst snd] in *. fin; auto. }
  assert (Vs : forall ids du, inv (fun X : st R => s_sym (snd X) = v) (vect_wells ids du)).
  { induction ids as [|i l IH]; intros du; cbn [vect_wells]; isplit; auto. }
  unfold get_matrices_vect, init_vect, init_b. isplit; auto; apply i_set; intros [m1 []] [? ?] Hx E; cbn [fst snd] in *; fin; auto.
Qed.
(** The path and the state allow what follows. *)
Definition pathed (sc : Z -> R) (o : sopts) (s : fs R) : Prop :=
  o_vect o = true \/ (o_thr o = false /\ (forall id, sc id <> 0%R) /\ productive m /\ rated s).
Theorem system_form sc o s X A d : TI (m := m) m -> kept s -> level m \/ (forall id w, dget id (b_wells m) = Some w -> con w <> "q"%string) ->
  o_print o = false -> pathed sc o s -> get_system sc o (m, s) = (X, Ok (A, d)) ->
  (exists T, fst X = set_terms T m /\ TI (m := m) (set_terms T m)) /\ kept (snd X) /\
  forall yy, solves A d yy -> length yy = N /\
  (b_cmp m = true -> forall p id, nth_error (b_ids m) p = Some id -> at2 (s_p s) (s_tstep s) id = Ok (Some (oldp (m := m) s p))) /\
  (forall e, In e (b_bdict m) -> fst (snd e) <> "pressure"%string -> exists r, at2 (s_r s) (s_tstep s) (fst e) = Ok (Some r)) /\
  exists Cp w, (if o_vect o then Cp = coupling m /\ w = (fun _ => 0%R) else Cp = scoup m /\ w = weight) /\ (forall p q, p < N -> q < N -> Cp p q = Cp q p) /\
  forall p, p < N -> (flux N Cp (fun q => nth q yy 0 - w q) p + over (dkeys (b_wells m)) (pos (m := m)) (hw yy) p + over (b_bdict m) (fun e => bpos (m := m) (fst e)) (hb s yy) p
    = acc m p * (nth p yy 0 - oldp (m := m) s p))%R.
Proof.
  intros Ti (Di & Sy) Lv Op Ov E. unfold get_system in E. rewrite Op in E. destruct (o_vect o) eqn:Ev.
  - destruct (assemble K Wk Ws Bk Bf Bu Lv s X A d ltac:(right; exact Di) E) as (G1 & G2 & G3 & G4 & _ & G5).
    assert (Q := vect_sym (s_sym s) (m, s) eq_refl). rewrite E in Q. cbn [fst] in Q.
    split; [exists (b_terms m); replace (set_terms (b_terms m) m) with m by (destruct m; reflexivity); auto|]. split; [split; [now right|now rewrite Q]|].
    intros yy S. assert (V : vals (m := m) d (times A yy)) by (destruct S as (_ & L & S); destruct G4 as (G4 & _); rewrite G4 in *; split; auto).
    destruct (G5 _ V) as (F & F2 & F3). split; [destruct S as (S & _); destruct G4 as (G4 & _); congruence|]. split; auto. split; auto.
    exists (coupling m), (fun _ => 0%R). split; [now split|]. split; [intros; now apply (cp_sym K)|]. intros p Hp.
    replace (flux N (coupling m) (fun q => nth q yy 0 - 0)%R p) with (flux N (coupling m) (fun q => nth q yy 0)%R p) by (apply rsum_ext; intros; ring).
    apply (vect_form s A (times A yy) yy p Hp G4 (F p Hp)). reflexivity.
  - destruct Ov as [Ov|(Ot & Sc & Pd & Rt)]; [congruence|]. rewrite Ot in E.
    assert (Lk : like (m := m) m) by (exists (b_terms m); split; auto; now destruct m).
    destruct (symbolic K Pd sc s X A d Sc Lk ltac:(right; exact Sy) E) as ((T & G1 & G1') & G2 & G3 & G4 & G5 & G6 & G7).
    split; [exists T; rewrite G1 in G1'; auto|]. split.
    { rewrite G2. split; [|right; exists A, d; destruct s; auto]. destruct Di as [Di|Di]; [left; destruct s; auto|right]. destruct s. exact Di. }
    intros yy S. assert (Ly : length yy = N) by (destruct S as (S & _); destruct G3 as (G3 & _); congruence). split; auto. split.
    { intros Cm p id Ep. assert (I : In id (b_ids m)) by (eapply nth_error_In; eauto). rewrite (G5 Cm id I). unfold oldv, oldp. now rewrite Ep. }
    split. { intros e Ie Ne. destruct (Rt e Ie) as [|(_ & ?)]; [contradiction|eauto]. }
    exists (scoup m), weight. split; [now split|]. split; [intros; now apply (scoup_sym K)|].
    intros p Hp. destruct (nth_id p Hp) as (id & Ep & I). pose proof (proj1 (G7 yy Ly) S id I) as Q. rewrite (inflow_form s p id yy Rt Ep) in Q. rewrite Q.
    unfold uptake. rewrite (acc_ok K p id Ep). fold (rhs m id). unfold at_cells, pos. rewrite (cell_i_ok K p id Ep).
    destruct (b_cmp m) eqn:Cm.
    + unfold oldv, oldp. now rewrite Ep.
    + pose proof (acc_sign K p Hp) as Ac. rewrite Cm, (acc_ok K p id Ep) in Ac. unfold rhs. rewrite Ac. ring.
Qed.

(** ** Both paths give equations with the same solutions *)
Definition full (d : list (fl R)) : Prop := length d = N /\ forall p, p < N -> nth p d None <> None.
Lemma full_vals d : full d -> exists f, vals (m := m) d f.
Proof.
  intros (L & H). exists (fun p => match nth p d None with Some v => v | None => 0%R end). split; auto. intros p Hp. specialize (H p Hp). destruct (nth p d None); congruence.
Qed.
Lemma sub_full d id r d' : sub_d m d id (Some r) = Ok d' -> full d -> full d'.
Proof.
  unfold sub_d. destruct (cell_i m id) as [i|] eqn:Ei; cbn [rbind]; [|discriminate]. intros E (L & H). inversion E; subst d'; clear E. split; [now rewrite upd_length'|].
  intros p Hp. pose proof (pos_lt _ _ Ei) as Hi. destruct (Nat.eq_dec p i) as [->|Ne].
  - rewrite nth_upd_same by lia. specialize (H i Hi). destruct (nth i d None); [discriminate|congruence].
  - rewrite nth_upd_other by auto. now apply H.
Qed.
Lemma init_full s d : init_d (m, s) = Ok d -> (b_cmp m = true -> forall id, In id (b_ids m) -> exists v, at2 (s_p s) (s_tstep s) id = Ok (Some v)) -> full d.
Proof.
  intros E H. unfold init_d in E. destruct (b_cmp m).
  - destruct (at_ids (b_ids m) (b_RHS m)) as [rhs|] eqn:Er; cbn [rbind] in E; [|discriminate]. destruct (nth_error (s_p s) (s_tstep s)) as [row|] eqn:En; cbn [rbind] in E; [|discriminate].
    destruct (at_ids (b_ids m) row) as [ps|] eqn:Ep; cbn [rbind] in E; [|discriminate]. inversion E; subst d; clear E.
    pose proof (rmap_length _ _ _ Er) as L1. pose proof (rmap_length _ _ _ Ep) as L2.
    split; [unfold map2; rewrite map_length, combine_length; lia|]. intros p Hp. destruct (nth_id p Hp) as (id & Ei & I). destruct (H eq_refl id I) as (v & Ev). unfold at2 in Ev. rewrite En in Ev.
    destruct (rmap_nth' _ _ _ _ _ Er Ei) as (c & C1 & _). destruct (rmap_nth' _ _ _ _ _ Ep Ei) as (b & B1 & B2). rewrite Ev in B2. inversion B2; subst b.
    unfold map2. assert (Q : nth_error (combine rhs ps) p = Some (c, Some v)).
    { clear -C1 B1. revert ps p C1 B1. induction rhs as [|a l IH]; intros [|b ps] [|p]; cbn; try discriminate; [intros E1 E2; inversion E1; inversion E2; subst; reflexivity|]. apply IH. }
    rewrite (nth_error_nth _ _ _ (map_nth_error _ _ _ Q)). discriminate.
  - inversion E; subst. split; [apply repeat_length|]. intros p Hp. now rewrite (nth_repeat_lt' (Some 0%R) None).
Qed.
Lemma vwell_full id d0 u0 s X d' u' w : dget id (b_wells m) = Some w -> settled w ->
  vect_well id (d0, u0) (m, s) = (X, Ok (d', u')) -> full d0 -> full d'.
Proof.
  intros Ew St E. unfold vect_well in E.
  apply mbind_ok in E as (w0 & X1 & E1 & E). apply mread_ok in E1 as (-> & E1). cbn [fst snd] in E1. unfold dgetE in E1. rewrite Ew in E1. inversion E1; subst w0; clear E1.
  apply mbind_ok in E as (cq & X1 & E1 & E). apply mread_ok in E1 as (-> & E1).
  destruct St as [(C & q & Q)|(C & pw & P1 & P2 & P3)]; unfold con_is in E1; rewrite C in E1; cbn in E1; inversion E1; subst cq; clear E1.
  - apply mread_ok in E as (-> & E). cbn [fst snd] in E. destruct (at2 _ _ _) as [p|]; cbn [rbind] in E; [|discriminate].
    unfold w_num, w_mode, con_is in E. rewrite Q, C in E. cbn [has rbind keyE String.eqb Ascii.eqb Bool.eqb] in E.
    destruct (sub_d m d0 id (Some q)) as [d1|] eqn:Es; cbn [rbind] in E; [|discriminate]. inversion E; subst d1 u'; clear E. now apply (sub_full _ _ _ _ Es).
  - apply mbind_ok in E as (cp & X1 & E1 & E). apply mread_ok in E1 as (-> & E1). unfold con_is in E1; rewrite C in E1; cbn in E1; inversion E1; subst cp; clear E1.
    apply mbind_ok in E as (v & X1 & E1 & E). apply mread_ok in E1 as (-> & E1). cbn [fst snd] in E1.
    apply mbind_ok in E as (d1 & X1 & E2 & E). apply mread_ok in E2 as (-> & E2). cbn [fst snd] in E2.
    apply mbind_ok in E as (done & X1 & E3 & E). apply mbind_ok in E as ([] & X2 & E4 & E). inversion E; subst d1 u'; clear E.
    unfold w_term, w_mode, con_is in E1. rewrite C, P1 in E1.
    replace (if has (w_q w) then let* c := keyE (Some (Some "pwf"%string)) in Ok (match c with Some c => String.eqb c "q" | None => false end) else Ok false) with (@Ok bool false) in E1 by (destruct (has (w_q w)); reflexivity).
    cbn [rbind] in E1. destruct (w_G w) as [G|] eqn:EG; cbn [keyE rbind] in E1; [|discriminate]. cbn [option_map fmul lift2] in E1. rewrite lvalues_one in E1. cbn [ndiv nopp nmul Num_R] in E1.
    destruct (Reqb_spec (- G / (b_B m * b_mu m) * - pw) 0), (Reqb_spec (- G / (b_B m * b_mu m)) 0); cbn [app] in E1; try discriminate; inversion E1; subst v; cbn [fst snd] in E2; now apply (sub_full _ _ _ _ E2).
Qed.
Lemma vwells_full ids : forall e d0 u0 s X d' u', NoDup ids -> (forall id, In id ids -> In id (dkeys (b_wells m))) ->
  vect_wells ids (d0, u0) (m, s) = (X, Ok (d', u')) -> EI (m := m) e s -> full d0 -> full d'.
Proof.
  induction ids as [|id ids IH]; intros e d0 u0 s X d' u' D Ik E I F; cbn [vect_wells] in E; [now inversion E; subst|].
  apply mbind_ok in E as ([d1 u1] & [m1 s1] & E1 & E). inversion D; subst.
  pose proof (wof_some id (Ik id (or_introl eq_refl))) as Ew. pose proof (Ws _ _ Ew) as Sw.
  assert (E1' : vect_wells [id] (d0, u0) (m, s) = ((m1, s1), Ok (d1, u1))) by (cbn [vect_wells]; unfold mbind; rewrite E1; reflexivity).
  destruct (vwells [id] e d0 u0 s _ d1 u1 Wk ltac:(repeat constructor; auto) ltac:(intros j [<-|[]]; apply Ik; now left) Ws E1' I) as (Q1 & _ & _ & _ & _ & Q2 & _). cbn [fst snd] in *. subst m1.
  eapply IH; eauto; [intros j J; apply Ik; now right|]. now apply (vwell_full _ _ _ _ _ _ _ _ Ew Sw E1).
Qed.
Lemma vect_bs_full s l : forall d d', (forall e, In e l -> face_id m (fst e)) -> (forall e, In e l -> fst (snd e) = "pressure"%string -> bv_ok (m := m) s [fst e]) ->
  (forall e, In e l -> fst (snd e) <> "pressure"%string -> exists r, at2 (s_r s) (s_tstep s) (fst e) = Ok (Some r)) ->
  fold_left (fun acc e => let* d := acc in vect_b (m, s) d e) l (Ok d) = Ok d' -> full d -> full d'.
Proof.
  induction l as [|e l IH]; intros d d' H B Rr E F; cbn [fold_left] in E; [now inversion E; subst|]. cbn [rbind] in E.
  destruct (vect_b (m, s) d e) as [d1|] eqn:E1; [|rewrite fold_b_err in E; discriminate].
  apply (IH d1 d'); auto; try (intros; first [apply H|apply B|apply Rr]; auto; now right).
  pose proof (H e (or_introl eq_refl)) as Fc. destruct (edge_face K _ Fc) as (_ & _ & Ie & nb & En & Dn). unfold vect_b in E1. change (bgrid m) with g in E1. rewrite En in E1. cbn [rbind] in E1. rewrite Dn in E1.
  destruct (String.eqb_spec (fst (snd e)) "pressure") as [Ep|Ep].
  - unfold dgetE in E1. rewrite (B e (or_introl eq_refl) Ep (fst e) (or_introl eq_refl)) in E1. cbn [rbind fst] in E1. now apply (sub_full _ _ _ _ E1).
  - destruct (Rr e (or_introl eq_refl) Ep) as (r & Er). rewrite Er in E1. cbn [rbind] in E1. now apply (sub_full _ _ _ _ E1).
Qed.
Lemma assemble_full s X A d : level m \/ (forall id w, dget id (b_wells m) = Some w -> con w <> "q"%string) -> DI (m := m) s -> get_matrices_vect (m, s) = (X, Ok (A, d)) ->
  (b_cmp m = true -> forall id, In id (b_ids m) -> exists v, at2 (s_p s) (s_tstep s) id = Ok (Some v)) ->
  (forall e, In e (b_bdict m) -> fst (snd e) <> "pressure"%string -> exists r, at2 (s_r s) (s_tstep s) (fst e) = Ok (Some r)) -> full d.
Proof.
  intros Lv D E Ho Hr. unfold get_matrices_vect in E. apply mbind_ok in E as (ini & X1 & E1 & E). apply mread_ok in E1 as (-> & E1). cbn [fst snd] in E1. inversion E1; subst ini; clear E1.
  apply mbind_ok in E as ([] & [m1 s1] & E1 & E).
  assert (I1 : m1 = m /\ (s_p s1 = s_p s /\ s_r s1 = s_r s /\ s_tstep s1 = s_tstep s) /\ EI (m := m) (over (b_bup m) (bpos (m := m)) (bT (m := m))) s1 /\ bv_ok (m := m) s1 (b_bup m)).
  { destruct ((s_tstep s =? 0) || negb (has (s_A s))) eqn:Eb; cbn [mwhen] in E1.
    - destruct (init_vect_ok K Bk Bf Bu _ _ E1) as (G1 & (G2 & G3 & G4 & G5) & G6 & G7). cbn [fst snd] in *. auto.
    - inversion E1; subst. split; auto. split; auto. destruct D as [D|[D|D]]; [rewrite D in Eb; discriminate| |destruct D as (D1 & D2 & _); auto].
      rewrite D in Eb. cbn in Eb. rewrite orb_true_r in Eb. discriminate. }
  destruct I1 as (-> & (Sp & Sr & St) & I1 & B1). clear E1 D.
  apply mbind_ok in E as (d0 & X2 & E2 & E). apply mread_ok in E2 as (-> & E2).
  apply mbind_ok in E as (wids & X2 & E3 & E). apply mread_ok in E3 as (-> & E3). cbn [fst snd] in E3. inversion E3; subst wids; clear E3.
  apply mbind_ok in E as ([d1 u1] & [m2 s2] & E3 & E). apply mbind_ok in E as (d2 & X3 & E4 & E). apply mread_ok in E4 as (-> & E4). cbn [fst snd] in E4.
  apply mbind_ok in E as (d3 & X3 & E5 & E). apply mread_ok in E5 as (-> & E5). cbn [fst snd] in E5.
  apply mbind_ok in E as (A' & X3 & E6 & E). inversion E; subst X A' d3; clear E.
  destruct (vwells _ _ _ _ _ _ _ _ Wk Wk (fun _ h => h) Ws E3 I1) as (G1 & (G2a & G2b & G2c & G2d) & G3 & G4 & G5 & _). cbn [fst snd] in *. subst m2.
  assert (Ed : d = d2).
  { destruct u1; [|now inversion E5]. destruct Lv as [L|L]; [now apply (update_z_level _ _ L E5)|]. destruct (G5 eq_refl) as [|(id & Ii & C)]; [discriminate|].
    exfalso. apply (L id (wof (m := m) id)); auto. now apply wof_some. }
  subst d2. clear E5.
  eapply vect_bs_full; [exact Bf| | |exact E4|].
  - intros e Ie Ep j [<-|[]]. rewrite G2d. apply B1. now apply (in_bup Bu).
  - intros e Ie Ep. rewrite G2b, G2c, Sr, St. auto.
  - eapply vwells_full; [exact Wk|auto|exact E3|exact I1|]. eapply init_full; eauto. rewrite Sp, St. exact Ho.
Qed.
Theorem paths_agree sc s X A d X' A' d' : TI (m := m) m -> kept s -> level m -> ~ three_d g -> (forall id, sc id <> 0%R) -> productive m -> rated s ->
  get_matrices_vect (m, s) = (X, Ok (A, d)) -> get_matrices_symb sc false (m, s) = (X', Ok (A', d')) ->
  forall yy, solves A d yy <-> solves A' d' yy.
Proof.
  intros Ti (Di & Sy) Lv N3 Sc Pd Rt E E' yy.
  destruct (assemble K Wk Ws Bk Bf Bu (or_introl Lv) s X A d ltac:(right; exact Di) E) as (_ & _ & _ & G4 & _ & G5).
  assert (Lk : like (m := m) m) by (exists (b_terms m); split; auto; now destruct m).
  destruct (symbolic K Pd sc s X' A' d' Sc Lk ltac:(right; exact Sy) E') as (_ & _ & (H3 & _) & H4 & H5 & _ & H7).
  assert (Fu : full d).
  { apply (assemble_full s X A d (or_introl Lv) ltac:(right; exact Di) E).
    - intros Cm id I. rewrite (H5 Cm id I). eauto.
    - intros e Ie Ne. destruct (Rt e Ie) as [|(_ & ?)]; [contradiction|eauto]. }
  destruct (full_vals d Fu) as (f & V). destruct (G5 f V) as (F & _). pose proof G4 as (Sz & _).
  destruct V as (Ld & V).
  assert (Q : forall p id, nth_error (b_ids m) p = Some id -> (f p = times A yy p <-> inflow m id (at_cells (m := m) yy) = uptake m s id (at_cells (m := m) yy))).
  { intros p id Ep. assert (Hp : p < N) by (apply nth_error_Some; congruence). assert (I : In id (b_ids m)) by (eapply nth_error_In; eauto).
    rewrite (vect_form s A f yy p Hp G4 (F p Hp)). rewrite (inflow_form s p id yy Rt Ep).
    replace (flux N (scoup m) (fun q => nth q yy 0 - weight q)%R p) with (flux N (coupling m) (fun q => nth q yy 0%R) p).
    2:{ unfold flux. apply rsum_ext. intros q Hq. rewrite (scoup_coupling K p q) by (auto; lia). apply Rmult_eq_compat_l.
        assert (Hq' : q < N) by lia. destruct (nth_id q Hq') as (j & Eq & J). unfold weight. rewrite (nth_error_nth _ _ _ Eq), (nth_error_nth _ _ _ Ep).
        rewrite (level_height id j Lv I J). ring. }
    assert (U : uptake m s id (at_cells (m := m) yy) = (acc m p * (nth p yy 0 - oldp (m := m) s p))%R).
    { unfold uptake. rewrite (acc_ok K p id Ep). fold (rhs m id). unfold at_cells, pos. rewrite (cell_i_ok K p id Ep).
      destruct (b_cmp m) eqn:Cm; [unfold oldv, oldp; now rewrite Ep|]. pose proof (acc_sign K p Hp) as Ac. rewrite Cm, (acc_ok K p id Ep) in Ac. unfold rhs. rewrite Ac. ring. }
    rewrite U. tauto. }
  split.
  - intros (S1 & S2 & S3). apply H7; [congruence|]. intros id I. destruct (In_nth_error _ _ I) as (p & Ep). apply (Q p id Ep).
    assert (Hp : p < N) by (apply nth_error_Some; congruence). specialize (S3 p ltac:(lia)). rewrite V in S3 by lia. congruence.
  - intros S. assert (Ly : length yy = N) by (destruct S as (S & _); congruence). pose proof (proj1 (H7 yy Ly) S) as H. split; [congruence|]. split; [congruence|].
    intros p Hp. rewrite Sz in Hp. destruct (nth_id p Hp) as (id & Ep & I). rewrite V by auto. f_equal. apply (Q p id Ep). now apply H.
Qed.
End form.
