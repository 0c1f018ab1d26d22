(** Facts on the wells in a time step. *)
From Coq Require Import String ZArith Bool Arith List Lia.
From Verif Require Import Prelude PreludeFacts Num GridModel GeoModel PropModel BlackOilModel FdmModel
  MonadFacts HistSpec InvFacts StepSpec StepFacts.
Import ListNotations.
Open Scope nat_scope.

Lemma dset_twice {A} k (v v' : A) d : dset k v (dset k v' d) = dset k v d.
Proof.
  induction d as [|[k0 v0] d IH]; simpl; [now rewrite Z.eqb_refl|]. destruct (Z.eqb_spec k k0); simpl.
  - subst. now rewrite Z.eqb_refl.
  - destruct (Z.eqb_spec k k0); [congruence|]. now rewrite IH.
Qed.
Lemma keys_dset {A} k (v : A) d : NoDup (dkeys d) -> NoDup (dkeys (dset k v d)).
Proof.
  intros H. destruct (dget k d) eqn:E; [rewrite dkeys_dset by congruence; exact H|].
  assert (D : dkeys (dset k v d) = dkeys d ++ [k]).
  { clear H. induction d as [|[k0 v0] d IH]; simpl in *; [reflexivity|]. destruct (Z.eqb_spec k k0); [discriminate|]. unfold dkeys in *. cbn. now rewrite IH. }
  rewrite D. assert (N : ~ In k (dkeys d)) by (rewrite dget_keys; congruence).
  clear -H N. induction (dkeys d) as [|a l IH]; cbn; [repeat constructor; auto|]. inversion H; subst. constructor.
  - rewrite in_app_iff. intros [J|[J|[]]]; [tauto|subst]. apply N. now left.
  - apply IH; auto. intros J. apply N. now right.
Qed.
Lemma in_keys_dset {A} k (v : A) d i : In i (dkeys (dset k v d)) -> i = k \/ In i (dkeys d).
Proof. rewrite !dget_keys, dget_dset_z. destruct (Z.eqb_spec i k); auto. Qed.
Lemma pyget_nat {A} (l : list A) i : (0 <= i)%Z -> pyget l i = match nth_error l (Z.to_nat i) with Some v => Ok v | None => Err IndexError end.
Proof. intros H. unfold pyget. destruct (Z.ltb_spec i 0); [lia|]. destruct (Z.leb_spec 0 i); [|lia]. reflexivity. Qed.
Lemma nth_error_upd_same {A} (l : list A) i v : i < length l -> nth_error (upd l i v) i = Some v.
Proof. revert i. induction l as [|a l IH]; intros [|i] H; cbn in *; try lia; auto. apply IH. lia. Qed.
Lemma nth_error_upd_ne {A} (l : list A) i j v : i <> j -> nth_error (upd l i v) j = nth_error l j.
Proof. revert i j. induction l as [|a l IH]; intros [|i] [|j] H; cbn; try lia; auto. Qed.
Lemma pyset_nat {A} (l l' : list A) i v : (0 <= i)%Z -> pyset l i v = Ok l' -> Z.to_nat i < length l /\ l' = upd l (Z.to_nat i) v.
Proof.
  intros H. unfold pyset. destruct (Z.ltb_spec i 0); [lia|]. destruct (_ && _)%bool eqn:E; [|discriminate].
  intros Q. inversion Q. apply andb_true_iff in E as (_ & E). apply Z.ltb_lt in E. split; auto. lia.
Qed.
Lemma pyget_pyset_same {A} (l l' : list A) i v : (0 <= i)%Z -> pyset l i v = Ok l' -> pyget l' i = Ok v.
Proof. intros H E. apply pyset_nat in E as (L & ->); auto. rewrite pyget_nat, nth_error_upd_same; auto. Qed.
Lemma pyget_pyset_other {A} (l l' : list A) i j v : (0 <= i)%Z -> (0 <= j)%Z -> i <> j -> pyset l i v = Ok l' -> pyget l' j = pyget l j.
Proof. intros H H' N E. apply pyset_nat in E as (L & ->); auto. rewrite !pyget_nat, nth_error_upd_ne; auto. intros J. apply N. lia. Qed.

(** [row[ids] = vs] *)
Lemma many_other {A} ids (vs : list A) : forall row row', (forall id, In id ids -> (0 <= id)%Z) -> 
  fold_left (fun r iv => let* l := r in pyset l (fst iv) (snd iv)) (combine ids vs) (Ok row) = Ok row' ->
  forall i, ~ In (Z.of_nat i) ids -> nth_error row' i = nth_error row i.
Proof.
  revert vs. induction ids as [|id ids IH]; intros [|v vs] row row' P E i N; cbn [combine fold_left] in E; try (inversion E; subst; reflexivity).
  cbn [rbind fst snd] in E. destruct (pyset row id v) as [r1|] eqn:E1.
  2:{ exfalso. clear -E. induction (combine ids vs) as [|c l IH]; cbn in E; [discriminate|auto]. }
  rewrite (IH vs r1 row'); auto; [|intros; apply P; now right|intros J; apply N; now right].
  unfold pyset in E1. assert (0 <= id)%Z by (apply P; now left). destruct (Z.ltb_spec id 0); [lia|].
  destruct (_ && _)%bool eqn:Eb; [|discriminate]. inversion E1; subst. assert (Ni : Z.to_nat id <> i) by (intros <-; apply N; left; lia).
  clear -Ni. revert i Ni. generalize (Z.to_nat id) as k. induction row as [|a row IH]; intros k i Ni; [now destruct k|].
  destruct k, i; cbn; try congruence; auto.
Qed.
Lemma fold_err {A} e (l : list (Z * A)) : fold_left (fun r iv => let* l := r in pyset l (fst iv) (snd iv)) l (Err e) = Err e.
Proof. induction l; cbn; auto. Qed.
Lemma many_get {A} ids (vs : list A) : forall row row', NoDup ids -> (forall id, In id ids -> (0 <= id)%Z) -> length ids = length vs ->
  fold_left (fun r iv => let* l := r in pyset l (fst iv) (snd iv)) (combine ids vs) (Ok row) = Ok row' ->
  rmapM (pyget row') ids = Ok vs.
Proof.
  revert vs. induction ids as [|id ids IH]; intros [|v vs] row row' D P L E; cbn [length] in L; try discriminate; [reflexivity|].
  cbn [combine fold_left rbind fst snd] in E. destruct (pyset row id v) as [r1|] eqn:E1; [|rewrite fold_err in E; discriminate].
  inversion D; subst. assert (Pt : forall i, In i ids -> (0 <= i)%Z) by (intros; apply P; now right).
  cbn [rmapM]. rewrite (IH vs r1 row') by auto. assert (Hid : (0 <= id)%Z) by (apply P; now left).
  assert (G : nth_error row' (Z.to_nat id) = Some v).
  { rewrite (many_other ids vs r1 row' Pt E) by (rewrite Z2Nat.id; auto). unfold pyset in E1. destruct (Z.ltb_spec id 0); [lia|].
    destruct (_ && _)%bool eqn:Eb; [|discriminate]. inversion E1; subst. apply andb_true_iff in Eb as (_ & Eb). apply Z.ltb_lt in Eb.
    assert (Z.to_nat id < length row) by lia. clear -H0. revert row H0. induction (Z.to_nat id) as [|k IH]; intros [|a row] Hk; cbn in *; try lia; auto. apply IH. lia. }
  unfold pyget at 1. destruct (Z.ltb_spec id 0); [lia|]. destruct (Z.leb_spec 0 id); [|lia]. rewrite G. reflexivity.
Qed.

Lemma mbind_eq {S A B} (c c' : M S A) (f g : A -> M S B) s : c s = c' s -> (forall a s', c s = (s', Ok a) -> f a s' = g a s') -> mbind c f s = mbind c' g s.
Proof. intros E H. unfold mbind. rewrite <- E. destruct (c s) as [s' [a|e]]; auto. Qed.

Section wells.
Context {F : Type} {NF : Num F} {NT : NumT F}.

(** ** One well *)
Definition est_of (m : bo F) (w : well F) (p : fl F) : res (fl F) :=
  match w_qsp w with
  | Some q => let* G := keyE (w_G w) in Ok (fadd p (fdiv (Some (nmul (nmul q (b_B m)) (b_mu m))) (Some G)))
  | None => keyE (w_pwf w)
  end.
Definition asks (w : well F) (lim : F) (est : fl F) : res bool :=
  if fltb (Some lim) est then Ok false
  else if fltb est (Some lim) then let* q := keyE (w_q w) in let* qsp := keyE (w_qsp w) in Ok (feqb q (Some qsp)) else Ok false.
Definition con_of (lim : F) (est : fl F) : string := if fltb (Some lim) est then "q"%string else "pwf"%string.
Definition pwf_of (lim : F) (est : fl F) : fl F := if fltb (Some lim) est then est else Some lim.
(** The well while its rate is computed. *)
Definition mid (w : well F) lim est := with_pwf_est (pwf_of lim est) (with_con (Some (con_of lim est)) w).
Definition pass1 (m : bo F) (p : fl F) (w w' : well F) (q : fl F) (b : bool) (pw : fl F) : Prop :=
  exists est lim, est_of m w p = Ok est /\ w_pwfsp w = Some lim /\ asks w lim est = Ok b /\ pw = pwf_of lim est /\
    w_num m (mid w lim est) p = Ok q /\ w' = with_q_est q (mid w lim est).
Lemma est_core m m' w p : core m = core m' -> est_of m w p = est_of m' w p.
Proof. intros C. destruct (core_fields _ _ C) as (_ & _ & H3 & H4 & _). unfold est_of. now rewrite H3, H4. Qed.
Lemma num_core (m m' : bo F) w p : core m = core m' -> w_num m w p = w_num m' w p.
Proof. intros C. destruct (core_fields _ _ C) as (_ & _ & H3 & H4 & _). unfold w_num, w_mode. now rewrite H3, H4. Qed.
Lemma pass1_core m m' p w w' q b pw : core m = core m' -> pass1 m p w w' q b pw -> pass1 m' p w w' q b pw.
Proof.
  intros C (est & lim & H1 & H2 & H3 & H4 & H5 & H6). exists est, lim. rewrite <- (est_core m m'), <- (num_core m m') by auto. tauto.
Qed.

Lemma upd_wells_ok id f (m : bo F) (s : fs F) X : upd_wells id f (m, s) = (X, Ok tt) ->
  exists w, dget id (b_wells m) = Some w /\ X = (set_wells (dset id (f w) (b_wells m)) m, s).
Proof.
  unfold upd_wells. intros E. apply mset_ok in E. cbn [fst snd] in E. unfold dgetE in E. destruct (dget id (b_wells m)) as [w|]; [|discriminate].
  cbn [rbind] in E. inversion E. eauto.
Qed.
Lemma update_well_ok id (m : bo F) (s : fs F) X rb : update_well id (m, s) = (X, Ok rb) ->
  exists w w' p q row row', dget id (b_wells m) = Some w /\ at2 (s_p s) (s_tstep s) id = Ok p /\ pass1 m p w w' q (fst rb) (snd rb) /\
    nth_error (s_r s) (s_tstep s) = Some row /\ pyset row id q = Ok row' /\
    X = (set_wells (dset id w' (b_wells m)) m, set_r (upd (s_r s) (s_tstep s) row') s).
Proof.
  unfold update_well. intros E.
  apply mbind_ok in E as (w & X1 & E1 & E). apply mread_ok in E1 as (-> & E1). cbn [fst snd] in E1. unfold dgetE in E1. destruct (dget id (b_wells m)) as [w0|] eqn:Ew; [|discriminate]. inversion E1; subst w0; clear E1.
  apply mbind_ok in E as (p & X1 & E1 & E). apply mread_ok in E1 as (-> & E1). cbn [fst snd] in E1.
  apply mbind_ok in E as (est & X1 & E2 & E). apply mread_ok in E2 as (-> & E2). cbn [fst snd] in E2.
  apply mbind_ok in E as (lim & X1 & E3 & E). apply mread_ok in E3 as (-> & E3). cbn [fst snd] in E3. unfold keyE in E3. destruct (w_pwfsp w) as [lim'|] eqn:El; [|discriminate]. inversion E3; subst lim'; clear E3.
  apply mbind_ok in E as (rb' & X1 & E4 & E).
  assert (H4 : asks w lim est = Ok (fst rb') /\ snd rb' = pwf_of lim est /\ X1 = (set_wells (dset id (with_con (Some (con_of lim est)) w) (b_wells m)) m, s)).
  { unfold asks, pwf_of, con_of. destruct (fltb (Some lim) est).
    - apply mbind_ok in E4 as ([] & X2 & E5 & E4). apply upd_wells_ok in E5 as (w0 & Ew0 & ->). rewrite Ew in Ew0. inversion Ew0; subst w0. inversion E4; subst. auto.
    - apply mbind_ok in E4 as (b & X2 & E5 & E4). apply mread_ok in E5 as (-> & E5). apply mbind_ok in E4 as ([] & X2 & E6 & E4). apply upd_wells_ok in E6 as (w0 & Ew0 & ->). rewrite Ew in Ew0. inversion Ew0; subst w0. inversion E4; subst. auto. }
  destruct H4 as (H4 & H5 & ->).
  apply mbind_ok in E as ([] & X1 & E5 & E). apply upd_wells_ok in E5 as (w0 & Ew0 & ->). rewrite wells_set_wells, dget_dset_same in Ew0. inversion Ew0; subst w0; clear Ew0.
  rewrite wells_set_wells, dset_twice, set_wells_twice in E. rewrite H5 in E. fold (mid w lim est) in E.
  apply mbind_ok in E as (q & X1 & E6 & E). apply mread_ok in E6 as (-> & E6). cbn [fst snd] in E6. unfold dgetE in E6. rewrite wells_set_wells, dget_dset_same in E6. cbn [rbind] in E6.
  rewrite (num_core _ m) in E6 by apply core_wells.
  apply mbind_ok in E as ([] & X1 & E7 & E). unfold put_r in E7. apply mset_ok in E7. cbn [fst snd] in E7. unfold set2 in E7.
  destruct (nth_error (s_r s) (s_tstep s)) as [row|] eqn:Er; [|discriminate]. destruct (pyset row id q) as [row'|] eqn:Ep; [|discriminate]. cbn [rbind] in E7. inversion E7; subst X1; clear E7.
  apply mbind_ok in E as ([] & X1 & E8 & E). apply upd_wells_ok in E8 as (w0 & Ew0 & ->). rewrite wells_set_wells, dget_dset_same in Ew0. inversion Ew0; subst w0; clear Ew0.
  rewrite wells_set_wells, dset_twice, set_wells_twice in E. inversion E; subst; clear E.
  exists w, (with_q_est q (mid w lim est)), p, q, row, row'. repeat split; auto. exists est, lim. rewrite H5. repeat split; auto.
Qed.

(** ** All wells *)
Lemma put_fields (m : bo F) (s : fs F) v r : core (set_wells v m) = core m /\ s_p (set_r r s) = s_p s /\ s_tstep (set_r r s) = s_tstep s /\ s_r (set_r r s) = r /\
  s_As (set_r r s) = s_As s /\ b_wp (set_wells v m) = b_wp m.
Proof. destruct m, s. repeat split. Qed.
Lemma loop_ok ids : forall acc m s X t, NoDup ids -> (forall id, In id ids -> 0 <= id)%Z ->
  update_wells_loop ids acc (m, s) = (X, Ok t) ->
  exists done rest, ids = (done ++ rest)%list /\ core (fst X) = core m /\ s_p (snd X) = s_p s /\ s_tstep (snd X) = s_tstep s /\ s_As (snd X) = s_As s /\ b_wp (fst X) = b_wp m /\
    dkeys (b_wells (fst X)) = dkeys (b_wells m) /\
    (forall id, ~ In id done -> dget id (b_wells (fst X)) = dget id (b_wells m)) /\
    (forall id, (0 <= id)%Z -> ~ In id done -> at2 (s_r (snd X)) (s_tstep s) id = at2 (s_r s) (s_tstep s) id) /\
    (forall id, In id done -> exists w w' p q b pw, dget id (b_wells m) = Some w /\ dget id (b_wells (fst X)) = Some w' /\
       at2 (s_p s) (s_tstep s) id = Ok p /\ pass1 m p w w' q b pw /\ at2 (s_r (snd X)) (s_tstep s) id = Ok q /\
       (b = true -> t = None)) /\
    match t with
    | Some tb => rest = [] /\ forall id, din id acc = true \/ In id ids -> din id tb = true
    | None => exists d id w w' p q pw, done = (d ++ [id])%list /\ dget id (b_wells m) = Some w /\ dget id (b_wells (fst X)) = Some w' /\
        at2 (s_p s) (s_tstep s) id = Ok p /\ pass1 m p w w' q true pw /\
        forall i, In i d -> exists w w' p q pw, dget i (b_wells m) = Some w /\ dget i (b_wells (fst X)) = Some w' /\ at2 (s_p s) (s_tstep s) i = Ok p /\ pass1 m p w w' q false pw
    end.
Proof.
  induction ids as [|id ids IH]; intros acc m s X t D P E; cbn [update_wells_loop] in E.
  - inversion E; subst. cbn [fst snd]. exists [], []. repeat split; auto; [intros id []|]. intros id [H|[]]. exact H.
  - apply mbind_ok in E as (rb & X1 & E1 & E). apply update_well_ok in E1 as (w & w' & p & q & row & row' & W1 & W2 & W3 & W4 & W5 & ->).
    inversion D as [|? ? D1 D2]; subst. assert (Hid : (0 <= id)%Z) by (apply P; now left).
    destruct (put_fields m s (dset id w' (b_wells m)) (upd (s_r s) (s_tstep s) row')) as (F1 & F2 & F3 & F4 & F5 & F6).
    assert (Lt : s_tstep s < length (s_r s)) by (apply nth_error_Some; congruence).
    assert (Ro : forall i, (0 <= i)%Z -> i <> id -> at2 (upd (s_r s) (s_tstep s) row') (s_tstep s) i = at2 (s_r s) (s_tstep s) i).
    { intros i Hi Ni. unfold at2. rewrite nth_error_upd_same, W4 by auto. eapply (pyget_pyset_other row row' id i q); auto. }
    assert (Rs : at2 (upd (s_r s) (s_tstep s) row') (s_tstep s) id = Ok q).
    { unfold at2. rewrite nth_error_upd_same by auto. eapply pyget_pyset_same; eauto. }
    destruct (fst rb) eqn:Eb.
    + inversion E; subst; clear E. cbn [fst snd]. exists [id], ids. rewrite F1, F2, F3, F4, F5, F6, wells_set_wells. rewrite dkeys_dset by congruence.
      repeat split; auto.
      * intros i Ni. apply dget_dset_other. intros ->. apply Ni. now left.
      * intros i Hi Ni. apply Ro; auto. intros ->. apply Ni. now left.
      * intros i [->|[]]. exists w, w', p, q, true, (snd rb). rewrite dget_dset_same. auto 10.
      * exists [], id, w, w', p, q, (snd rb). rewrite dget_dset_same. repeat split; auto. intros i [].
    + apply IH in E; auto; [|intros; apply P; now right].
      destruct E as (done & rest & E0 & EC & E1 & E2 & E3 & E4 & E5 & E6 & E7 & E8 & E9).
      rewrite F1 in EC. rewrite F2 in E1. rewrite F3 in E2, E7, E8, E9. rewrite F5 in E3. rewrite F6 in E4. rewrite wells_set_wells in E5, E6, E8, E9. rewrite F2 in E8, E9. rewrite F4 in E7.
      rewrite dkeys_dset in E5 by congruence.
      exists (id :: done), rest. cbn [app]. rewrite E0. repeat split; auto; try congruence.
      * intros i Ni. rewrite E6 by (intros J; apply Ni; now right). apply dget_dset_other. intros ->. apply Ni. now left.
      * intros i Hi Ni. rewrite E7 by (auto; intros J; apply Ni; now right). apply Ro; auto. intros ->. apply Ni. now left.
      * assert (Nd : ~ In id done) by (intros J; apply D1; rewrite E0; apply in_or_app; now left).
        intros i [->|Hi].
        -- exists w, w', p, q, false, (snd rb). rewrite E6, dget_dset_same by auto. rewrite E7, Rs by auto. repeat split; auto. discriminate.
        -- destruct (E8 i Hi) as (v & v' & p' & q' & b' & pw' & G1 & G2 & G3 & G4 & G5 & G6). rewrite dget_dset_other in G1 by (intros ->; contradiction).
           exists v, v', p', q', b', pw'. repeat split; auto. eapply pass1_core; eauto.
      * assert (Nd : ~ In id done) by (intros J; apply D1; rewrite E0; apply in_or_app; now left). destruct t as [tb|].
        -- destruct E9 as (E9 & E10). split; auto. intros i Hi. apply E10. unfold din in *. rewrite dget_dset_z. destruct (Z.eqb_spec i id); [now left|].
           destruct Hi as [Hi|[Hi|Hi]]; [now left|congruence|right; rewrite E0; exact Hi].
        -- destruct E9 as (d & i & v & v' & p' & q' & pw' & G0 & G1 & G2 & G3 & G4 & G5).
           assert (Ni : i <> id) by (intros ->; apply Nd; rewrite G0; apply in_or_app; right; now left). rewrite dget_dset_other in G1 by auto.
           exists (id :: d), i, v, v', p', q', pw'. cbn [app]. rewrite G0. repeat split; auto; [eapply pass1_core; eauto|].
           intros j [<-|Hj].
           ++ exists w, w', p, q, (snd rb). rewrite E6, dget_dset_same by auto. auto.
           ++ destruct (G5 j Hj) as (a & a' & pa & qa & pwa & A1 & A2 & A3 & A4).
              assert (Nj : j <> id) by (intros ->; apply Nd; rewrite G0; apply in_or_app; now left). rewrite dget_dset_other in A1 by auto.
              exists a, a', pa, qa, pwa. repeat split; auto. eapply pass1_core; eauto.
Qed.

(** ** What the user has set for the wells *)
Definition fixedw (w : well F) := (w_qsp w, w_pwfsp w, w_r w, w_s w, w_req w, w_G w).
Definition fixm (d : list (Z * well F)) := map (fun kv => (fst kv, fixedw (snd kv))) d.
Lemma fixm_dset k w w' d : dget k d = Some w -> fixedw w' = fixedw w -> fixm (dset k w' d) = fixm d.
Proof.
  intros E H. unfold fixm. induction d as [|[k0 v0] d IH]; simpl in *; [discriminate|]. destruct (Z.eqb_spec k k0); simpl.
  - inversion E; subst. now rewrite H.
  - now rewrite IH.
Qed.
Lemma fixm_keys d : dkeys d = map fst (fixm d).
Proof. unfold fixm, dkeys. rewrite map_map. reflexivity. Qed.
Lemma fixm_get d d' k w : fixm d = fixm d' -> dget k d = Some w -> exists w', dget k d' = Some w' /\ fixedw w' = fixedw w.
Proof.
  unfold fixm. revert d'. induction d as [|[k0 v0] d IH]; intros [|[k1 v1] d'] E H; simpl in *; try discriminate.
  assert (E1 : k0 = k1) by congruence. assert (E2 : fixedw v0 = fixedw v1) by congruence. assert (E3 : map (fun kv => (fst kv, fixedw (snd kv))) d = map (fun kv => (fst kv, fixedw (snd kv))) d') by congruence. subst k1.
  destruct (Z.eqb_spec k k0); [inversion H; subst; exists v1; auto|]. eauto.
Qed.
Definition fx v (x : st F) := fixm (b_wells (fst x)) = v.
Lemma fx_uw v id f : (forall w, fixedw (f w) = fixedw w) -> inv (fx v) (upd_wells id f).
Proof.
  intros H. unfold upd_wells, fx. apply i_set. intros [m s] [m' s'] Hx E. cbn [fst snd] in *. unfold dgetE in E. destruct (dget id (b_wells m)) as [w|] eqn:Ew; [|discriminate].
  cbn [rbind] in E. inversion E; subst. rewrite wells_set_wells. eapply fixm_dset; eauto.
Qed.
Lemma fx_put v id q : inv (fx v) (put_r id q).
Proof. unfold put_r, fx. apply i_set. intros [m s] [m' s'] Hx E. cbn [fst snd] in *. destruct (set2 _ _ _ _); cbn [rbind] in E; inversion E; now subst. Qed.
Lemma fx_well v id : inv (fx v) (update_well id).
Proof. unfold update_well. isplit; auto using fx_put; apply fx_uw; intros []; reflexivity. Qed.
Lemma fx_loop v l : forall acc, inv (fx v) (update_wells_loop l acc).
Proof. induction l as [|i l IH]; intros acc; cbn [update_wells_loop]; isplit; auto using fx_well. Qed.
Lemma fx_wells v : inv (fx v) update_wells.
Proof. unfold update_wells. isplit; auto using fx_loop. destruct a0; isplit. apply i_set. intros [[] s] [? ?] Hx E. fin. exact Hx. Qed.
Lemma fx_ub v : inv (fx v) update_boundaries.
Proof. unfold update_boundaries, update_boundary. isplit; auto using fx_put. Qed.
Lemma fx_MB v : inv (fx v) check_MB.
Proof. unfold check_MB, fx. apply i_set. intros [m s] [m' s'] Hx E. cbn [fst snd] in *. destruct (b_cmp m); fin; first [assumption|reflexivity]. Qed.
Lemma fx_rows v A d p : inv (fx v) (new_rows A d p).
Proof. unfold new_rows, fx. isplit; apply i_set; intros [m s] [m' s'] Hx E; cbn [fst snd] in *; fin; first [assumption|reflexivity]. Qed.
Lemma fx_system v sc o : inv (fx v) (get_system sc o).
Proof.
  intros x Hx. pose proof (system_pub sc o x) as P. unfold fx in *. rewrite <- Hx. f_equal. unfold pub, settings in P. congruence.
Qed.
Section solver.
Context (slv : solver_kind -> @mat F -> list (fl F) -> res (list (fl F))) (sc : Z -> F).
Lemma fx_solve v fuel sparse : forall o, inv (fx v) (solve slv sc fuel sparse o).
Proof.
  induction fuel as [|fuel IH]; intros o; cbn [solve]; isplit; auto using fx_system, fx_rows, fx_ub, fx_wells, fx_MB.
  apply i_set. intros [m s] [m' s'] Hx E. inversion E; subst. exact Hx.
Qed.

(** ** The passes of a step *)
Definition cgs_opts (o : sopts) := mkOpts (o_thr o) (o_vect o) false true false (Some "cgs"%string).
Definition wellsof (m : bo F) := (b_wells m, b_wp m).
Lemma wo_ub v : inv (fun x : st F => wellsof (fst x) = v) update_boundaries.
Proof. unfold update_boundaries, update_boundary, put_r. isplit. apply i_set. intros [? ?] [? ?] Hx Ex. fin. first [assumption|reflexivity]. Qed.
Lemma prefix_ok o m s m1 s1 A d p X3 X4 : shaped s -> get_system sc o (m, s) = ((m1, s1), Ok (A, d)) ->
  new_rows A d p (m1, s1) = (X3, Ok tt) -> update_boundaries X3 = (X4, Ok tt) ->
  exists row, set_many (b_ids m) p (last (s_p s) []) = Ok row /\
    tailed (s_p s ++ [row]) (s_r s) (s_As s ++ [A], s_ds s ++ [d]) (s_nsteps s) (core m) (b_bdict m) (b_bup m) X4 /\
    wellsof (fst X4) = wellsof m.
Proof.
  intros L E1 E3 E4. pose proof (system_pub sc o (m, s)) as P1. rewrite E1 in P1. cbn [fst snd] in P1.
  unfold pub in P1. cbn [fst snd] in P1. assert (Pc : core m1 = core m) by congruence. assert (Ps : settings m1 = settings m) by congruence.
  assert (Pr : results s1 = results s) by congruence. unfold settings in Ps. unfold results in Pr.
  assert (Rp : s_p s1 = s_p s) by congruence. assert (Rr : s_r s1 = s_r s) by congruence. assert (Rt : s_tstep s1 = s_tstep s) by congruence.
  assert (Rn : s_nsteps s1 = s_nsteps s) by congruence. assert (RA : s_As s1 = s_As s) by congruence. assert (Rd : s_ds s1 = s_ds s) by congruence.
  assert (Sw : b_wells m1 = b_wells m) by congruence. assert (Swp : b_wp m1 = b_wp m) by congruence. assert (Sb : b_bdict m1 = b_bdict m) by congruence. assert (Su : b_bup m1 = b_bup m) by congruence.
  assert (L' : shaped s1) by (unfold shaped in *; rewrite Rp, Rr, Rt; exact L).
  assert (Ei : b_ids m1 = b_ids m) by apply (core_fields _ _ Pc).
  destruct (rows_ok _ _ _ _ _ _ L' E3) as (row & R1 & Rm & R2 & _). rewrite Ei, Rp in R1.
  rewrite Rp, Rr, RA, Rd, Rn, Pc, Sb, Su in R2. exists row. split; auto. split.
  - pose proof (ta_ub _ _ _ _ _ _ _ X3 R2) as H. rewrite E4 in H. exact H.
  - pose proof (wo_ub (wellsof m) X3) as H. rewrite E4 in H. apply H. rewrite Rm. unfold wellsof. congruence.
Qed.
Lemma solve_cases fuel sparse o m s X : shaped s -> o_upd o = true -> solve slv sc (S fuel) sparse o (m, s) = (X, Ok tt) ->
  exists A d p k row X4 again X5 X6, pick_solver sparse (o_iso o) = Ok k /\ slv k A d = Ok p /\ set_many (b_ids m) p (last (s_p s) []) = Ok row /\
    snd (get_system sc o (m, s)) = Ok (A, d) /\
    tailed (s_p s ++ [row]) (s_r s) (s_As s ++ [A], s_ds s ++ [d]) (s_nsteps s) (core m) (b_bdict m) (b_bup m) X4 /\
    wellsof (fst X4) = wellsof m /\ update_wells X4 = (X5, Ok again) /\
    tailed (s_p s ++ [row]) (s_r s) (s_As s ++ [A], s_ds s ++ [d]) (s_nsteps s) (core m) (b_bdict m) (b_bup m) X5 /\
    (if again then solve slv sc fuel sparse (cgs_opts o) (fst X5, drop_rows (snd X5)) = (X6, Ok tt) else X6 = X5) /\
    mwhen (o_mb o) check_MB X6 = (X, Ok tt).
Proof.
  intros L U E. cbn [solve] in E.
  apply mbind_ok in E as ([A d] & [m1 s1] & E1 & E).
  apply mbind_ok in E as (p & X2 & E2 & E). apply mread_ok in E2 as (-> & E2). cbn [fst snd] in E2.
  destruct (pick_solver sparse (o_iso o)) as [k|] eqn:Ek; [|discriminate]. cbn [rbind] in E2.
  rewrite U in E. cbv beta match in E. apply mbind_ok in E as ([] & X3 & E3 & E).
  apply mbind_ok in E as ([] & X4 & E4 & E).
  destruct (prefix_ok _ _ _ _ _ _ _ _ _ _ L E1 E3 E4) as (row & R1 & R4 & W4).
  apply mbind_ok in E as (again & X5 & E5 & E). pose proof (ta_update_wells _ _ _ _ _ _ _ X4 R4) as R5. rewrite E5 in R5. cbn [fst] in R5.
  apply mbind_ok in E as ([] & X6 & E6 & E).
  exists A, d, p, k, row, X4, again, X5, X6. rewrite E1. cbn [snd]. do 8 (split; auto). split; auto.
  destruct again; cbn [mwhen] in E6; [|now inversion E6].
  apply mbind_ok in E6 as ([] & X7 & E7 & E8). apply mset_ok in E7. inversion E7; subst X7. exact E8.
Qed.
Lemma MB_keeps b (Y X : st F) : mwhen b check_MB Y = (X, Ok tt) -> fst X = fst Y /\ s_p (snd X) = s_p (snd Y) /\ s_r (snd X) = s_r (snd Y) /\ s_tstep (snd X) = s_tstep (snd Y) /\ s_As (snd X) = s_As (snd Y).
Proof.
  destruct b; cbn [mwhen]; [|intros E; inversion E; auto]. unfold check_MB. intros E. apply mset_ok in E. destruct Y as [m []]. destruct (b_cmp m); fin; auto.
Qed.
Lemma solve_last fuel sparse : forall o m s X, shaped s -> o_upd o = true -> solve slv sc fuel sparse o (m, s) = (X, Ok tt) ->
  exists Y Y', update_wells Y = (Y', Ok false) /\ core (fst Y) = core m /\ fixm (b_wells (fst Y)) = fixm (b_wells m) /\ b_wp (fst Y) = b_wp m /\
    fst X = fst Y' /\ s_p (snd X) = s_p (snd Y') /\ s_r (snd X) = s_r (snd Y') /\ s_tstep (snd X) = s_tstep (snd Y') /\
    s_tstep (snd Y) = S (s_tstep s) /\
    (length (s_As (snd X)) = S (length (s_As s)) -> b_wells (fst Y) = b_wells m).
Proof.
  induction fuel as [|fuel IH]; intros o m s X L U E; [discriminate|].
  destruct (solve_cases _ _ _ _ _ _ L U E) as (A & d & p & k & row & X4 & again & X5 & X6 & C1 & C2 & C3 & C4 & C5 & C6 & C7 & C8 & C9 & C10).
  destruct (MB_keeps _ _ _ C10) as (K1 & K2 & K3 & K4 & K5). unfold wellsof in C6. assert (W4 : b_wells (fst X4) = b_wells m) by congruence. assert (P4 : b_wp (fst X4) = b_wp m) by congruence.
  destruct again.
  - destruct X5 as [m5 s5]. cbn [fst snd] in *. destruct (drop_ok m5 s row s5 _ _ _ _ _ _ _ L eq_refl eq_refl C8) as (D1 & D2 & D3 & D4 & D5).
    assert (L5 : shaped (drop_rows s5)) by (unfold shaped in *; rewrite D1, D2, D3; exact L).
    destruct (IH (cgs_opts o) m5 (drop_rows s5) X6 L5 eq_refl C9) as (Y & Y' & Y1 & Y2 & Y3 & Y4 & Y5 & Y6 & Y7 & Y8 & Y9 & Y10).
    destruct (solve_ok slv sc _ _ (cgs_opts o) _ _ _ L5 eq_refl C9) as (n & (k' & A' & d' & p' & row' & la & lb & _ & _ & _ & Nl & _ & T) & _).
    exists Y, Y'. split; auto. destruct C8 as (_ & _ & _ & _ & _ & C8 & _). cbn [fst snd] in C8. split; [congruence|].
    assert (P5 : b_wp m5 = b_wp (fst X4)).
    { unfold update_wells in C7. apply mbind_ok in C7 as (ids & X41 & Q1 & C7). apply mread_ok in Q1 as (-> & Q1).
      apply mbind_ok in C7 as (t & X42 & Q2 & C7). destruct t as [t|]; [apply mbind_ok in C7 as ([] & X43 & Q3 & C7); inversion C7|].
      inversion C7; subst X42.
      assert (I : forall l acc, inv (fun x : st F => b_wp (fst x) = b_wp (fst X4)) (update_wells_loop l acc)).
      { induction l as [|i l IHl]; intros acc; cbn [update_wells_loop]; isplit; auto. unfold update_well, upd_wells, put_r. isplit;
        apply i_set; intros [[] ?] [? ?] Hx Ex; cbn [fst snd] in *; fin; exact Hx. }
      pose proof (I ids [] X4 eq_refl) as H. rewrite Q2 in H. exact H. }
    split. { rewrite Y3. pose proof (fx_wells (fixm (b_wells m)) X4) as H. rewrite C7 in H. apply H. unfold fx. now rewrite W4. }
    split; [congruence|]. split; [congruence|]. split; [congruence|]. split; [congruence|]. split; [congruence|]. split; [congruence|].
    intros Q. exfalso. destruct T as (_ & _ & _ & T & _). inversion T as [[TA Td]]. inversion D4 as [[DA Dd]].
    rewrite K5, TA, DA, !app_length in Q. cbn in Q. lia.
  - subst X6. destruct C5 as (_ & _ & T5 & _ & _ & CC & _). exists X4, X5. repeat split; auto; try congruence. rewrite T5. apply L.
Qed.
End solver.

Lemma update_wells_ok (Y Y' : st F) b : NoDup (dkeys (b_wells (fst Y))) -> (forall id, In id (dkeys (b_wells (fst Y))) -> 0 <= id)%Z -> update_wells Y = (Y', Ok b) ->
  exists Z t, update_wells_loop (dkeys (b_wells (fst Y))) [] Y = (Z, Ok t) /\ b_wells (fst Y') = b_wells (fst Z) /\ snd Y' = snd Z /\
    (b = false <-> t <> None) /\
    (forall id, b = false -> In id (dkeys (b_wells (fst Y))) ->
       exists v, dget id (b_wp (fst Y')) = Some (match dget id (b_wp (fst Z)) with Some l => l | None => [] end ++ [v])) /\
    (b = true -> Y' = Z).
Proof.
  intros D P E. unfold update_wells in E. apply mbind_ok in E as (ids & X1 & Q1 & E). apply mread_ok in Q1 as (-> & Q1). inversion Q1; subst ids; clear Q1.
  apply mbind_ok in E as (t & Z & Q2 & E). exists Z, t. split; auto. destruct t as [t|].
  - apply mbind_ok in E as ([] & X3 & Q3 & E). inversion E; subst. clear E Q2 P.
    assert (H : forall l Z, NoDup l -> miter (fun id => mset (fun x : st F => let* p := dgetE id t in Ok (set_wp (dappend id p (b_wp (fst x))) (fst x), snd x))) l Z = (Y', Ok tt) ->
      b_wells (fst Y') = b_wells (fst Z) /\ snd Y' = snd Z /\ (forall id, ~ In id l -> dget id (b_wp (fst Y')) = dget id (b_wp (fst Z))) /\
      forall id, In id l -> exists v, dget id (b_wp (fst Y')) = Some (match dget id (b_wp (fst Z)) with Some l => l | None => [] end ++ [v])).
    { induction l as [|i l IH]; intros [m0 s0] Nd Ei; cbn [miter] in Ei; [inversion Ei; subst; repeat split; auto; intros ? []|].
      apply mbind_ok in Ei as ([] & X4 & E4 & Ei). apply mset_ok in E4. destruct (dgetE i t) as [p|]; [|discriminate]. cbn [rbind fst snd] in E4. inversion E4; subst X4; clear E4.
      inversion Nd; subst. destruct (IH _ H2 Ei) as (I1 & I2 & I3 & I4). cbn [fst snd] in *. rewrite wells_set_wp in I1. rewrite wp_set_wp in I3, I4.
      split; auto. split; auto. unfold dappend in *. split.
      - intros id N. rewrite I3 by (intros J; apply N; now right). apply dget_dset_other. intros ->. apply N. now left.
      - intros id [<-|J].
        + exists p. rewrite I3 by auto. apply dget_dset_same.
        + destruct (I4 id J) as (v & Ev). exists v. rewrite Ev, dget_dset_other; auto. intros ->. contradiction. }
    destruct (H _ _ D Q3) as (H1 & H2 & H3 & H4). repeat split; auto; try discriminate; congruence.
  - inversion E; subst. repeat split; auto; try discriminate; congruence.
Qed.
End wells.

(** ** The wells of a history *)
Section keys.
Context {F : Type} {NF : Num F} {NT : NumT F} (ids0 : list Z).
Definition wkeys (x : ws F) : Prop :=
  b_ids (fst x) = ids0 /\ NoDup (dkeys (b_wells (fst x))) /\ forall id, In id (dkeys (b_wells (fst x))) -> In id ids0.
Lemma wk_set id w (x : ws F) : In id ids0 -> wkeys x -> wkeys (set_wells (dset id w (b_wells (fst x))) (fst x), snd x).
Proof.
  intros I (H1 & H2 & H3). unfold wkeys. cbn [fst]. rewrite ids_set_wells, wells_set_wells. split; auto. split; [now apply keys_dset|].
  intros i J. apply in_keys_dset in J as [->|J]; auto.
Qed.
Lemma wk_upd_well id f : inv wkeys (upd_well id f).
Proof.
  unfold upd_well. apply i_set. intros x x' Hx E. unfold dgetE in E. destruct (dget id (b_wells (fst x))) as [w|] eqn:Ew; [|discriminate]. cbn [rbind] in E.
  destruct (f (fst x) w); [|discriminate]. cbn [rbind] in E. inversion E; subst. apply wk_set; auto. apply Hx. apply dget_keys. congruence.
Qed.
Ltac nowell := apply i_set; intros [[] o] [? ?] Hx E; cbn [fst snd] in *; fin; exact Hx.
Lemma wk_log id : inv wkeys (log_pressure id).
Proof. unfold log_pressure. nowell. Qed.
Lemma wk_tail id : inv wkeys (set_well_tail id).
Proof. unfold set_well_tail. isplit; auto using wk_upd_well, wk_log. Qed.
Lemma wk_inside {A} id (c : M (ws F) A) : (In id ids0 -> inv wkeys c) -> inv wkeys (do _ <- assert_inside id ;; c).
Proof.
  intros H x Hx. unfold assert_inside, mbind, mread, passert. destruct Hx as (H1 & H2) eqn:?. destruct (zmem id (b_ids (fst x))) eqn:Z; [|exact Hx].
  apply H; [|exact Hx]. rewrite <- H1. unfold zmem in Z. apply existsb_exists in Z as (i & Hi & Ei). apply Z.eqb_eq in Ei. now subst.
Qed.
Lemma wk_set_well cell q pwf r s : inv wkeys (set_well cell q pwf r s).
Proof.
  unfold set_well. destruct cell as [id|]; [|apply i_read]. apply wk_inside. intros I. isplit; auto using wk_upd_well, wk_log, wk_tail.
  apply i_set. intros x x' Hx E. destruct (din id (b_wells (fst x))); inversion E; subst; auto. now apply wk_set.
Qed.
Lemma wk_set_well_obj w cell : inv wkeys (set_well_obj w cell).
Proof.
  unfold set_well_obj. apply i_bind; [apply i_read|]. intros id. apply wk_inside. intros I. isplit; auto using wk_tail.
  apply i_set. intros x x' Hx E. inversion E; subst; auto. now apply wk_set.
Qed.
Lemma wk_put_p id w : inv wkeys (put_pressure id w). Proof. unfold put_pressure. nowell. Qed.
Lemma wk_put_q id w : inv wkeys (put_rate id w). Proof. unfold put_rate. nowell. Qed.
Lemma wk_boundary id c w : inv wkeys (set_boundary id c w).
Proof. unfold set_boundary. isplit; auto using wk_put_p, wk_put_q. Qed.
Lemma wk_boundaries bd : inv wkeys (set_boundaries bd).
Proof. unfold set_boundaries. isplit; try (nowell; fail). destruct a1 as [id [c w]]. isplit. apply wk_boundary. Qed.
Lemma wk_all c w : inv wkeys (set_all_boundaries c w).
Proof. unfold set_all_boundaries. isplit. apply wk_boundary. Qed.
Lemma fx_run slv sc n fuel sparse thr vect mb pr iso v : inv (fx v) (run (F := F) slv sc n fuel sparse thr vect mb pr iso).
Proof.
  unfold run. isplit; [apply i_set; intros [? ?] [? ?] Hx E; inversion E; subst; exact Hx|].
  assert (H : forall k o, inv (fx v) (run_loop slv sc k fuel sparse o)); [|apply H].
  induction k as [|k IH]; intros o; cbn [run_loop]; isplit; auto using fx_solve.
Qed.
Lemma wk_exec c : inv wkeys (exec c).
Proof.
  destruct c; cbn [exec]; auto using wk_set_well, wk_set_well_obj, wk_boundary, wk_boundaries, wk_all.
  - apply i_set. intros x x' Hx E. inversion E; subst. exact Hx.
  - intros [m o'] (H1 & H2 & H3). unfold of_solution. destruct o' as [s|]; cbn [fst snd] in *; [|split; auto].
    pose proof (fx_solve slv sc (fixm (b_wells m)) fuel sparse o (m, s) eq_refl) as H.
    assert (C : core (fst (fst (solve slv sc fuel sparse o (m, s)))) = core m) by
      (apply (c_solve (fun y => core y = core m)); auto; intros; rewrite ?core_ip, ?core_ir, ?core_wells, ?core_wp, ?core_bdict, ?core_bup, ?core_terms; auto).
    destruct (solve slv sc fuel sparse o (m, s)) as [y r]. cbn [fst snd] in *. unfold fx, wkeys in *. cbn [fst snd] in *.
    destruct (core_fields _ _ C) as (_ & C2 & _). rewrite fixm_keys, H, <- fixm_keys, C2. auto.
  - intros [m o'] (H1 & H2 & H3). unfold of_solution. destruct o' as [s|]; cbn [fst snd] in *; [|split; auto].
    pose proof (fx_run slv sc n fuel sparse thr vect mb pr iso (fixm (b_wells m)) (m, s) eq_refl) as H.
    assert (C : core (fst (fst (run slv sc n fuel sparse thr vect mb pr iso (m, s)))) = core m) by
      (apply (c_run (fun y => core y = core m)); auto; intros; rewrite ?core_ip, ?core_ir, ?core_wells, ?core_wp, ?core_bdict, ?core_bup, ?core_terms; auto).
    destruct (run slv sc n fuel sparse thr vect mb pr iso (m, s)) as [y r]. cbn [fst snd] in *. unfold fx, wkeys in *. cbn [fst snd] in *.
    destruct (core_fields _ _ C) as (_ & C2 & _). rewrite fixm_keys, H, <- fixm_keys, C2. auto.
Qed.
Lemma wk_after l : forall x, wkeys x -> wkeys (after x l).
Proof. induction l as [|c l IH]; intros x Px; cbn [after fold_left]; auto. apply IH. now apply (wk_exec c). Qed.
End keys.
