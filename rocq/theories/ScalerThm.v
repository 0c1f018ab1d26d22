(** Property lemmas about scalers (see P_Scaler.v). *)
From Coq Require Import String ZArith Reals Bool Lra Lia List.
From Verif Require Import Prelude PreludeFacts Num UnitsModel ScalerModel ScalerSpec.
Import ListNotations.
Local Open Scope string_scope.
Local Open Scope R_scope.

Lemma map2_length {A B C} (f : A -> B -> C) l m : length l = length m -> length (map2 f l m) = length m.
Proof. intros H. unfold map2. rewrite map_length, combine_length. lia. Qed.
Lemma nth_map2 {A B C} (f : A -> B -> C) l m i da db dc :
  (i < length l)%nat -> (i < length m)%nat -> nth i (map2 f l m) dc = f (nth i l da) (nth i m db).
Proof.
  revert m i. induction l as [|a l IH]; intros [|b m] i H1 H2; simpl in *; try lia.
  destruct i; [reflexivity|]. apply IH; lia.
Qed.
Lemma broadcast_ok (f : R -> R -> R -> R) lo hi v :
  fits v lo -> fits v hi -> exists w, broadcast f lo hi v = Ok w /\ nd_shape w = nd_shape v /\
  length (nd_data w) = length (nd_data v) /\
  forall i, (i < length (nd_data v))%nat ->
   entry w i = f (entry v i) (rng_at (last (nd_shape v) 1%nat) lo i) (rng_at (last (nd_shape v) 1%nat) hi i).
Proof.
  intros H1 H2. unfold broadcast.
  assert (E : (rng_len_ok (last (nd_shape v) 1%nat) lo && rng_len_ok (last (nd_shape v) 1%nat) hi)%bool = true).
  { apply andb_true_iff; split; [destruct lo|destruct hi]; simpl in *; auto; now apply Nat.eqb_eq. }
  rewrite E. eexists. split; [reflexivity|]. split; [reflexivity|]. cbn [nd_data nd_shape].
  split; [apply map2_length; now rewrite seq_length|].
  intros i Hi. unfold entry. cbn [nd_data].
  rewrite nth_map2 with (da := 0%nat) (db := 0); [|now rewrite seq_length|assumption].
  rewrite seq_nth by assumption. reflexivity.
Qed.
Lemma nda_ext (v w : nda R) : nd_shape v = nd_shape w -> length (nd_data v) = length (nd_data w) ->
  (forall i, (i < length (nd_data v))%nat -> entry v i = entry w i) -> v = w.
Proof.
  destruct v as [s d], w as [s' d']. cbn. intros -> H1 H2. f_equal. apply nth_ext with (d := 0) (d' := 0); auto.
Qed.
Lemma rng_at_end d (r : rng R) i : rng_at d r i = end_at r (Nat.modulo i d).
Proof. destruct r; reflexivity. Qed.
Lemma proper_d v i : proper v -> (i < length (nd_data v))%nat -> (0 < last (nd_shape v) 1)%nat.
Proof.
  unfold proper. intros H Hi. rewrite H in Hi. clear H. apply Nat.le_lt_trans with (n := 0%nat) in Hi; [|lia].
  destruct (last (nd_shape v) 1%nat) eqn:E; [|lia]. exfalso.
  destruct (nd_shape v) as [|a s] eqn:E2; [discriminate|]. clear E2. revert a E Hi. induction s as [|b s IH]; intros a E Hi.
  - simpl in E. subst. simpl in Hi. lia.
  - apply (IH b); [exact E|]. cbn [fold_right] in *. destruct (b * fold_right Nat.mul 1 s)%nat; lia.
Qed.
Lemma range_ends lo hi v i : proper_range lo hi -> fits v lo -> fits v hi -> proper v -> (i < length (nd_data v))%nat ->
  rng_at (last (nd_shape v) 1%nat) lo i <> rng_at (last (nd_shape v) 1%nat) hi i.
Proof.
  intros P H1 H2 Hv Hi. pose proof (proper_d v i Hv Hi) as D.
  assert (M : (Nat.modulo i (last (nd_shape v) 1) < last (nd_shape v) 1)%nat) by (apply Nat.mod_upper_bound; lia).
  destruct lo as [a|a], hi as [b|b]; simpl in *; auto.
  - apply P. now rewrite H2.
  - apply P. now rewrite H1.
  - apply P. now rewrite H1.
Qed.

(** Scaling is invertible in both directions, and the ends of the input range
    go to the ends of the output range. *)
Lemma L_C66_invertible :
  forall (Vlo Vhi : R) (lo hi : rng R) (v : nda R),
  Vlo <> Vhi -> proper_range lo hi -> fits v lo -> fits v hi -> proper v ->
  let m := mm_new (Vlo, Vhi) (Some (lo, hi)) in
  (exists w, mm_transform m v = Ok w /\ mm_inverse m w = Ok v /\
     forall i, (i < length (nd_data v))%nat ->
       let c := Nat.modulo i (last (nd_shape v) 1%nat) in
       (entry v i = end_at lo c -> entry w i = Vlo) /\ (entry v i = end_at hi c -> entry w i = Vhi)) /\
  (exists w, mm_inverse m v = Ok w /\ mm_transform m w = Ok v).
Proof.
  intros Vlo Vhi lo hi v HV HP H1 H2 Hv m. unfold mm_transform, mm_inverse. cbn [vmin vmax m mm_new option_map fst snd Vmin Vmax].
  split.
  - match goal with |- exists w, broadcast ?f lo hi v = _ /\ broadcast ?g _ _ _ = _ /\ _ =>
      destruct (broadcast_ok f lo hi v H1 H2) as (w & E & S & L & W); exists w; rewrite E; split; [reflexivity|];
      destruct (broadcast_ok g lo hi w) as (u & E' & S' & L' & W') end.
    { destruct lo; simpl in *; [exact I|now rewrite S]. }
    { destruct hi; simpl in *; [exact I|now rewrite S]. }
    split.
    + rewrite E'. f_equal. apply nda_ext; [congruence|congruence|]. intros i Hi. rewrite W' by congruence.
      rewrite S. rewrite W by congruence. pose proof (range_ends lo hi v i HP H1 H2 Hv) as K.
      rewrite L' in Hi. rewrite L in Hi. specialize (K Hi). cbn. field. split; intros X; [apply K; lra|apply HV; lra].
    + intros i Hi. set (c := Nat.modulo i (last (nd_shape v) 1%nat)). rewrite W by assumption. rewrite !rng_at_end. fold c.
      pose proof (range_ends lo hi v i HP H1 H2 Hv Hi) as K. rewrite !rng_at_end in K. fold c in K.
      split; intros ->; cbn; field; intros X; apply K; lra.
  - match goal with |- exists w, broadcast ?f lo hi v = _ /\ broadcast ?g _ _ _ = _ =>
      destruct (broadcast_ok f lo hi v H1 H2) as (w & E & S & L & W); exists w; rewrite E; split; [reflexivity|];
      destruct (broadcast_ok g lo hi w) as (u & E' & S' & L' & W') end.
    { destruct lo; simpl in *; [exact I|now rewrite S]. }
    { destruct hi; simpl in *; [exact I|now rewrite S]. }
    rewrite E'. f_equal. apply nda_ext; [congruence|congruence|]. intros i Hi. rewrite W' by congruence.
    rewrite S. rewrite W by congruence. pose proof (range_ends lo hi v i HP H1 H2 Hv) as K.
    rewrite L' in Hi. rewrite L in Hi. specialize (K Hi). cbn. field. split; intros X; [apply HV; lra|apply K; lra].
Qed.
Example ex_C66_hyps :
  proper_range (RV [0; 1]) (RV [2; 3]) /\ fits (mkNda [2%nat; 2%nat] [0; 1; 2; 3]) (RV [0; 1]) /\
  proper (mkNda [2%nat; 2%nat] [0; 1; 2; 3]).
Proof. repeat split. intros [|[|i]] H; simpl in *; try lia; lra. Qed.

(** *** minima and maxima *)
Lemma Reqb_refl a : Reqb a a = true.
Proof. unfold Reqb. destruct (Req_EM_T a a); congruence. Qed.
Lemma nmin_R (a b : R) : nmin a b = if Rltb b a then b else a.
Proof. unfold nmin. cbn [nltb neqb Num_R]. now rewrite Reqb_refl, orb_false_r. Qed.
Lemma nmax_R (a b : R) : nmax a b = if Rltb a b then b else a.
Proof. unfold nmax. cbn [nltb neqb Num_R]. now rewrite Reqb_refl, orb_false_r. Qed.
Lemma fold_min l a : let m := fold_left (nmin (F := R)) l a in
  m <= a /\ (forall x, In x l -> m <= x) /\ (m = a \/ In m l).
Proof.
  revert a. induction l as [|b l IH]; intros a; cbn [fold_left].
  - cbn. repeat split; [lra|intros x []|now left].
  - specialize (IH (nmin a b)). cbn zeta in *. destruct IH as (I1 & I2 & I3).
    assert (M : nmin a b <= a /\ nmin a b <= b /\ (nmin a b = a \/ nmin a b = b)).
    { rewrite nmin_R. unfold Rltb. destruct (Rlt_dec b a); repeat split; try lra; auto. }
    destruct M as (M1 & M2 & M3). split; [lra|]. split.
    + intros x [<-|Hx]; [lra|auto].
    + destruct I3 as [I3|I3]; [|right; now right]. rewrite I3. destruct M3 as [->| ->]; [now left|right; now left].
Qed.
Lemma fold_max l a : let m := fold_left (nmax (F := R)) l a in
  a <= m /\ (forall x, In x l -> x <= m) /\ (m = a \/ In m l).
Proof.
  revert a. induction l as [|b l IH]; intros a; cbn [fold_left].
  - cbn. repeat split; [lra|intros x []|now left].
  - specialize (IH (nmax a b)). cbn zeta in *. destruct IH as (I1 & I2 & I3).
    assert (M : a <= nmax a b /\ b <= nmax a b /\ (nmax a b = a \/ nmax a b = b)).
    { rewrite nmax_R. unfold Rltb. destruct (Rlt_dec a b); repeat split; try lra; auto. }
    destruct M as (M1 & M2 & M3). split; [lra|]. split.
    + intros x [<-|Hx]; [lra|auto].
    + destruct I3 as [I3|I3]; [|right; now right]. rewrite I3. destruct M3 as [->| ->]; [now left|right; now left].
Qed.
Lemma reduce_min l x : reduce (nmin (F := R)) l = Ok x -> (forall y, In y l -> x <= y) /\ In x l.
Proof.
  destruct l as [|a l]; [discriminate|]. cbn. intros [= <-]. destruct (fold_min l a) as (A & B & C). split.
  - intros y [<-|Hy]; auto.
  - destruct C as [->|C]; auto.
Qed.
Lemma reduce_max l x : reduce (nmax (F := R)) l = Ok x -> (forall y, In y l -> y <= x) /\ In x l.
Proof.
  destruct l as [|a l]; [discriminate|]. cbn. intros [= <-]. destruct (fold_max l a) as (A & B & C). split.
  - intros y [<-|Hy]; auto.
  - destruct C as [->|C]; auto.
Qed.
Lemma rmapM_nth {A B} (f : A -> res B) l r (d : A) (e : B) :
  rmapM f l = Ok r -> length r = length l /\ forall i, (i < length l)%nat -> f (nth i l d) = Ok (nth i r e).
Proof.
  revert r. induction l as [|a l IH]; intros r H; cbn [rmapM] in H.
  - injection H as <-. split; [reflexivity|]. cbn. lia.
  - apply rbind_ok in H as (b & Hb & H). apply rbind_ok in H as (bs & Hbs & H). injection H as <-.
    destruct (IH bs Hbs) as (L & N). split; [cbn; lia|]. intros [|i] Hi; cbn in *; [assumption|]. apply N. lia.
Qed.
Lemma column_In r c (l : list R) j x : length l = (r * c)%nat -> (j < c)%nat ->
  (In x (column r c l j) <-> exists i, (i < length l)%nat /\ Nat.modulo i c = j /\ nth i l 0 = x).
Proof.
  intros L J. unfold column. rewrite in_map_iff. split.
  - intros (k & <- & Hk). apply in_seq in Hk. exists (k * c + j)%nat. split; [rewrite L; nia|]. split; [|reflexivity].
    rewrite Nat.add_comm, Nat.mod_add by lia. now apply Nat.mod_small.
  - intros (i & Hi & Hm & <-). exists (Nat.div i c). split.
    + rewrite (Nat.div_mod i c) at 2 by lia. rewrite Hm. now rewrite Nat.mul_comm.
    + apply in_seq. split; [lia|]. cbn. apply Nat.div_lt_upper_bound; lia.
Qed.
Lemma In_entry v x : In x (nd_data v) <-> exists i, (i < length (nd_data v))%nat /\ entry v i = x.
Proof.
  split; [intros H; destruct (In_nth _ _ 0 H) as (i & A & B); exists i; split; [exact A|exact B]|]. intros (i & A & <-). now apply nth_In.
Qed.
(** What a reduction gives, seen from any entry of the array. *)
Lemma np_reduce_spec (f : R -> R -> R) (le : R -> R -> Prop) axis0 v r :
  (forall l x, reduce f l = Ok x -> (forall y, In y l -> le x y) /\ In x l) ->
  proper v -> (axis0 = true -> (length (nd_shape v) <= 2)%nat) -> np_reduce f axis0 v = Ok r ->
  fits v r /\ forall i, (i < length (nd_data v))%nat ->
   let x := rng_at (last (nd_shape v) 1%nat) r i in
   (forall j, (j < length (nd_data v))%nat -> same_range axis0 (nd_shape v) i j -> le x (entry v j)) /\
   (exists j, (j < length (nd_data v))%nat /\ same_range axis0 (nd_shape v) i j /\ entry v j = x).
Proof.
  intros HF Hv Hdim H.
  assert (Plain : (let* x := reduce f (nd_data v) in Ok (RS x)) = Ok r ->
     fits v r /\ forall i, (i < length (nd_data v))%nat ->
       let x := rng_at (last (nd_shape v) 1%nat) r i in
       (forall j, (j < length (nd_data v))%nat -> le x (entry v j)) /\
       (exists j, (j < length (nd_data v))%nat /\ entry v j = x)).
  { intros E. apply rbind_ok in E as (x & Ex & E). injection E as <-. destruct (HF _ _ Ex) as (A & B). split; [exact I|].
    intros i Hi. cbn. split.
    - intros j Hj. apply A, In_entry. eauto.
    - apply In_entry in B. exact B. }
  unfold np_reduce in H. unfold same_range. destruct axis0; [|destruct (Plain H) as (P1 & P2); split; [exact P1|];
    intros i Hi; destruct (P2 i Hi) as (Q1 & j & Q2 & Q3); split; [auto|exists j; auto]].
  destruct (nd_shape v) as [|r0 [|c [|x s]]] eqn:Sh.
  1,2,4: destruct (Plain H) as (P1 & P2); split; [exact P1|];
    intros i Hi; destruct (P2 i Hi) as (Q1 & j & Q2 & Q3); split; [auto|exists j; auto].
  apply rbind_ok in H as (l & El & H). injection H as <-.
  destruct (rmapM_nth _ _ _ 0%nat 0 El) as (L & N). rewrite seq_length in *.
  unfold proper in Hv. rewrite Sh in Hv. cbn [fold_right] in Hv. rewrite Nat.mul_1_r in Hv.
  cbn [last fits]. rewrite Sh. cbn [last]. split; [exact L|]. intros i Hi. cbn [rng_at].
  assert (C : (0 < c)%nat) by (destruct c; nia).
  pose proof (Nat.mod_upper_bound i c ltac:(lia)) as M. specialize (N _ M). rewrite seq_nth in N by assumption. cbn [plus] in N.
  apply HF in N as (A & B). split.
  - intros j Hj Hs. apply A, column_In; auto. exists j. split; [exact Hj|split; [symmetry; exact Hs|reflexivity]].
  - apply column_In in B as (j & Hj & Hm & E); auto. exists j. split; [exact Hj|split; [symmetry; exact Hm|exact E]].
Qed.
Lemma fit_ok (m : minmax R) v axis0 m' : mm_fit m v axis0 = (m', Ok tt) ->
  exists lo hi, np_reduce nmin axis0 v = Ok lo /\ np_reduce nmax axis0 v = Ok hi /\
  m' = mkMM (Vmin m) (Vmax m) (Some lo) (Some hi) /\ (axis0 = true -> (length (nd_shape v) <= 2)%nat).
Proof.
  unfold mm_fit. destruct (Nat.ltb 2 (length (nd_shape v)) && axis0)%bool eqn:E; [discriminate|].
  destruct (np_reduce nmin axis0 v) as [lo|]; [|discriminate]. destruct (np_reduce nmax axis0 v) as [hi|]; [|discriminate].
  cbn. intros [= <-]. exists lo, hi. repeat split. intros ->. rewrite andb_true_r in E. apply Nat.ltb_ge in E. exact E.
Qed.

(** After a fit, transforming the fitted data stays inside the output range,
    attains both of its ends and keeps the order, column by column for axis=0. *)
Lemma L_C67_range :
  forall (m m' : minmax R) (v : nda R) (axis0 : bool),
  proper v -> Vmin m < Vmax m -> mm_fit m v axis0 = (m', Ok tt) ->
  exists w, mm_transform m' v = Ok w /\ nd_shape w = nd_shape v /\ length (nd_data w) = length (nd_data v) /\
  forall i j, (i < length (nd_data v))%nat -> (j < length (nd_data v))%nat -> same_range axis0 (nd_shape v) i j ->
  entry v i < entry v j ->
  entry w i < entry w j /\ Vmin m <= entry w i /\ entry w j <= Vmax m /\
  (exists k, (k < length (nd_data v))%nat /\ same_range axis0 (nd_shape v) i k /\ entry w k = Vmin m) /\
  (exists k, (k < length (nd_data v))%nat /\ same_range axis0 (nd_shape v) i k /\ entry w k = Vmax m).
Proof.
  intros m m' v axis0 Hv HV H. apply fit_ok in H as (lo & hi & Hlo & Hhi & -> & Hd).
  destruct (np_reduce_spec nmin Rle axis0 v lo reduce_min Hv Hd Hlo) as (F1 & S1).
  destruct (np_reduce_spec nmax Rge axis0 v hi) as (F2 & S2); auto.
  { intros l x E. destruct (reduce_max l x E) as (A & B). split; auto. intros y Hy. apply Rle_ge; auto. }
  unfold mm_transform. cbn [vmin vmax Vmin Vmax].
  match goal with |- exists w, broadcast ?f lo hi v = _ /\ _ =>
    destruct (broadcast_ok f lo hi v F1 F2) as (w & E & S & L & W) end.
  exists w. split; [exact E|]. split; [exact S|]. split; [exact L|]. cbn in W.
  intros i j Hi Hj Hs Hlt.
  assert (Same : forall k, same_range axis0 (nd_shape v) i k ->
    rng_at (last (nd_shape v) 1%nat) lo k = rng_at (last (nd_shape v) 1%nat) lo i /\
    rng_at (last (nd_shape v) 1%nat) hi k = rng_at (last (nd_shape v) 1%nat) hi i).
  { intros k Hk. unfold same_range in Hk. unfold np_reduce in Hlo, Hhi.
    assert (Sc : forall f r, (let* x := reduce f (nd_data v) in Ok (RS x)) = Ok r -> exists x, r = RS (x : R)).
    { intros f r Z. apply rbind_ok in Z as (x & _ & Z). injection Z as <-. eauto. }
    destruct axis0; [|apply Sc in Hlo as (x & ->); apply Sc in Hhi as (y & ->); auto].
    destruct (nd_shape v) as [|r0 [|c [|z s]]];
      try (apply Sc in Hlo as (x & ->); apply Sc in Hhi as (y & ->); now auto).
    apply rbind_ok in Hlo as (x & _ & Z). injection Z as <-. apply rbind_ok in Hhi as (y & _ & Z). injection Z as <-.
    cbn. now rewrite Hk. }
  specialize (S1 i Hi). specialize (S2 i Hi). cbn zeta in S1, S2.
  destruct S1 as (A1 & k1 & Hk1 & Sk1 & E1). destruct S2 as (A2 & k2 & Hk2 & Sk2 & E2).
  destruct (Same j Hs) as (J1 & J2). destruct (Same k1 Sk1) as (K1 & K2). destruct (Same k2 Sk2) as (K3 & K4).
  assert (Hsi : same_range axis0 (nd_shape v) i i) by (unfold same_range; destruct axis0, (nd_shape v) as [|? [|? [|]]]; auto).
  pose proof (A1 i Hi Hsi) as B1. pose proof (A1 j Hj Hs) as B2. pose proof (A2 i Hi Hsi) as B3. pose proof (A2 j Hj Hs) as B4.
  rewrite (W i Hi), (W j Hj). rewrite J1, J2.
  set (a := rng_at (last (nd_shape v) 1%nat) lo i) in *. set (b := rng_at (last (nd_shape v) 1%nat) hi i) in *.
  assert (Hab : 0 < b - a) by lra.
  assert (Hinv : 0 < / (b - a)) by now apply Rinv_0_lt_compat.
  assert (Hq : forall x y, x <= y -> (Vmax m - Vmin m) * (x - a) / (b - a) <= (Vmax m - Vmin m) * (y - a) / (b - a)).
  { intros x y Hxy. unfold Rdiv. apply Rmult_le_compat_r; [lra|]. apply Rmult_le_compat_l; lra. }
  assert (Hq' : forall x y, x < y -> (Vmax m - Vmin m) * (x - a) / (b - a) < (Vmax m - Vmin m) * (y - a) / (b - a)).
  { intros x y Hxy. unfold Rdiv. apply Rmult_lt_compat_r; [lra|]. apply Rmult_lt_compat_l; lra. }
  assert (Q0 : (Vmax m - Vmin m) * (a - a) / (b - a) = 0) by (field; lra).
  assert (Q1 : (Vmax m - Vmin m) * (b - a) / (b - a) = Vmax m - Vmin m) by (field; lra).
  split; [pose proof (Hq' _ _ Hlt); lra|].
  split; [pose proof (Hq _ _ B1); lra|].
  split; [assert (B4' : entry v j <= b) by lra; pose proof (Hq _ _ B4'); lra|].
  split.
  - exists k1. split; [exact Hk1|]. split; [exact Sk1|]. rewrite (W k1 Hk1), K1, K2, E1. lra.
  - exists k2. split; [exact Hk2|]. split; [exact Sk2|]. rewrite (W k2 Hk2), K3, K4, E2. lra.
Qed.
Lemma Rltb_lt a b : a < b -> Rltb a b = true.
Proof. intros. unfold Rltb. destruct (Rlt_dec a b); auto; lra. Qed.
Lemma Rltb_ge a b : b <= a -> Rltb a b = false.
Proof. intros. unfold Rltb. destruct (Rlt_dec a b); auto; lra. Qed.
Example ex_C67_hyps : exists m', mm_fit (mkMM (-1) 1 None None) (mkNda [2%nat; 2%nat] [0; 5; 3; 4]) true = (m', Ok tt) /\
  proper (mkNda [2%nat; 2%nat] [0; 5; 3; 4]) /\ same_range true [2%nat; 2%nat] 0 2.
Proof. eexists. split; [reflexivity|]. split; reflexivity. Qed.

(** *** call sequences *)
Lemma reduce_total (f : R -> R -> R) l : (0 < length l)%nat -> exists x, reduce f l = Ok x.
Proof. destruct l; cbn; [lia|]. intros. eauto. Qed.
Lemma np_reduce_fittable f v a : fittable v a = true ->
  exists r, np_reduce f a v = Ok r /\
   match a, nd_shape v with true, [_; c] => exists l, r = RV l /\ length l = c | _, _ => exists x, r = RS x end.
Proof.
  intros H. unfold fittable in H. unfold np_reduce.
  assert (P : Nat.ltb 0 (length (nd_data v)) = true ->
     exists r, (let* x := reduce f (nd_data v) in Ok (RS x)) = Ok r /\ exists x, r = RS x).
  { intros E. apply Nat.ltb_lt in E. destruct (reduce_total f _ E) as (x & ->). cbn. eauto. }
  destruct a; [|now apply P].
  destruct (nd_shape v) as [|r [|c [|z s]]]; try (now apply P).
  assert (E : exists l, rmapM (fun j => reduce f (column r c (nd_data v) j)) (seq 0 c) = Ok l /\ length l = c).
  { apply orb_true_iff in H as [H|H].
    - apply Nat.ltb_lt in H.
      assert (G : forall s, exists l, rmapM (fun j => reduce f (column r c (nd_data v) j)) s = Ok l /\ length l = length s).
      { induction s as [|j s IH]; cbn [rmapM]; [eexists; split; reflexivity|].
        destruct (reduce_total f (column r c (nd_data v) j)) as (x & ->).
        { unfold column. now rewrite map_length, seq_length. }
        destruct IH as (l & -> & L). cbn. eexists; split; [reflexivity|]. cbn. now rewrite L. }
      destruct (G (seq 0 c)) as (l & E & L). rewrite seq_length in L. eauto.
    - apply Nat.eqb_eq in H. subst c. cbn. eexists; split; reflexivity. }
  destruct E as (l & -> & L). cbn. eauto.
Qed.
Lemma np_reduce_unfittable f v a : fittable v a = false -> (Nat.ltb 2 (length (nd_shape v)) && a)%bool = false ->
  np_reduce f a v = Err ValueError.
Proof.
  intros H D. unfold fittable in H. unfold np_reduce.
  assert (P : Nat.ltb 0 (length (nd_data v)) = false ->
     (let* x := reduce f (nd_data v) in Ok (RS x)) = Err ValueError).
  { intros E. apply Nat.ltb_ge in E. destruct (nd_data v); [reflexivity|cbn in E; lia]. }
  destruct a; [|now apply P].
  destruct (nd_shape v) as [|r [|c [|z s]]]; try (now apply P).
  apply orb_false_iff in H as (H1 & H2). apply Nat.ltb_ge in H1. assert (r = 0)%nat by lia. subst r.
  apply Nat.eqb_neq in H2. destruct c; [lia|]. reflexivity.
Qed.
Definition range_matches (f : nda R * bool) (m : minmax R) : Prop :=
  exists lo hi, vmin m = Some lo /\ vmax m = Some hi /\
  match f with
  | (w, true) => match nd_shape w with
                 | [_; c] => exists a b, lo = RV a /\ hi = RV b /\ length a = c /\ length b = c
                 | _ => exists a b, lo = RS a /\ hi = RS b end
  | (_, false) => exists a b, lo = RS a /\ hi = RS b
  end.
Lemma fit_step (m : minmax R) v a : 
  match (if fittable v a then Some (v, a) else None) with
  | Some f => snd (mm_fit m v a) = Ok tt /\ range_matches f (fst (mm_fit m v a))
  | None => mm_fit m v a = (m, Err ValueError)
  end.
Proof.
  unfold mm_fit. destruct (Nat.ltb 2 (length (nd_shape v)) && a)%bool eqn:D.
  - assert (E : fittable v a = false).
    { apply andb_true_iff in D as (D & ->). apply Nat.ltb_lt in D. unfold fittable.
      destruct (nd_shape v) as [|r [|c [|z s]]]; cbn in *; auto; lia. }
    now rewrite E.
  - destruct (fittable v a) eqn:E.
    + destruct (np_reduce_fittable nmin v a E) as (lo & -> & P1). destruct (np_reduce_fittable nmax v a E) as (hi & -> & P2).
      cbn [fst snd]. split; [reflexivity|]. exists lo, hi. cbn [vmin vmax]. split; [reflexivity|]. split; [reflexivity|].
      destruct a; [|destruct P1 as (x & ->), P2 as (y & ->); eauto].
      destruct (nd_shape v) as [|r [|c [|z s]]]; try (destruct P1 as (x & ->), P2 as (y & ->); now eauto).
      destruct P1 as (l & -> & L1), P2 as (l' & -> & L2). eauto 8.
    + now rewrite (np_reduce_unfittable nmin v a E D).
Qed.
Definition fit_state (f : option (nda R * bool)) (s : scaler R) : Prop :=
  exists m, s = MinMax m /\ match f with None => vmin m = None /\ vmax m = None | Some f => range_matches f m end.
Lemma fit_state_step f s c : fit_state f s ->
  fit_state (match fit_by c with Some f' => Some f' | None => f end) (sstep s c).
Proof.
  intros (m & -> & H). destruct c as [r|v a|v|v|v a]; cbn [fit_by sstep sc_set_output_range].
  - exists (mm_set_output_range m r). split; [reflexivity|]. destruct f as [f|]; exact H.
  - unfold sc_fit. pose proof (fit_step m v a) as G. destruct (mm_fit m v a) as [m' r'] eqn:E. cbn [fst snd] in *.
    exists m'. split; [reflexivity|]. destruct (fittable v a); [exact (proj2 G)|]. injection G as -> ->. exact H.
  - exists m. split; [reflexivity|]. exact H.
  - exists m. split; [reflexivity|]. exact H.
  - unfold sc_fit_transform, mm_fit_transform. pose proof (fit_step m v a) as G. destruct (mm_fit m v a) as [m' r'] eqn:E.
    cbn [fst snd] in *. exists m'. split; [destruct r'; reflexivity|].
    destruct (fittable v a); [exact (proj2 G)|]. injection G as -> ->. exact H.
Qed.
Lemma fit_state_run l : forall f s, fit_state f s ->
  fit_state (fold_left (fun acc c => match fit_by c with Some f => Some f | None => acc end) l f) (fold_left sstep l s).
Proof.
  induction l as [|c l IH]; intros f s H; cbn [fold_left]; [exact H|]. apply IH. now apply fit_state_step.
Qed.

(** An unfitted MinMax raises on transform and inverse_transform; a fitted one
    never does on arrays with the fitted number of columns; Dummy is the identity. *)
Lemma L_C68_fitted :
  forall (range : R * R) (calls : list scall) (v : nda R),
  let s := fold_left sstep calls (MinMax (mm_new range None)) in
  match last_fit calls with
  | None => sc_transform s v = Err ValueError /\ sc_inverse s v = Err ValueError
  | Some f => scalable f v -> (exists w, sc_transform s v = Ok w) /\ (exists w, sc_inverse s v = Ok w)
  end /\
  (let d := fold_left sstep calls Dummy in d = Dummy /\ sc_transform d v = Ok v /\ sc_inverse d v = Ok v).
Proof.
  intros range calls v s. split.
  - pose proof (fit_state_run calls None (MinMax (mm_new range None))) as H.
    destruct H as (m & Em & H); [exists (mm_new range None); repeat split|]. fold s in Em. rewrite Em.
    unfold last_fit. destruct (fold_left _ calls None) as [[w a]|].
    + intros Hs. destruct H as (lo & hi & E1 & E2 & H).
      assert (Fit : fits v lo /\ fits v hi).
      { unfold scalable in Hs. destruct a; [|destruct H as (x & y & -> & ->); cbn; auto].
        destruct (nd_shape w) as [|r [|c' [|z t]]]; try (destruct H as (x & y & -> & ->); cbn; now auto).
        destruct H as (x & y & -> & -> & L1 & L2). cbn. split; congruence. }
      destruct Fit as (F1 & F2). cbn [sc_transform sc_inverse]. unfold mm_transform, mm_inverse. rewrite E1, E2.
      split.
      * match goal with |- exists w, broadcast ?g lo hi v = _ => destruct (broadcast_ok g lo hi v F1 F2) as (u & Eu & _) end.
        exists u. exact Eu.
      * match goal with |- exists w, broadcast ?g lo hi v = _ => destruct (broadcast_ok g lo hi v F1 F2) as (u & Eu & _) end.
        exists u. exact Eu.
    + destruct H as (E1 & E2). cbn. unfold mm_transform, mm_inverse. rewrite E1; auto.
  - assert (D : fold_left sstep calls Dummy = Dummy).
    { clear s. induction calls as [|[] calls IH]; cbn; auto. }
    cbn zeta. rewrite D. repeat split.
Qed.
Example ex_C68_hyps :
  last_fit [SFit (mkNda [0%nat] []) true; SFitTrans (mkNda [2%nat] [1; 2]) true; SOut (0, 2)] = Some (mkNda [2%nat] [1; 2], true)
  /\ last_fit [SFit (mkNda [0%nat] []) true; STrans (mkNda [1%nat] [0])] = None
  /\ scalable (mkNda [2%nat] [1; 2], true) (mkNda [3%nat] [1; 5; 7]).
Proof. repeat split. Qed.

(** *** set_scalers *)
Lemma sget_sset_same {A} k (v : A) d : sget k (sset k v d) = Some v.
Proof.
  induction d as [|[k' w] d IH]; cbn.
  - now rewrite String.eqb_refl.
  - destruct (String.eqb k k') eqn:E; cbn; rewrite E; auto.
Qed.
Lemma sget_sset_other {A} k k' (v : A) d : k <> k' -> sget k (sset k' v d) = sget k d.
Proof.
  intros H. induction d as [|[k'' w] d IH]; cbn.
  - apply String.eqb_neq in H. now rewrite H.
  - destruct (String.eqb k' k'') eqn:E; cbn; destruct (String.eqb k k'') eqn:E2; auto.
    apply String.eqb_eq in E, E2. congruence.
Qed.
Lemma create_known c : known_type c = true ->
  exists str, create_scaler c = Ok (wanted c, str) /\
   (match c with (Some _, Some r) => (str, Some r) | _ => (None, None) end) = wanted_name c.
Proof.
  destruct c as [[t|] [[a b]|]]; cbn [known_type create_scaler wanted wanted_name]; intros H; try rewrite H; eexists; split; reflexivity.
Qed.
Lemma create_unknown c : known_type c = false -> create_scaler c = Err ValueError.
Proof. destruct c as [[t|] [[a b]|]]; cbn [known_type create_scaler]; intros H; try discriminate. now rewrite H. Qed.
Lemma smem_app k l m : smem k (l ++ m) = (smem k l || smem k m)%bool.
Proof. apply existsb_app. Qed.
Lemma smem_all k l : k <> "all" -> smem k (l ++ ["all"]) = smem k l.
Proof.
  intros H. rewrite smem_app. apply String.eqb_neq in H. cbn. rewrite H. cbn. apply orb_false_r.
Qed.
Lemma set_scaler_step (s : scalers R) k c : lower k <> "all" ->
  match quantity_of (lower k) with
  | Some q => if known_type c then
      exists s', set_scaler s k c = (s', Ok tt) /\
        scaler_of s' q = wanted c /\ sget (qname q) (scalers_dict s') = Some (wanted_name c) /\
        (forall q', q' <> q -> scaler_of s' q' = scaler_of s q' /\
                               sget (qname q') (scalers_dict s') = sget (qname q') (scalers_dict s))
      else set_scaler s k c = (s, Err ValueError)
  | None => set_scaler s k c = (s, Err ValueError)
  end.
Proof.
  intros Hk. unfold set_scaler, quantity_of.
  assert (T1 : smem (lower k) col_time = smem (lower k) ["t"; "time"]) by exact (smem_all _ ["t"; "time"] Hk).
  assert (T2 : smem (lower k) col_space = smem (lower k) ["space"; "spatial"; "xyz"; "x"; "y"; "z"]) by
    exact (smem_all _ ["space"; "spatial"; "xyz"; "x"; "y"; "z"] Hk).
  assert (T3 : smem (lower k) col_pressure = smem (lower k) ["p"; "pressures"; "pressure"]) by
    exact (smem_all _ ["p"; "pressures"; "pressure"] Hk).
  assert (T4 : smem (lower k) col_rate = smem (lower k) ["q"; "rates"; "rate"]) by
    exact (smem_all _ ["q"; "rates"; "rate"] Hk).
  rewrite T1, T2, T3, T4. cbv zeta.
  repeat match goal with |- context [if smem (lower k) ?l then _ else _] => destruct (smem (lower k) l) end;
  try reflexivity; (destruct (known_type c) eqn:K; [|now rewrite (create_unknown c K)]);
  destruct (create_known c K) as (str & -> & E); (eexists; split; [reflexivity|]);
  unfold record_conf; rewrite E; cbn [scalers_dict];
  (split; [reflexivity|]; split; [exact (sget_sset_same _ _ _)|]);
  intros q' Hq; (split; [destruct q'; try reflexivity; now contradict Hq|]);
  apply sget_sset_other; intros X; apply Hq; destruct q'; try discriminate X; reflexivity.
Qed.
Lemma qeqb_eq a b : qeqb a b = true <-> a = b.
Proof. destruct a, b; cbn; split; congruence. Qed.

(** set_scalers with names other than "all": it succeeds exactly if every name
    is known and every entry asks for an existing scaler, and then each
    quantity has the scaler of the last entry naming it, or the old one. *)
Lemma L_C69_set_scalers_partial :
  forall (d : list (string * conf R)) (s : scalers R),
  (forall k c, In (k, c) d -> lower k <> "all") ->
  let good := forallb (fun kc => match quantity_of (lower (fst kc)) with Some _ => known_type (snd kc) | None => false end) d in
  (good = true -> exists s', set_scalers s d = (s', Ok tt) /\ forall q,
     scaler_of s' q = (match deciding d q with Some c => wanted c | None => scaler_of s q end) /\
     sget (qname q) (scalers_dict s') = (match deciding d q with Some c => Some (wanted_name c) | None => sget (qname q) (scalers_dict s) end)) /\
  (good = false -> snd (set_scalers s d) = Err ValueError).
Proof.
  intros d s H good. split.
  - unfold good. clear good. intros G.
    assert (St : forall (acc : quantity -> option (conf R)) s0 s1,
      (forall q, scaler_of s1 q = (match acc q with Some c => wanted c | None => scaler_of s0 q end) /\
         sget (qname q) (scalers_dict s1) = (match acc q with Some c => Some (wanted_name c) | None => sget (qname q) (scalers_dict s0) end)) ->
      exists s', set_scalers s1 d = (s', Ok tt) /\ forall q,
        let f := fold_left (fun acc kc => match quantity_of (lower (fst kc)) with
                           | Some q' => if qeqb q q' then Some (snd kc) else acc
                           | None => acc end) d (acc q) in
        scaler_of s' q = (match f with Some c => wanted c | None => scaler_of s0 q end) /\
        sget (qname q) (scalers_dict s') = (match f with Some c => Some (wanted_name c) | None => sget (qname q) (scalers_dict s0) end)).
    { clear s. induction d as [|[k c] d IH]; intros acc s0 s1 Hacc.
      - exists s1. split; [reflexivity|]. exact Hacc.
      - cbn [forallb fst snd] in G. apply andb_true_iff in G as (G1 & G2).
        pose proof (set_scaler_step s1 k c (H k c (or_introl eq_refl))) as S.
        cbn [set_scalers fold_left fst snd]. destruct (quantity_of (lower k)) as [qk|]; [|discriminate]. rewrite G1 in S.
        destruct S as (s2 & -> & S1 & S2 & S3). cbn [andthen].
        apply (IH (fun k c Hin => H k c (or_intror Hin)) G2 (fun q => if qeqb q qk then Some c else acc q) s0 s2).
        intros q. destruct (qeqb q qk) eqn:E.
        + apply qeqb_eq in E. subst q. auto.
        + destruct (S3 q) as (E1 & E2); [intros ->; destruct qk; discriminate|]. rewrite E1, E2. apply Hacc. }
    apply (St (fun _ => None) s s). auto.
  - unfold good. clear good. revert s. induction d as [|[k c] d IH]; intros s G; [discriminate|].
    cbn [forallb fst snd] in G. pose proof (set_scaler_step s k c (H k c (or_introl eq_refl))) as S. cbn [set_scalers].
    destruct (quantity_of (lower k)) as [qk|].
    + destruct (known_type c).
      * destruct S as (s2 & -> & _). cbn [andthen]. apply IH; [intros; eapply H; right; eauto|exact G].
      * now rewrite S.
    + now rewrite S.
Qed.
Example ex_C69_hyps :
  let d : list (string * conf R) := [("Time", (Some "MinMax", Some (0, 1))); ("P", (None, None)); ("t", (Some "minmaxscaler", Some (2, 3)))] in
  forallb (fun kc => match quantity_of (lower (fst kc)) with Some _ => known_type (snd kc) | None => false end) d = true /\
  deciding d QTime = Some (Some "minmaxscaler", Some (2, 3)) /\ deciding d QRate = None.
Proof. repeat split. Qed.

(** "all" sets only the time scaler. *)
Lemma L_C69_all_refuted :
  exists (s s' : scalers R) (c : conf R),
  set_scalers s [("all", c)] = (s', Ok tt) /\ known_type c = true /\
  scaler_of s' QTime = wanted c /\
  forall q, q <> QTime -> scaler_of s' q = scaler_of s q /\ scaler_of s' q <> wanted c.
Proof.
  exists (mkScalers Dummy Dummy Dummy Dummy []). eexists. exists (Some "minmax", Some (0, 1)).
  split; [reflexivity|]. split; [reflexivity|]. split; [reflexivity|].
  intros q Hq. destruct q; [now contradict Hq| | |]; (split; [reflexivity|discriminate]).
Qed.
