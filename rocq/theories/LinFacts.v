(** Linear expressions, the rows made of them, and writing rows into a matrix. *)
From Coq Require Import String ZArith Bool Arith List Lia Reals Lra.
From Verif Require Import Prelude PreludeFacts Num GridModel GeoModel PropModel PropSpec BlackOilModel FdmModel MonadFacts GeoSpec GeoProofs MatrixProofs AsmFacts SumFacts ModelSpec CanonFacts.
Import ListNotations.
Close Scope R_scope.
Open Scope nat_scope.

(** ** Values of expressions *)
Definition dot (l : list (Z * R)) (v : Z -> R) : R := sumR (map (fun kc => (snd kc * v (fst kc))%R) l).
Definition coef (l : list (Z * R)) (id : Z) : R := sumR (map snd (filter (fun kc => Z.eqb (fst kc) id) l)).
Lemma dot_app l l' v : dot (l ++ l') v = (dot l v + dot l' v)%R.
Proof. unfold dot. now rewrite map_app, sumR_app. Qed.
Lemma dot_cons k c l v : dot ((k, c) :: l) v = (c * v k + dot l v)%R. Proof. reflexivity. Qed.
Lemma dot_opp l v : dot (map (fun kc => (fst kc, (- snd kc)%R)) l) v = (- dot l v)%R.
Proof. induction l as [|[k c] l IH]; cbn [map fst snd]; [unfold dot; cbn; lra|]. rewrite !dot_cons, IH. lra. Qed.
Lemma dot_scal s l v : dot (map (fun kc => (fst kc, (s * snd kc)%R)) l) v = (s * dot l v)%R.
Proof. induction l as [|[k c] l IH]; cbn [map fst snd]; [unfold dot; cbn; lra|]. rewrite !dot_cons, IH. lra. Qed.
Lemma dot_ext l v v' : (forall id, In id (map fst l) -> v id = v' id) -> dot l v = dot l v'.
Proof. intros H. unfold dot. apply sumR_ext. intros [k c] I. cbn. rewrite H; auto. now apply (in_map fst) in I. Qed.
Lemma coef_cons k c l id : coef ((k, c) :: l) id = ((if Z.eqb k id then c else 0) + coef l id)%R.
Proof. unfold coef. cbn [filter fst]. destruct (Z.eqb k id); cbn [map snd sumR]; lra. Qed.
Lemma coef_app l l' id : coef (l ++ l') id = (coef l id + coef l' id)%R.
Proof. unfold coef. now rewrite filter_app, map_app, sumR_app. Qed.
Lemma coef_opp l id : coef (map (fun kc => (fst kc, (- snd kc)%R)) l) id = (- coef l id)%R.
Proof. induction l as [|[k c] l IH]; cbn [map fst snd]; [unfold coef; cbn; lra|]. rewrite !coef_cons, IH. destruct (Z.eqb k id); lra. Qed.
Lemma coef_out l id : ~ In id (map fst l) -> coef l id = 0%R.
Proof.
  induction l as [|[k c] l IH]; intros H; [reflexivity|]. rewrite coef_cons, IH by (intros I; apply H; now right).
  destruct (Z.eqb_spec k id) as [->|]; [|lra]. exfalso. apply H. now left.
Qed.
Lemma nsum_sumR l : nsum l = sumR l.
Proof.
  unfold nsum. assert (H : forall a, fold_left nadd l a = (a + sumR l)%R).
  { induction l as [|b l IH]; intros a; cbn [fold_left sumR]; [lra|]. rewrite IH. cbn. lra. }
  rewrite H. cbn. lra.
Qed.
Lemma lcoef_coef (a : lin R) id : lcoef a id = coef (lc a) id.
Proof. unfold lcoef, coef. apply nsum_sumR. Qed.
Lemma sum_pick (S : list Z) k (h : Z -> R) : NoDup S -> In k S -> sumR (map (fun id => if Z.eqb k id then h id else 0%R) S) = h k.
Proof.
  induction S as [|a S IH]; intros N I; [destruct I|]. inversion N; subst. cbn [map sumR]. destruct (Z.eqb_spec k a) as [->|Ne].
  - rewrite (sumR_ext _ (fun _ => 0%R)); [rewrite <- (map_map (fun _ => 0%R) (fun x => x)), map_id|].
    + assert (Z : forall l : list Z, sumR (map (fun _ => 0%R) l) = 0%R) by (induction l; cbn; lra). rewrite Z. lra.
    + intros b Hb. destruct (Z.eqb_spec a b); [subst; contradiction|reflexivity].
  - destruct I as [->|I]; [congruence|]. rewrite IH by auto. lra.
Qed.
Lemma dot_coef (S : list Z) l v : NoDup S -> (forall id, In id (map fst l) -> In id S) ->
  sumR (map (fun id => coef l id * v id)%R S) = dot l v.
Proof.
  intros N. induction l as [|[k c] l IH]; intros H.
  - rewrite (sumR_ext _ (fun _ => 0%R)) by (intros; unfold coef; cbn; lra).
    clear. unfold dot. cbn. induction S as [|a S IH]; cbn; lra.
  - rewrite dot_cons, <- IH by (intros; apply H; now right).
    rewrite (sumR_ext _ (fun id => (if Z.eqb k id then (c * v id) else 0) + coef l id * v id)%R)
      by (intros id _; rewrite coef_cons; destruct (Z.eqb k id); lra).
    rewrite sumR_plus. now rewrite (sum_pick S k (fun id => c * v id)%R) by (auto; apply H; now left).
Qed.
Lemma syms_spec (a : lin R) : NoDup (map fst (lsyms a)) /\
  (forall id, In id (map fst (lsyms a)) <-> coef (lc a) id <> 0%R) /\
  (forall id k, In (id, k) (lsyms a) -> k = coef (lc a) id) /\ forall v, dot (lsyms a) v = dot (lc a) v.
Proof.
  unfold lsyms. set (S := nodup Z.eq_dec (map fst (lc a))). assert (N : NoDup S) by apply NoDup_nodup.
  assert (HS : forall id, In id (map fst (lc a)) <-> In id S) by (intros; unfold S; now rewrite nodup_In).
  split; [|split; [|split]].
  - clear HS. induction S as [|b S IH]; cbn [map filter]; [constructor|]. inversion N; subst. cbn [snd].
    destruct (negb _); auto. cbn [map fst]. constructor; auto. intros I. apply in_map_iff in I as ([b' k] & E & I). cbn in E. subst b'.
    apply filter_In in I as (I & _). apply in_map_iff in I as (b' & E & I). inversion E; subst. auto.
  - intros id. split.
    + intros I. apply in_map_iff in I as ([b k] & E & I). cbn in E. subst b. apply filter_In in I as (I & Nz). apply in_map_iff in I as (b & E & I). inversion E; subst.
      cbn [snd] in Nz. rewrite lcoef_coef in Nz. cbn in Nz. intros Z. rewrite Z in Nz. destruct (Reqb_spec 0 0); [discriminate|congruence].
    + intros Nz. apply in_map_iff. exists (id, lcoef a id). split; auto. apply filter_In. split.
      * apply in_map_iff. exists id. split; auto. apply HS. destruct (in_dec Z.eq_dec id (map fst (lc a))); auto. exfalso. apply Nz. now apply coef_out.
      * cbn. rewrite lcoef_coef. destruct (Reqb_spec (coef (lc a) id) 0); [contradiction|reflexivity].
  - intros id k I. apply filter_In in I as (I & _). apply in_map_iff in I as (b & E & I). inversion E; subst. apply lcoef_coef.
  - intros v. rewrite <- (dot_coef S (lc a) v) by (auto; intros; now apply HS). unfold dot. rewrite sumR_filter, map_map. apply sumR_ext. intros id _. cbn [fst snd].
    rewrite lcoef_coef. cbn [neqb n0 Num_R]. destruct (Reqb_spec (coef (lc a) id) 0) as [Z|]; cbn [negb]; [rewrite Z; lra|reflexivity].
Qed.

(** ** One equation *)
Lemma row_ok sc (f a : lin R) ks r : sc <> 0%R -> cell_row sc f a = Ok (ks, Ok r) ->
  exists cf ca rr, l0 f = Some cf /\ l0 a = Some ca /\ r = Some rr /\ NoDup (map fst ks) /\
  (forall id, In id (map fst ks) <-> (coef (lc f) id - coef (lc a) id <> 0)%R) /\ ks <> [] /\
  forall v, dot ks v = rr <-> (cf + dot (lc f) v = ca + dot (lc a) v)%R.
Proof.
  intros Hs E. unfold cell_row in E. destruct (l0 f) as [cf|] eqn:Ef; [|discriminate]. destruct (l0 a) as [ca|] eqn:Ea; [|discriminate].
  destruct (syms_spec (ladd f (lopp a))) as (N & S & V & D).
  assert (Cd : forall id, coef (lc (ladd f (lopp a))) id = (coef (lc f) id - coef (lc a) id)%R).
  { intros id. cbn [ladd lopp lc]. rewrite coef_app, (coef_opp (lc a)). lra. }
  assert (Dd : forall v, dot (lc (ladd f (lopp a))) v = (dot (lc f) v - dot (lc a) v)%R).
  { intros v. cbn [ladd lopp lc]. rewrite dot_app, (dot_opp (lc a)). lra. }
  exists cf, ca. destruct (lsyms (ladd f (lopp a))) as [|[i k] ks0] eqn:El; [discriminate|].
  destruct (neqb cf n0 && neqb ca n0) eqn:Ez.
  - apply andb_true_iff in Ez as (Z1 & Z2). cbn in Z1, Z2. destruct (Reqb_spec cf 0) as [->|]; [|discriminate]. destruct (Reqb_spec ca 0) as [->|]; [|discriminate].
    destruct (syms_spec f) as (Nf & Sf & _ & Df). destruct (syms_spec a) as (_ & Sa & _ & Da).
    destruct (lsyms a) as [|e la] eqn:Es; inversion E; subst; clear E. exists 0%R. split; auto. split; auto. split; [reflexivity|].
    assert (Ca : forall id, coef (lc a) id = 0%R) by (intros id; destruct (Req_dec (coef (lc a) id) 0) as [|Nz]; auto; apply Sa in Nz; destruct Nz).
    split; auto. split; [|split].
    + intros id. rewrite Sf, Ca. split; intros H; lra.
    + intros Hn. assert (Y : In i (map fst ((i, k) :: ks0))) by now left. apply S in Y. rewrite Cd, Ca in Y.
      assert (In i (map fst (lsyms f))) by (apply Sf; lra). rewrite Hn in H. destruct H.
    + intros v. specialize (Da v). change (dot [] v) with 0%R in Da. rewrite Df, <- Da. split; lra.
  - destruct ks0 as [|e2 ks0].
    + inversion E; subst; clear E. eexists. do 3 (split; [reflexivity|]). cbn [map fst]. split; [constructor; [intros []|constructor]|].
      assert (K0 : k <> 0%R). { rewrite (V i k (or_introl eq_refl)). apply S. now left. }
      split; [|split; [discriminate|]].
      * intros id. rewrite <- Cd, <- S. reflexivity.
      * intros v. specialize (D v). rewrite Dd in D. rewrite dot_cons in D |- *. change (dot [] v) with 0%R in D |- *. cbn [ndiv nopp nsub n1 Num_R]. split; intros H.
        -- assert (v i = (- (cf - ca) / k)%R) by lra. rewrite H0 in D. assert ((k * (- (cf - ca) / k))%R = (- (cf - ca))%R) by (field; auto). lra.
        -- assert ((k * v i)%R = (- (cf - ca))%R) by lra. apply (Rmult_eq_reg_l k); auto. rewrite Rmult_plus_distr_l. field_simplify; auto. lra.
    + set (L := (i, k) :: e2 :: ks0) in *. destruct (neqb (nsub cf ca) n0) eqn:Ec; [discriminate E|].
      assert (Ek : ks = map (fun kc => (fst kc, nmul sc (snd kc))) L /\ r = Some (nmul sc (nopp (nsub cf ca)))) by (inversion E; auto). clear E. destruct Ek as (-> & ->). eexists. do 3 (split; [reflexivity|]).
      assert (Em : forall s, map fst (map (fun kc : Z * R => (fst kc, nmul s (snd kc))) L) = map fst L) by (intros; rewrite map_map; reflexivity).
      rewrite !Em. split; auto. split; [intros id; rewrite S, Cd; tauto|]. split; [discriminate|]. intros v.
      pose proof (dot_scal sc L v) as Q. cbn [nmul Num_R] in *. rewrite Q, D, Dd. cbn [nopp nsub Num_R]. split; intros H.
      * apply Rmult_eq_reg_l in H; auto. lra.
      * f_equal. lra.
Qed.

(** ** Writing a row *)
Lemma mat_row_size (A : @mat R) i es : msize (mat_row A i es) = msize A.
Proof. revert A. induction es as [|e es IH]; intros A; cbn; [reflexivity|]. unfold mat_row in IH. now rewrite IH. Qed.
Definition inrow (es : list (nat * R)) (q : nat) : R := sumR (map (fun e => one (fst e) (snd e) q) es).
Lemma mat_row_other es : forall (A : @mat R) i p q, p <> i \/ ~ In q (map fst es) -> ment (mat_row A i es) p q = ment A p q.
Proof.
  induction es as [|[j k] es IH]; intros A i p q H; [reflexivity|]. cbn [mat_row fold_left fst snd].
  change (ment (mat_row (mat_set A i j k) i es) p q = ment A p q). rewrite IH by (destruct H as [H|H]; [now left|right; intros I; apply H; now right]).
  cbn. destruct (Nat.eqb_spec p i), (Nat.eqb_spec q j); cbn; auto. subst. destruct H as [H|H]; [congruence|exfalso; apply H; now left].
Qed.
Lemma inrow_out es q : ~ In q (map fst es) -> inrow es q = 0%R.
Proof.
  induction es as [|[j k] es IH]; intros H; [reflexivity|]. unfold inrow in *. cbn [map sumR fst snd]. rewrite IH by (intros I; apply H; now right).
  unfold one. destruct (Nat.eqb_spec j q) as [->|]; [exfalso; apply H; now left|lra].
Qed.
Lemma mat_row_in es : forall (A : @mat R) i q, NoDup (map fst es) -> In q (map fst es) -> ment (mat_row A i es) i q = inrow es q.
Proof.
  induction es as [|[j k] es IH]; intros A i q N I; [destruct I|]. cbn [mat_row fold_left fst snd].
  change (ment (mat_row (mat_set A i j k) i es) i q = inrow ((j, k) :: es) q). inversion N; subst. cbn [fst] in *.
  unfold inrow. cbn [map sumR fst snd]. fold (inrow es q). unfold one.
  destruct (Nat.eqb_spec j q) as [->|Ne].
  - rewrite mat_row_other by auto. rewrite inrow_out by auto. cbn. rewrite !Nat.eqb_refl. cbn. lra.
  - destruct I as [I|I]; [cbn in I; congruence|]. rewrite IH by auto. lra.
Qed.
Lemma mat_row_times es (A : @mat R) i y : NoDup (map fst es) -> (forall e, In e es -> fst e < msize A) ->
  (forall q, q < msize A -> ~ In q (map fst es) -> ment A i q = 0%R) ->
  times (mat_row A i es) y i = sumR (map (fun e => snd e * nth (fst e) y 0)%R es).
Proof.
  intros N B Z. unfold times. rewrite mat_row_size.
  rewrite (rsum_ext _ (fun q => over es fst snd q * nth q y 0)%R).
  - apply (rsum_over_times es fst snd (fun q => nth q y 0%R)). auto.
  - intros q Hq. f_equal. destruct (in_dec Nat.eq_dec q (map fst es)) as [I|I].
    + now rewrite mat_row_in by auto.
    + rewrite mat_row_other by auto. rewrite Z by (auto; lia). change (over es fst snd q) with (inrow es q). now rewrite inrow_out.
Qed.
