(** Property lemmas about arrays shared between models (see P_Alias.v). *)
From Coq Require Import ZArith Reals Bool Arith Lia Lra List.
From Verif Require Import Prelude PreludeFacts Num CacheModel CacheProofs AliasModel AliasSpec.
Import ListNotations.
Close Scope R_scope.

Section alias.
Context {F : Type} {NF : Num F}.
Variable sz : nat -> bool -> nat.
Notation world := (world (F := F)).
Notation aop := (aop (F := F)).
Lemma zkey_ok k l : zkey_eqb k l = true <-> k = l.
Proof.
  destruct k as [a b], l as [c d]. unfold zkey_eqb. cbn [fst snd].
  rewrite andb_true_iff, Nat.eqb_eq, eqb_true_iff. split; [intros [-> ->]|intros [= -> ->]]; auto.
Qed.

(** The cache holds at most the last allocated array. *)
Definition winv (w : world) : Prop :=
  (forall m g a, nth_error (models w) m = Some (g, a) -> a < length (heap w)) /\
  match zcache w with
  | [] => heap w = [] /\ models w = []
  | [(k, a)] => length (heap w) = S a
  | _ => False
  end.
Lemma winv0 : winv world0.
Proof. split; simpl; auto. intros [|m]; discriminate. Qed.
Lemma zeros_step (w : world) g b : winv w ->
  winv (fst (get_zeros sz w g b)) /\ snd (get_zeros sz w g b) < length (heap (fst (get_zeros sz w g b))) /\
  zcache (fst (get_zeros sz w g b)) = [((g, b), snd (get_zeros sz w g b))] /\
  models (fst (get_zeros sz w g b)) = models w /\
  (forall a, a < length (heap w) -> nth a (heap (fst (get_zeros sz w g b))) [] = nth a (heap w) []) /\
  (length (heap w) <= length (heap (fst (get_zeros sz w g b)))) /\
  match zcache w with
  | [(k, a)] => if zkey_eqb (g, b) k then snd (get_zeros sz w g b) = a /\ heap (fst (get_zeros sz w g b)) = heap w
                else snd (get_zeros sz w g b) = length (heap w)
  | _ => snd (get_zeros sz w g b) = length (heap w)
  end.
Proof.
  intros [I1 I2]. unfold get_zeros.
  assert (Happ : forall x a, a < length (heap w) -> nth a (heap w ++ [x]) [] = nth a (heap w) []).
  { intros. now rewrite app_nth1. }
  destruct (zcache w) as [|[k a] [|? ?]] eqn:Ec; [| |easy].
  - destruct I2 as [Eh Em]. cbn. rewrite Eh. cbn. rewrite Em.
    split; [|repeat split; auto; intros; lia]. split; cbn; auto. intros [|m]; discriminate.
  - cbn [cfind]. destruct (zkey_eqb (g, b) k) eqn:Ek.
    + cbn [cfind fst snd]. assert (k = (g, b)) by (symmetry; now apply zkey_ok). subst k.
      unfold chit. cbn [cdel heap zcache models]. rewrite Ek. cbn [fst snd heap zcache models].
      split; [split; cbn [heap zcache models]; auto|]. repeat split; auto; lia.
    + cbn [fst snd heap zcache models cstore firstn]. split.
      { split; cbn [heap zcache models].
        - intros m g' a' E. rewrite app_length. apply I1 in E. simpl. lia.
        - rewrite app_length. simpl. lia. }
      repeat split; auto; rewrite app_length; simpl; lia.
Qed.
Lemma astep_inv w p : winv w -> winv (astep sz w p).
Proof.
  intros I. destruct p; cbn [astep].
  - pose proof (zeros_step w g true I) as (I' & La & Ec & Em & _). destruct (get_zeros sz w g true) as [w' a]. cbn [fst snd] in *.
    destruct I' as [J1 J2]. split; cbn [heap zcache models].
    + intros m g' a' E. apply nth_error_In in E as E'. apply in_app_or in E' as [E'|[[= <- <-]|[]]]; auto.
      apply In_nth_error in E' as [m' E']. eauto.
    + rewrite Ec in *. exact J2.
  - destruct (nth_error (models w) m) as [[g a]|] eqn:E; auto.
    pose proof (zeros_step w g false I) as (I' & _). destruct (get_zeros sz w g false) as [w' a']. exact I'.
  - destruct (nth_error (models w) m) as [[g a]|] eqn:E; auto. destruct (pyset _ id v); auto.
    destruct I as [J1 J2]. split; cbn [heap zcache models].
    + intros. rewrite upd_length. eauto.
    + destruct (zcache w) as [|[? ?] [|? ?]]; rewrite ?upd_length; auto.
      destruct J2 as [_ J2]. rewrite J2 in E. destruct m; discriminate.
  - apply zeros_step; auto.
Qed.
Lemma arun_inv l : forall w, winv w -> winv (arun sz w l).
Proof. induction l; intros; simpl; auto. apply IHl. now apply astep_inv. Qed.

Definition gridsw (w : world) : list nat := map fst (models w).
Lemma astep_models w p : winv w -> exists e, models (astep sz w p) = models w ++ e /\
  map fst e = grids_of [p] /\ length (heap w) <= length (heap (astep sz w p)).
Proof.
  intros I. destruct p; cbn [astep].
  - pose proof (zeros_step w g true I) as (_ & _ & _ & Em & _ & Hl & _). destruct (get_zeros sz w g true) as [w' a].
    cbn [fst snd models heap] in *. rewrite Em. eexists. repeat split; auto.
  - destruct (nth_error (models w) m) as [[g a]|] eqn:E.
    + pose proof (zeros_step w g false I) as (_ & _ & _ & Em & _ & Hl & _). destruct (get_zeros sz w g false) as [w' a'].
      cbn [fst snd models heap] in *. rewrite Em. exists []. rewrite app_nil_r. auto.
    + exists []. rewrite app_nil_r. auto.
  - exists []. rewrite app_nil_r. destruct (nth_error (models w) m) as [[g a]|]; auto.
    destruct (pyset _ id v); auto. cbn. rewrite upd_length. auto.
  - pose proof (zeros_step w g b I) as (_ & _ & _ & Em & _ & Hl & _). exists []. rewrite app_nil_r. auto.
Qed.
Lemma grids_app l l' : grids_of (F := F) (l ++ l') = grids_of l ++ grids_of l'.
Proof. induction l as [|[] l IH]; simpl; auto. now rewrite IH. Qed.
Lemma arun_models l : forall w, winv w -> exists e, models (arun sz w l) = models w ++ e /\
  map fst e = grids_of l /\ length (heap w) <= length (heap (arun sz w l)).
Proof.
  induction l as [|p l IH]; intros w I.
  - exists []. simpl. rewrite app_nil_r. auto.
  - destruct (astep_models w p I) as (e & E & Ee & Hl). destruct (IH _ (astep_inv w p I)) as (e' & E' & Ee' & Hl').
    exists (e ++ e'). change (arun sz w (p :: l)) with (arun sz (astep sz w p) l). rewrite E', E, app_assoc. rewrite map_app, Ee, Ee'.
    repeat split; auto; try lia. change (p :: l) with ([p] ++ l). destruct p; reflexivity.
Qed.

(** The address given to the next model depends on the calls in between. *)
Lemma track (l : list aop) : forall (w : world) k a, winv w -> zcache w = [(k, a)] ->
  (Forall (fun q => q = k) (zeros_calls (gridsw w) l) ->
     zcache (arun sz w l) = [(k, a)]) /\
  (~ Forall (fun q => q = k) (zeros_calls (gridsw w) l) ->
     exists k' a', zcache (arun sz w l) = [(k', a')] /\ a' > a).
Proof.
  induction l as [|p l IH]; intros w k a I Ec.
  - simpl. split; auto. intros H. destruct H. constructor.
  - assert (Hcall : forall g b w', winv w' -> zcache w' = zcache (fst (get_zeros sz w g b)) ->
        length (heap w') = length (heap (fst (get_zeros sz w g b))) -> 
      (Forall (fun q => q = k) ((g, b) :: zeros_calls (gridsw w') l) -> zcache (arun sz w' l) = [(k, a)]) /\
      (~ Forall (fun q => q = k) ((g, b) :: zeros_calls (gridsw w') l) ->
         exists k' a', zcache (arun sz w' l) = [(k', a')] /\ a' > a)).
    { intros g b w' I' Ew El. pose proof (zeros_step w g b I) as (_ & _ & Ez & _ & _ & Hl & Hm).
      rewrite Ec in Hm. rewrite Ez in Ew. destruct I as [_ I]. rewrite Ec in I.
      destruct (IH _ _ _ I' Ew) as [H1 H2].
      destruct (zkey_eqb (g, b) k) eqn:Ek.
      - assert (k = (g, b)) by (symmetry; now apply zkey_ok). subst k. destruct Hm as [Ha _]. rewrite Ha in *.
        split.
        + intros H. inversion H; subst. auto.
        + intros H. apply H2. intros Q. apply H. constructor; auto.
      - assert (N : (g, b) <> k) by (intros Q; apply zkey_ok in Q; congruence).
        split; [intros H; inversion H; subst; congruence|]. intros _.
        assert (Ha : snd (get_zeros sz w g b) > a) by lia.
        destruct (Forall_dec (fun q => q = (g, b)) (fun q => ltac:(destruct q as [q1 q2]; destruct (Nat.eq_dec q1 g), (Bool.bool_dec q2 b); [left|right|right|right]; congruence)) (zeros_calls (gridsw w') l)) as [Q|Q].
        + rewrite (H1 Q). eauto.
        + destruct (H2 Q) as (k' & a' & E' & L'). rewrite E'. exists k', a'. split; auto. lia. }
    destruct p; cbn [arun fold_left astep zeros_calls].
    + assert (Iw := astep_inv w (ANew g) I). cbn [astep] in Iw.
      pose proof (zeros_step w g true I) as (_ & _ & _ & Em & _). specialize (Hcall g true).
      destruct (get_zeros sz w g true) as [w' a']. cbn [fst snd] in *. specialize (Hcall _ Iw eq_refl eq_refl).
      unfold gridsw in *. cbn [models] in Hcall. rewrite map_app, Em in Hcall. cbn [arun fold_left astep]. rewrite Em. exact Hcall.
    + unfold gridsw. rewrite nth_error_map. destruct (nth_error (models w) m) as [[g a0]|] eqn:E; cbn [option_map fst].
      * assert (Iw := astep_inv w (ACompile m) I). cbn [astep] in Iw. rewrite E in Iw.
        pose proof (zeros_step w g false I) as (_ & _ & _ & Em & _). specialize (Hcall g false).
        destruct (get_zeros sz w g false) as [w' a']. cbn [fst snd] in *. specialize (Hcall _ Iw eq_refl eq_refl).
        unfold gridsw in *. cbn [models] in Hcall. rewrite Em in Hcall. rewrite Em. exact Hcall.
      * exact (IH w k a I Ec).
    + assert (Iw := astep_inv w (ASetRate m id v) I). cbn [astep] in Iw.
      destruct (nth_error (models w) m) as [[g a0]|] eqn:E; [|exact (IH w k a I Ec)].
      destruct (pyset _ id v); [|exact (IH w k a I Ec)].
      exact (IH _ k a Iw Ec).
    + assert (Iw := astep_inv w (AZeros g b) I). cbn [astep] in Iw.
      pose proof (zeros_step w g b I) as (_ & _ & _ & Em & _). specialize (Hcall g b _ Iw eq_refl eq_refl).
      unfold gridsw in *. rewrite Em in Hcall. exact Hcall.
Qed.

Definition share_spec (g g' : nat) (calls : list (nat * bool)) : Prop :=
  g' = g /\ Forall (fun q => q = (g, true)) calls.
Lemma addresses (l1 l2 l3 : list aop) g g' :
  let w := arun sz world0 (l1 ++ ANew g :: l2 ++ ANew g' :: l3) in
  exists a a', nth_error (models w) (length (grids_of l1)) = Some (g, a) /\
    nth_error (models w) (length (grids_of (l1 ++ ANew g :: l2))) = Some (g', a') /\
    a < length (heap w) /\ a' < length (heap w) /\
    (a = a' <-> share_spec g g' (zeros_calls (grids_of l1 ++ [g]) l2)).
Proof.
  intros w.
  set (w1 := arun sz world0 l1). assert (I1 : winv w1) by apply arun_inv, winv0.
  set (w2 := astep sz w1 (ANew g)). assert (I2 : winv w2) by now apply astep_inv.
  set (w3 := arun sz w2 l2). assert (I3 : winv w3) by now apply arun_inv.
  set (w4 := astep sz w3 (ANew g')). assert (I4 : winv w4) by now apply astep_inv.
  assert (Ew : w = arun sz w4 l3).
  { unfold w, w4, w3, w2, w1, arun. rewrite !fold_left_app. simpl. rewrite fold_left_app. reflexivity. }
  destruct (arun_models l1 world0 winv0) as (e1 & M1 & G1 & _). fold w1 in M1. simpl in M1.
  destruct (arun_models l2 w2 I2) as (e2 & M2 & G2 & H23). fold w3 in M2, H23.
  destruct (arun_models l3 w4 I4) as (e3 & M3 & G3 & H34). rewrite <- Ew in M3, H34.
  pose proof (zeros_step w1 g true I1) as (_ & La & Ec & Em & _).
  pose proof (zeros_step w3 g' true I3) as (_ & La' & Ec' & Em' & _ & Hl4 & Hm').
  unfold w2, w4 in *. cbn [astep] in *.
  destruct (get_zeros sz w1 g true) as [v1 a]. destruct (get_zeros sz w3 g' true) as [v3 a'].
  cbn [fst snd models heap zcache] in *.
  set (W2 := {| heap := heap v1; zcache := zcache v1; models := models v1 ++ [(g, a)]; sols := sols v1 |}) in *.
  assert (Lg1 : length (models w1) = length (grids_of l1)).
  { rewrite M1, <- G1, map_length. reflexivity. }
  assert (Lg2 : length (models w3) = length (grids_of (l1 ++ ANew g :: l2))).
  { rewrite M2. cbn [models W2]. rewrite Em, !app_length, Lg1, grids_app, !app_length. simpl. rewrite <- G2, map_length. lia. }
  exists a, a'. rewrite M3. cbn [models]. rewrite Em'.
  split; [|split; [|split; [|split]]].
  - rewrite M2. cbn [models W2]. rewrite Em, <- !app_assoc. rewrite nth_error_app2 by lia. rewrite Lg1, Nat.sub_diag. reflexivity.
  - rewrite <- app_assoc. rewrite nth_error_app2 by lia. rewrite Lg2, Nat.sub_diag. reflexivity.
  - lia.
  - lia.
  - assert (Gw : gridsw W2 = grids_of l1 ++ [g]).
    { unfold gridsw. cbn [models W2]. rewrite map_app, Em, M1, G1. reflexivity. }
    assert (EcW : zcache W2 = [((g, true), a)]) by exact Ec.
    destruct (track l2 W2 _ _ I2 EcW) as [T1 T2]. rewrite Gw in T1, T2. fold w3 in T1, T2.
    destruct I3 as [_ I3].
    unfold share_spec. split.
    + intros <-.
      destruct (Forall_dec (fun q => q = (g, true)) (fun q => ltac:(destruct q as [q1 q2]; destruct (Nat.eq_dec q1 g), (Bool.bool_dec q2 true); [left|right|right|right]; congruence)) (zeros_calls (grids_of l1 ++ [g]) l2)) as [Q|Q].
      * split; auto. assert (T1' : zcache w3 = [((g, true), a)]) by exact (T1 Q). rewrite T1' in I3, Hm'.
        destruct (zkey_eqb (g', true) (g, true)) eqn:E; [|lia]. apply zkey_ok in E. congruence.
      * exfalso. destruct (T2 Q) as (k' & b' & E' & L'). change (zcache w3 = [(k', b')]) in E'. rewrite E' in I3, Hm'.
        destruct (zkey_eqb (g', true) k'); lia.
    + intros [-> Q]. assert (T1' : zcache w3 = [((g, true), a)]) by exact (T1 Q). rewrite T1' in I3, Hm'.
      assert (E : zkey_eqb (g, true) (g, true) = true) by now apply zkey_ok. rewrite E in Hm'. symmetry; apply Hm'.
Qed.
Lemma set_seen (w : world) m g a m' g' a' id v l :
  nth_error (models w) m = Some (g, a) -> nth_error (models w) m' = Some (g', a') ->
  a < length (heap w) -> pyset (nth a (heap w) []) id v = Ok l ->
  init_rates (astep sz w (ASetRate m id v)) m' = if a =? a' then Some l else init_rates w m'.
Proof.
  intros E E' L P. cbn [astep]. rewrite E, P. unfold init_rates. cbn [models heap]. rewrite E'. cbn [option_map snd].
  destruct (a =? a') eqn:Q.
  - apply Nat.eqb_eq in Q. subst. now rewrite nth_upd_same.
  - apply Nat.eqb_neq in Q. now rewrite nth_upd_other.
Qed.
Lemma set_fails (w : world) m g a id v e :
  nth_error (models w) m = Some (g, a) -> pyset (nth a (heap w) []) id v = Err e -> astep sz w (ASetRate m id v) = w.
Proof. intros E P. cbn [astep]. now rewrite E, P. Qed.
End alias.

(** Two models (made first on grid g, then on grid g', after l1 and with the
    operations l2 in between) are independent as soon as one call of get_zeros
    with other arguments was made between the two constructions: another model
    on another grid, or a compile of a model. *)
Lemma L_C76_independent_partial :
  forall (F : Type) (NF : Num F) (sz : nat -> bool -> nat) (l1 l2 l3 : list (aop (F := F))) (g g' : nat)
         (id : Z) (v : F),
  let w := arun sz world0 (l1 ++ ANew g :: l2 ++ ANew g' :: l3) in
  let m := length (grids_of l1) in
  let m' := length (grids_of (l1 ++ ANew g :: l2)) in
  (exists q, In q ((zeros_calls (grids_of l1 ++ [g]) l2) ++ [(g', true)]) /\ q <> (g, true)) ->
  init_rates (astep sz w (ASetRate m id v)) m' = init_rates w m' /\
  init_rates (astep sz w (ASetRate m' id v)) m = init_rates w m.
Proof.
  intros F NF sz l1 l2 l3 g g' id v w m m' (q & Hq & Nq).
  destruct (addresses sz l1 l2 l3 g g') as (a & a' & E & E' & L & L' & S). fold w in E, E', L, L'. fold m in E. fold m' in E'.
  assert (N : a <> a').
  { intros Q. apply S in Q as [-> Q]. apply in_app_or in Hq as [Hq|[<-|[]]]; [|congruence].
    rewrite Forall_forall in Q. apply Nq, Q, Hq. }
  split.
  - destruct (pyset (nth a (heap w) []) id v) as [l|e] eqn:P.
    + rewrite (set_seen sz w m g a m' g' a' id v l) by auto. apply Nat.eqb_neq in N. now rewrite N.
    + now rewrite (set_fails sz w m g a id v e).
  - destruct (pyset (nth a' (heap w) []) id v) as [l|e] eqn:P.
    + rewrite (set_seen sz w m' g' a' m g a id v l) by auto.
      apply not_eq_sym in N. apply Nat.eqb_neq in N. now rewrite N.
    + now rewrite (set_fails sz w m' g' a' id v e).
Qed.
Example ex_C76_independent_hyps :
  let l2 := [ACompile (F := R) 0; ASetRate 0 1 5%R] in
  exists q, In q (zeros_calls (grids_of (F := R) [] ++ [7]) l2 ++ [(7, true)]) /\ q <> (7, true).
Proof. exists (7, false). split; [left; reflexivity|discriminate]. Qed.

(** In all other cases the two models share one array: every boundary rate set on
    one of them is set on the other. *)
Lemma L_C76_shared :
  forall (F : Type) (NF : Num F) (sz : nat -> bool -> nat) (l1 l2 l3 : list (aop (F := F))) (g : nat)
         (id : Z) (v : F),
  let w := arun sz world0 (l1 ++ ANew g :: l2 ++ ANew g :: l3) in
  let m := length (grids_of l1) in
  let m' := length (grids_of (l1 ++ ANew g :: l2)) in
  (forall q, In q (zeros_calls (grids_of l1 ++ [g]) l2) -> q = (g, true)) ->
  init_rates w m' = init_rates w m /\
  init_rates (astep sz w (ASetRate m id v)) m' = init_rates (astep sz w (ASetRate m id v)) m.
Proof.
  intros F NF sz l1 l2 l3 g id v w m m' H.
  destruct (addresses sz l1 l2 l3 g g) as (a & a' & E & E' & L & L' & S). fold w in E, E', L, L'. fold m in E. fold m' in E'.
  assert (a = a'). { apply S. split; auto. now apply Forall_forall. } subst a'.
  assert (Q : init_rates w m' = init_rates w m) by (unfold init_rates; now rewrite E, E').
  split; auto.
  destruct (pyset (nth a (heap w) []) id v) as [l|e] eqn:P.
  - rewrite (set_seen sz w m g a m' g a id v l), (set_seen sz w m g a m g a id v l) by auto. now rewrite Nat.eqb_refl.
  - rewrite (set_fails sz w m g a id v e) by auto. exact Q.
Qed.
Example ex_C76_shared_hyps :
  forall q, In q (zeros_calls (grids_of (F := R) [] ++ [7]) [ASetRate (F := R) 0 1 5%R; ANew 7]) -> q = (7, true).
Proof. intros q [<-|[]]. reflexivity. Qed.

(** Setting a boundary rate on the first of two models built on one grid changes
    the initial rates of the second, and the solution compiled from it. *)
Lemma L_C76_refuted :
  exists (sz : nat -> bool -> nat) (l : list (aop (F := R))) (id : Z) (v : R),
  let w := arun sz world0 l in
  let w' := astep sz w (ASetRate 0 id v) in
  models w = [(0, 0); (0, 0)] /\
  init_rates w 1 = Some [0; 0; 0]%R /\ init_rates w' 1 = Some [7; 0; 0]%R /\
  sols (astep sz w' (ACompile 1)) = [(1, [7; 0; 0]%R)].
Proof.
  exists (fun (_ : nat) (b : bool) => if b then 3 else 1), [ANew 0; ANew 0], 0%Z, 7%R.
  repeat split; reflexivity.
Qed.
