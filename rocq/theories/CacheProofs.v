(** Proofs about the memoisation model. *)
From Coq Require Import ZArith Bool Arith Lia List.
From Verif Require Import Prelude PreludeFacts Num GridModel GridNeighbors GeoModel PropModel PropSpec CacheModel CacheSpec.
Import ListNotations.

Section lru.
Variables K V : Type.
Variable keqb : K -> K -> bool.
Hypothesis keqb_ok : forall a b, keqb a b = true <-> a = b.
Notation cache := (cache K V).
Notation cfind := (cfind keqb).
Notation cdel := (cdel keqb).

Lemma keqb_refl k : keqb k k = true. Proof. now apply keqb_ok. Qed.
Lemma keqb_neq k l : k <> l -> keqb k l = false.
Proof. intros N. destruct (keqb k l) eqn:E; auto. apply keqb_ok in E. congruence. Qed.
Lemma keqb_dec (k l : K) : k = l \/ k <> l.
Proof. destruct (keqb k l) eqn:E; [left; now apply keqb_ok|right; intros ->; rewrite keqb_refl in E; discriminate]. Qed.

Lemma cfind_cdel_other k l (c : cache) : k <> l -> cfind k (cdel l c) = cfind k c.
Proof.
  intros N. induction c as [|[k' v] c IH]; simpl; auto.
  destruct (keqb l k') eqn:E.
  - apply keqb_ok in E. subst. now rewrite keqb_neq.
  - simpl. now rewrite IH.
Qed.
Lemma cfind_firstn k n (c : cache) v : cfind k (firstn n c) = Some v -> cfind k c = Some v.
Proof.
  revert n. induction c as [|[k' v'] c IH]; intros [|n]; simpl; try discriminate.
  destruct (keqb k k'); auto. apply IH.
Qed.
Lemma cfind_chit k l v (c : cache) : cfind k (chit keqb l v c) = if keqb k l then Some v else cfind k c.
Proof.
  unfold chit. simpl. destruct (keqb k l) eqn:E; auto. apply cfind_cdel_other.
  intros ->. rewrite keqb_refl in E. discriminate.
Qed.
Lemma cfind_cstore k cap l v (c : cache) u :
  cfind k (cstore cap l v c) = Some u -> (k = l /\ u = v) \/ (k <> l /\ cfind k c = Some u).
Proof.
  intros H. assert (H' : cfind k ((l, v) :: c) = Some u).
  { destruct cap; simpl in *; auto. now apply cfind_firstn in H. }
  simpl in H'. destruct (keqb k l) eqn:E.
  - apply keqb_ok in E. left. split; congruence.
  - right. split; auto. intros ->. rewrite keqb_refl in E. discriminate.
Qed.

(** What an entry after a call is. *)
Lemma lru_call_entry cap f l (c : cache) k u :
  cfind k (fst (lru_call keqb cap f l c)) = Some u ->
  cfind k c = Some u \/ (k = l /\ cfind l c = None /\ f = Ok u).
Proof.
  unfold lru_call. destruct (cfind l c) eqn:E; cbn [fst snd].
  - rewrite cfind_chit. destruct (keqb k l) eqn:Ek; auto.
    apply keqb_ok in Ek. intros [= ->]. subst. auto.
  - destruct f; cbn [fst snd]; auto. intros H. apply cfind_cstore in H as [[-> ->]|[N H]]; auto.
Qed.
Lemma lru_call_coh cap (f : K -> res V) l (c : cache) :
  (forall k v, cfind k c = Some v -> f k = Ok v) ->
  snd (lru_call keqb cap (f l) l c) = f l /\
  (forall k v, cfind k (fst (lru_call keqb cap (f l) l c)) = Some v -> f k = Ok v).
Proof.
  intros H. split.
  - unfold lru_call. destruct (cfind l c) eqn:E; simpl.
    + symmetry. auto.
    + now destruct (f l).
  - intros k v Hk. apply lru_call_entry in Hk as [Hk|(-> & _ & Hk)]; auto.
Qed.
(** An unbounded cache never forgets. *)
Lemma lru_call_keeps f l (c : cache) k v :
  cfind k c = Some v -> cfind k (fst (lru_call keqb None f l c)) = Some v.
Proof.
  intros H. unfold lru_call. destruct (cfind l c) eqn:E; cbn [fst snd].
  - rewrite cfind_chit. destruct (keqb k l) eqn:Ek; auto. apply keqb_ok in Ek. congruence.
  - destruct f; simpl; auto. destruct (keqb k l) eqn:Ek; auto. apply keqb_ok in Ek. congruence.
Qed.

Lemma lru_transparent cap (l : list (K * res V)) : forall c : cache,
  (forall k f f', In (k, f) l -> In (k, f') l -> f = f') ->
  (forall k v f, cfind k c = Some v -> In (k, f) l -> f = Ok v) ->
  snd (lru_run keqb cap l c) = map snd l.
Proof.
  induction l as [|[k f] l IH]; intros c H Hc; simpl; auto.
  destruct (lru_call keqb cap f k c) as [c' r] eqn:E.
  specialize (IH c'). destruct (lru_run keqb cap l c') as [c'' rs]. simpl in *.
  assert (Er : r = f).
  { unfold lru_call in E. destruct (cfind k c) eqn:Ef.
    - injection E as _ <-. symmetry. eapply Hc; eauto.
    - destruct f; injection E as _ <-; auto. }
  rewrite Er. f_equal. apply IH.
  - intros; eapply H; eauto.
  - intros k' v f' Hf Hin. replace c' with (fst (lru_call keqb cap f k c)) in Hf by now rewrite E.
    apply lru_call_entry in Hf as [Hf|(-> & _ & ->)]; eauto.
Qed.

Lemma cdel_length k (c : cache) v : cfind k c = Some v -> length (cdel k c) = length c - 1.
Proof.
  induction c as [|[k' v'] c IH]; simpl; try discriminate.
  destruct (keqb k k') eqn:E; intros H; simpl; try lia.
  rewrite (IH H). destruct c; simpl in *; [discriminate|lia].
Qed.
Lemma lru_call_length n f k (c : cache) :
  length c <= n -> length (fst (lru_call keqb (Some n) f k c)) <= n.
Proof.
  intros H. unfold lru_call. destruct (cfind k c) eqn:E; simpl.
  - rewrite (cdel_length _ _ _ E). destruct c; simpl in *; [discriminate|lia].
  - destruct f; simpl; auto. destruct n; simpl; try lia. rewrite firstn_length. lia.
Qed.
Lemma lru_capacity n (l : list (K * res V)) : forall c : cache,
  length c <= n -> length (fst (lru_run keqb (Some n) l c)) <= n.
Proof.
  induction l as [|[k f] l IH]; intros c H; simpl; auto.
  pose proof (lru_call_length n f k c H) as H1.
  destruct (lru_call keqb (Some n) f k c) as [c' r]. simpl in H1.
  specialize (IH c' H1). destruct (lru_run keqb (Some n) l c'). exact IH.
Qed.

(** ** Which entries are kept *)
Definition others (k : K) (l : list K) : list K := filter (fun k' => negb (keqb k k')) l.
Lemma others_notin k l : ~ In k l -> others k l = l.
Proof.
  induction l as [|a l IH]; simpl; auto. intros H.
  rewrite keqb_neq by (intros ->; auto). simpl. f_equal. auto.
Qed.
Lemma others_in k l k' : In k' (others k l) <-> In k' l /\ k' <> k.
Proof.
  unfold others. rewrite filter_In. split.
  - intros [H E]. split; auto. intros ->. now rewrite keqb_refl in E.
  - intros [H N]. split; auto. rewrite keqb_neq; auto.
Qed.
Lemma others_nodup k l : NoDup l -> NoDup (others k l).
Proof. apply NoDup_filter. Qed.
Lemma keys_cdel k (c : cache) : NoDup (map fst c) -> map fst (cdel k c) = others k (map fst c).
Proof.
  induction c as [|[k' v] c IH]; simpl; auto. intros H. inversion H; subst.
  destruct (keqb k k') eqn:E; simpl.
  - apply keqb_ok in E. subst. now rewrite others_notin.
  - now rewrite IH.
Qed.
Lemma cfind_in k (c : cache) : In k (map fst c) <-> exists v, cfind k c = Some v.
Proof.
  induction c as [|[k' v] c IH]; simpl.
  - split; [easy|intros [v [=]]].
  - destruct (keqb k k') eqn:E.
    + apply keqb_ok in E. split; eauto.
    + rewrite <- IH. split; auto. intros [->|]; auto. rewrite keqb_refl in E. discriminate.
Qed.
Lemma firstn_others_out n k l : ~ In k (firstn n l) -> firstn n (others k l) = firstn n l.
Proof.
  revert n. induction l as [|a l IH]; intros [|n] H; simpl in *; auto.
  rewrite keqb_neq by (intros ->; auto). simpl. f_equal. apply IH. auto.
Qed.
Lemma firstn_others_in n k l : In k (firstn (S n) l) -> NoDup l ->
  firstn n (others k l) = others k (firstn (S n) l).
Proof.
  revert n. induction l as [|a l IH]; intros n Hin Hd; simpl in *; auto; try easy.
  inversion Hd; subst. destruct (keqb k a) eqn:E; simpl.
  - apply keqb_ok in E. subst. rewrite others_notin by auto.
    rewrite others_notin; auto. intros Q. apply H1. rewrite <- (firstn_skipn n l). apply in_or_app; auto.
  - destruct Hin as [->|Hin]; [rewrite keqb_refl in E; discriminate|].
    destruct n; [easy|]. rewrite (firstn_cons n a). f_equal. apply (IH n); auto.
Qed.
Definition capped (cap : option nat) (l : list K) : list K :=
  match cap with None => l | Some n => firstn n l end.
Lemma NoDup_firstn {A} n (l : list A) : NoDup l -> NoDup (firstn n l).
Proof.
  intros H. rewrite <- (firstn_skipn n l) in H. revert H. generalize (firstn n l) (skipn n l).
  induction l0 as [|a l0 IH]; intros l1 H; [constructor|]. simpl in H. inversion H; subst.
  constructor; [|eauto]. intros Q. apply H2, in_or_app; auto.
Qed.
Lemma lru_recent cap (l : list (K * V)) : forall (c : cache) acc,
  NoDup acc -> map fst c = capped cap acc ->
  map fst (fst (lru_run keqb cap (map (fun p => (fst p, Ok (snd p))) l) c)) =
  capped cap (recent keqb (map fst l) acc).
Proof.
  induction l as [|[k v] l IH]; intros c acc Hd Hc; simpl; auto.
  destruct (lru_call keqb cap (Ok v) k c) as [c' r] eqn:E.
  specialize (IH c' (k :: others k acc)).
  destruct (lru_run keqb cap (map (fun p => (fst p, Ok (snd p))) l) c') as [c'' rs]. simpl in *.
  apply IH.
  { constructor; [|now apply others_nodup]. rewrite others_in. tauto. }
  replace c' with (fst (lru_call keqb cap (Ok v) k c)) by now rewrite E. clear IH E c' c'' rs r.
  assert (HdC : NoDup (map fst c)). { rewrite Hc. destruct cap; simpl; auto using NoDup_firstn. }
  unfold lru_call. destruct (cfind k c) eqn:Ef; simpl.
  - assert (Hin : In k (map fst c)) by (apply cfind_in; eauto).
    rewrite keys_cdel by auto. rewrite Hc in *. destruct cap as [n|]; simpl in *; auto.
    destruct n; simpl in *; [easy|]. f_equal. symmetry. now apply firstn_others_in.
  - assert (Hout : ~ In k (map fst c)). { rewrite cfind_in. intros [u Q]. congruence. }
    destruct cap as [n|]; simpl.
    + destruct n; simpl; auto. rewrite <- firstn_map, Hc. f_equal. rewrite Hc in Hout. cbn [capped] in *.
      rewrite firstn_firstn, Nat.min_l by lia.
      rewrite firstn_others_out; auto. intros Q. apply Hout.
      rewrite <- (firstn_skipn n (firstn (S n) acc)), firstn_firstn, Nat.min_l by lia. apply in_or_app; auto.
    + rewrite Hc in *. simpl in *. now rewrite others_notin.
Qed.
End lru.

Lemma ref_eqb_ok r s : ref_eqb r s = true <-> r = s.
Proof.
  destruct r, s; simpl; try (split; [discriminate|congruence]).
  - rewrite Z.eqb_eq. split; congruence.
  - rewrite coord_eqb_eq. split; congruence.
Qed.
Lemma axis_eqb_ok a b : axis_eqb a b = true <-> a = b.
Proof. destruct a, b; simpl; split; congruence. Qed.
Lemma kkey_eqb_ok k l : kkey_eqb k l = true <-> k = l.
Proof.
  destruct k as [[o a] r], l as [[p b] s]. unfold kkey_eqb.
  rewrite !andb_true_iff, Nat.eqb_eq, axis_eqb_ok, ref_eqb_ok.
  split; [intros [[-> ->] ->]|intros [= -> -> ->]]; auto.
Qed.
Lemma gkey_eqb_ok k l : gkey_eqb k l = true <-> k = l.
Proof.
  destruct k as [[o a] r], l as [[p b] s]. unfold gkey_eqb.
  rewrite !andb_true_iff, Nat.eqb_eq, Z.eqb_eq, eqb_true_iff.
  split; [intros [[-> ->] ->]|intros [= -> -> ->]]; auto.
Qed.
Lemma nat_eqb_ok a b : Nat.eqb a b = true <-> a = b. Proof. apply Nat.eqb_eq. Qed.
Global Hint Resolve kkey_eqb_ok gkey_eqb_ok nat_eqb_ok : core.

Section session.
Context {F : Type} {NF : Num F}.
Notation caches := (caches (F := F)).

(** Every stored value is what would be computed now. *)
Record coh (g : nat -> gobj F) (c : caches) : Prop := {
  coh_k : forall i a r v, cfind kkey_eqb (i, a, r) (c_k c) = Some v -> get_cell_k (g i) a r = Ok v;
  coh_hom : forall i v, cfind Nat.eqb i (c_hom c) = Some v -> is_homogeneous (g i) = Ok v;
  coh_iso : forall i v, cfind Nat.eqb i (c_iso c) = Some v -> is_isotropic (g i) = Ok v;
  coh_G : forall i id b v, cfind gkey_eqb (i, id, b) (c_G c) = Some v -> get_cell_G (g i) id b = Ok v }.
(** No stored value is about grid [j]. *)
Record clean (j : nat) (c : caches) : Prop := {
  cl_k : forall a r, cfind kkey_eqb (j, a, r) (c_k c) = None;
  cl_hom : cfind Nat.eqb j (c_hom c) = None;
  cl_iso : cfind Nat.eqb j (c_iso c) = None;
  cl_G : forall id b, cfind gkey_eqb (j, id, b) (c_G c) = None }.

Definition good {A} (g : nat -> gobj F) (i : nat) (m : st (F := F) A) (x : res A) : Prop :=
  forall c, coh g c ->
    snd (m c) = x /\ coh g (fst (m c)) /\ (forall j, j <> i -> clean j c -> clean j (fst (m c))).

Lemma good_ret {A} g i (x : res A) : good g i (sret x) x.
Proof. intros c H. simpl. auto. Qed.
Lemma good_bind {A B} g i (m : st A) x (f : A -> st B) (h : A -> res B) :
  good g i m x -> (forall a, x = Ok a -> good g i (f a) (h a)) ->
  good g i (sbind m f) (rbind x h).
Proof.
  intros Hm Hf c Hc. destruct (Hm c Hc) as (E & Hc' & Hl). unfold sbind.
  destruct (m c) as [c' r]. simpl in *. subst r. destruct x as [a|e]; simpl; auto.
  destruct (Hf a eq_refl c' Hc') as (E' & Hc'' & Hl'). split; [auto|split; auto].
Qed.
Lemma fold_err {A B} (h : A -> B -> res A) l e :
  fold_left (fun acc b => rbind acc (fun x => h x b)) l (Err e) = Err e.
Proof. induction l; simpl; auto. Qed.
Lemma good_fold {A B} g i (f : A -> B -> st A) (h : A -> B -> res A) l :
  (forall a b, good g i (f a b) (h a b)) ->
  forall a, good g i (sfold f l a) (fold_left (fun acc b => rbind acc (fun x => h x b)) l (Ok a)).
Proof.
  intros H. induction l as [|b l IH]; intros a; simpl; [apply good_ret|].
  replace (fold_left (fun acc b0 => rbind acc (fun x => h x b0)) l (h a b))
    with (rbind (h a b) (fun x => fold_left (fun acc b0 => rbind acc (fun x => h x b0)) l (Ok x))).
  - apply good_bind; auto.
  - destruct (h a b); simpl; auto. now rewrite fold_err.
Qed.

Lemma cfind_none_call {K V} (keqb : K -> K -> bool) (Hk : forall a b, keqb a b = true <-> a = b)
  cap (f : res V) l (c : cache K V) k :
  cfind keqb k c = None -> k <> l -> cfind keqb k (fst (lru_call keqb cap f l c)) = None.
Proof.
  intros H N. destruct (cfind keqb k (fst (lru_call keqb cap f l c))) eqn:E; auto.
  apply lru_call_entry in E as [E|(E & _)]; auto; congruence.
Qed.

Lemma good_k g i a r : good g i (mem_k (g i) i a r) (get_cell_k (g i) a r).
Proof.
  intros c H. unfold mem_k.
  pose proof (lru_call_coh _ _ kkey_eqb kkey_eqb_ok None
    (fun k : kkey => get_cell_k (g (fst (fst k))) (snd (fst k)) (snd k)) (i, a, r) (c_k c)) as Q.
  destruct Q as [Q1 Q2]. { intros [[j b] s] v E. exact (coh_k _ _ H _ _ _ _ E). }
  cbn [fst snd] in Q1, Q2.
  pose proof (fun k => cfind_none_call kkey_eqb kkey_eqb_ok None (get_cell_k (g i) a r) (i, a, r) (c_k c) k) as Q3.
  destruct (lru_call kkey_eqb None (get_cell_k (g i) a r) (i, a, r) (c_k c)) as [c' v]. cbn [fst snd] in *.
  split; [auto|]. split.
  - destruct H. constructor; cbn; auto. intros. exact (Q2 _ _ H).
  - intros j N C. destruct C. constructor; cbn; auto. intros. apply Q3; auto. congruence.
Qed.
Lemma good_hom g i : good g i (mem_hom (g i) i) (is_homogeneous (g i)).
Proof.
  intros c H. unfold mem_hom.
  pose proof (lru_call_coh _ _ Nat.eqb nat_eqb_ok (Some 1)
    (fun k : nat => is_homogeneous (g k)) i (c_hom c)) as Q.
  destruct Q as [Q1 Q2]. { intros j v E. exact (coh_hom _ _ H _ _ E). }
  pose proof (fun k => cfind_none_call Nat.eqb nat_eqb_ok (Some 1) (is_homogeneous (g i)) i (c_hom c) k) as Q3.
  cbn beta in Q1, Q2.
  destruct (lru_call Nat.eqb (Some 1) (is_homogeneous (g i)) i (c_hom c)) as [c' v]. cbn [fst snd] in *.
  split; [auto|]. split.
  - destruct H. constructor; cbn; auto.
  - intros j N C. destruct C. constructor; cbn; auto.
Qed.
Lemma good_iso g i : good g i (mem_iso (g i) i) (is_isotropic (g i)).
Proof.
  intros c H. unfold mem_iso.
  pose proof (lru_call_coh _ _ Nat.eqb nat_eqb_ok (Some 1)
    (fun k : nat => is_isotropic (g k)) i (c_iso c)) as Q.
  destruct Q as [Q1 Q2]. { intros j v E. exact (coh_iso _ _ H _ _ E). }
  pose proof (fun k => cfind_none_call Nat.eqb nat_eqb_ok (Some 1) (is_isotropic (g i)) i (c_iso c) k) as Q3.
  cbn beta in Q1, Q2.
  destruct (lru_call Nat.eqb (Some 1) (is_isotropic (g i)) i (c_iso c)) as [c' v]. cbn [fst snd] in *.
  split; [auto|]. split.
  - destruct H. constructor; cbn; auto.
  - intros j N C. destruct C. constructor; cbn; auto.
Qed.
Lemma good_kAd g i a r : good g i (mem_kAd (g i) i a r) (cell_kAd (g i) a r).
Proof.
  unfold mem_kAd, cell_kAd. repeat (apply good_bind; [apply good_ret|intros ? _]).
  apply good_bind; [apply good_k|intros ? _]. apply good_ret.
Qed.
Lemma good_G_body g i id b : good g i (mem_G_body (g i) i id b) (get_cell_G (g i) id b).
Proof.
  unfold mem_G_body, get_cell_G. apply good_bind; [apply good_ret|intros nb _].
  apply (good_fold g i _ (fun D a => let* c := cell_kAd (g i) a (ById id) in
    fold_left (fun acc id_n =>
      let* D := acc in
      let* c_n := cell_kAd (g i) a (ById id_n) in
      let* iso := is_isotropic (g i) in
      Ok (dset id_n (if iso then G_arith (tfac (g i)) c c_n else G_harm (tfac (g i)) c c_n) D))
      (dirs_get a nb) (Ok D))).
  intros D a. apply good_bind; [apply good_kAd|intros c _].
  apply (good_fold g i _ (fun D id_n => let* c_n := cell_kAd (g i) a (ById id_n) in
      let* iso := is_isotropic (g i) in
      Ok (dset id_n (if iso then G_arith (tfac (g i)) c c_n else G_harm (tfac (g i)) c c_n) D))).
  intros D' idn. apply good_bind; [apply good_kAd|intros c_n _].
  apply good_bind; [apply good_iso|intros iso _]. apply good_ret.
Qed.
Lemma good_G g i id b : good g i (mem_G (g i) i id b) (get_cell_G (g i) id b).
Proof.
  intros c H. unfold mem_G. destruct (cfind gkey_eqb (i, id, b) (c_G c)) as [v|] eqn:E.
  - pose proof (coh_G _ _ H _ _ _ _ E) as Ev. cbn [fst snd]. split; [auto|]. split.
    + destruct H. constructor; cbn -[chit gkey_eqb]; auto. intros j id' b' u Hu.
      rewrite (cfind_chit _ _ _ gkey_eqb_ok) in Hu.
      destruct (gkey_eqb (j, id', b') (i, id, b)) eqn:Ek; auto.
      apply gkey_eqb_ok in Ek. congruence.
    + intros j N C. destruct C. constructor; cbn -[chit]; auto. intros id' b'.
      rewrite (cfind_chit _ _ _ gkey_eqb_ok).
      destruct (gkey_eqb (j, id', b') (i, id, b)) eqn:Ek; auto. apply gkey_eqb_ok in Ek. congruence.
  - destruct (good_G_body g i id b c H) as (E1 & Hc & Hl).
    destruct (mem_G_body (g i) i id b c) as [c' [v|e]]; cbn [fst snd] in *; [|auto].
    split; [auto|]. split.
    + destruct Hc. constructor; cbn -[cstore]; auto. intros j id' b' u Hu.
      apply (cfind_cstore _ _ _ gkey_eqb_ok) in Hu as [[[= -> -> ->] ->]|[_ Hu]]; auto.
    + intros j N C. destruct (Hl j N C). constructor; cbn -[gkey_eqb]; auto. intros id' b'.
      destruct (gkey_eqb (j, id', b') (i, id, b)) eqn:Ek; auto. apply gkey_eqb_ok in Ek. congruence.
Qed.
Lemma bind_err {A B} (x : res A) (f : A -> res B) : (forall a, x <> Ok a) -> exists e, x = Err e /\ rbind x f = Err e.
Proof. intros H. destruct x; [now destruct (H a)|eauto]. Qed.
Lemma cells_G_needs (o : gobj F) iso b e : get_D (ggrid o) <> 0 ->
  get_kAd o (nth 0 (get_fdir (ggrid o)) ADash) b = Err e -> get_cells_G_with iso o b = Err e.
Proof.
  intros HD E. unfold get_cells_G_with, get_cells_G_diag_1_with.
  destruct (get_D (ggrid o) =? 0) eqn:E0; [apply Nat.eqb_eq in E0; lia|].
  now rewrite E.
Qed.
Lemma good_cells_G g i b : good g i (mem_cells_G (g i) i b) (get_cells_G (g i) b).
Proof.
  intros c H. unfold mem_cells_G, get_cells_G.
  destruct (get_D (ggrid (g i)) =? 0) eqn:E0.
  { unfold get_cells_G_with. rewrite E0. simpl. auto. }
  destruct (get_kAd (g i) (nth 0 (get_fdir (ggrid (g i))) ADash) b) as [l|e] eqn:E.
  - unfold sbind, sret. destruct (good_iso g i c H) as (E1 & Hc & Hl).
    destruct (mem_iso (g i) i c) as [c' v]. cbn [fst snd] in *. subst v. auto.
  - cbn. split; auto. symmetry. apply cells_G_needs; auto. apply Nat.eqb_neq; auto.
Qed.

Lemma exec_good g c p : updates p = false -> coh g c ->
  exists c', exec (g, c) p = ((g, c'), snd (plain g p)) /\ coh g c' /\ fst (plain g p) = g /\
    (forall j, j <> subject p -> clean j c -> clean j c') /\
    (direct p = true -> c' = c).
Proof.
  intros U H. destruct p; simpl in *; try discriminate; unfold lift; eauto.
  - exists c. split; [reflexivity|split; [exact H|split; [reflexivity|split; auto]]].
  - exists c. split; [reflexivity|split; [exact H|split; [reflexivity|split; auto]]].
  - destruct (good_k g i a r c H) as (E & Hc & Hl). rewrite E. eexists. split; [reflexivity|split; [exact Hc|split; [reflexivity|split; [exact Hl|discriminate]]]].
  - destruct (good_hom g i c H) as (E & Hc & Hl). rewrite E. eexists. split; [reflexivity|split; [exact Hc|split; [reflexivity|split; [exact Hl|discriminate]]]].
  - destruct (good_iso g i c H) as (E & Hc & Hl). rewrite E. eexists. split; [reflexivity|split; [exact Hc|split; [reflexivity|split; [exact Hl|discriminate]]]].
  - destruct (good_G g i id boundary c H) as (E & Hc & Hl). rewrite E. eexists. split; [reflexivity|split; [exact Hc|split; [reflexivity|split; [exact Hl|discriminate]]]].
  - destruct (good_cells_G g i boundary c H) as (E & Hc & Hl). rewrite E. eexists. split; [reflexivity|split; [exact Hc|split; [reflexivity|split; [exact Hl|discriminate]]]].
Qed.

Lemma coh_put g c i o : coh g c -> clean i c -> coh (put g i o) c.
Proof.
  intros H C. destruct H, C. unfold put. constructor; intros j; intros.
  all: destruct (j =? i) eqn:E; [apply Nat.eqb_eq in E; subst; congruence|auto].
Qed.

Lemma session_ok (l : list (op (F := F))) : forall g c,
  set_up_first l -> coh g c ->
  (forall p, In p l -> updates p = true -> clean (subject p) c) ->
  snd (exec_all (g, c) l) = snd (plain_all g l) /\
  fst (fst (exec_all (g, c) l)) = fst (plain_all g l).
Proof.
  induction l as [|p l IH]; intros g c Hs Hc Hcl; cbn [exec_all plain_all]; auto.
  assert (Hs' : set_up_first l).
  { intros l1 q l2 p' l3 E. apply (Hs (p :: l1) q l2 p' l3). now rewrite E. }
  destruct (updates p) eqn:U.
  - destruct p; try discriminate. cbn [exec plain]. destruct (do_set (g i) p) as [o r] eqn:E.
    specialize (IH (put g i o) c Hs'). 
    destruct IH as [I1 I2].
    { apply coh_put; auto. apply (Hcl (OSet i p)); simpl; auto. }
    { intros; apply Hcl; simpl; auto. }
    destruct (exec_all (put g i o, c) l), (plain_all (put g i o) l). simpl in *. split; congruence.
  - destruct (exec_good g c p U Hc) as (c' & E & Hc' & Eg & Hl & Hd). rewrite E.
    destruct (plain g p) as [g' r]. simpl in *. subst g'.
    destruct (IH g c' Hs' Hc') as [I1 I2].
    { intros p' Hin Up. destruct (direct p) eqn:D.
      - rewrite (Hd eq_refl). apply Hcl; auto.
      - apply Hl; [|apply Hcl; auto]. apply in_split in Hin as (m1 & m2 & ->).
        apply not_eq_sym. apply (Hs [] p m1 p' m2); auto. }
    destruct (exec_all (g, c') l), (plain_all g l). simpl in *. split; congruence.
Qed.

Fixpoint suf (l : list (op (F := F))) : Prop :=
  match l with
  | [] => True
  | q :: l' => (direct q = false -> Forall (fun p => updates p = true -> subject q <> subject p) l') /\ suf l'
  end.
Lemma suf_ok l : suf l -> set_up_first l.
Proof.
  induction l as [|a l IH]; intros S l1 q l2 p l3 E D U.
  - now destruct l1.
  - destruct S as [S1 S2]. destruct l1 as [|b l1]; cbn [app] in E; injection E as -> E.
    + specialize (S1 D). rewrite Forall_forall in S1. apply S1; auto. rewrite E. apply in_or_app. right. now left.
    + eapply IH; eauto.
Qed.

(** The objects evolve independently of the caches. *)
Lemma exec_objects g c p : fst (fst (exec (g, c) p)) = fst (plain g p).
Proof. destruct p; simpl; auto. destruct (do_set (g i) p); auto. Qed.
Lemma session_objects (l : list (op (F := F))) : forall g c, fst (fst (exec_all (g, c) l)) = fst (plain_all g l).
Proof.
  induction l as [|p l IH]; intros; cbn [exec_all plain_all]; auto.
  pose proof (exec_objects g c p) as E. destruct (exec (g, c) p) as [[g' c'] r]. destruct (plain g p) as [g'' r'].
  simpl in E. subst g''. specialize (IH g' c'). destruct (exec_all (g', c') l), (plain_all g' l). auto.
Qed.
Lemma direct_fresh g c p : direct p = true -> snd (exec (g, c) p) = snd (plain g p).
Proof. destruct p; simpl; try discriminate; auto. now destruct (do_set (g i) p). Qed.

(** ** Entries of the unbounded caches stay for ever *)
Definition keepsK (k : kkey) (v : F) (c : caches) : Prop := cfind kkey_eqb k (c_k c) = Some v.
Definition keepsG (k : gkey) (v : list (Z * F)) (c : caches) : Prop := cfind gkey_eqb k (c_G c) = Some v.
Definition steady {A} (P : caches -> Prop) (m : st (F := F) A) : Prop := forall c, P c -> P (fst (m c)).
Lemma st_ret {A} P (x : res A) : steady P (sret x). Proof. intros c H. exact H. Qed.
Lemma st_bind {A B} P (m : st A) (f : A -> st B) :
  steady P m -> (forall a, steady P (f a)) -> steady P (sbind m f).
Proof.
  intros Hm Hf c H. specialize (Hm c H). unfold sbind. destruct (m c) as [c' [a|e]]; auto. now apply Hf.
Qed.
Lemma st_fold {A B} P (f : A -> B -> st A) l : (forall a b, steady P (f a b)) -> forall a, steady P (sfold f l a).
Proof. intros H. induction l; intros; simpl; [apply st_ret|apply st_bind; auto]. Qed.
Definition forever (P : caches -> Prop) : Prop :=
  (forall o i a r, steady P (mem_k o i a r)) /\ (forall o i, steady P (mem_hom o i)) /\
  (forall o i, steady P (mem_iso o i)) /\ (forall o i id b, steady P (mem_G o i id b)).
Lemma st_body P : (forall o i a r, steady P (mem_k o i a r)) -> (forall o i, steady P (mem_iso o i)) ->
  forall o i id b, steady P (mem_G_body o i id b).
Proof.
  intros Hk Hi o i id b. unfold mem_G_body.
  assert (HA : forall a r, steady P (mem_kAd o i a r)).
  { intros. unfold mem_kAd. repeat (apply st_bind; [apply st_ret|intros]). apply st_bind; auto. intros; apply st_ret. }
  apply st_bind; [apply st_ret|intros nb]. apply st_fold. intros D a. apply st_bind; auto. intros c.
  apply st_fold. intros. apply st_bind; auto. intros. apply st_bind; auto. intros. apply st_ret.
Qed.
Lemma forever_K k v : forever (keepsK k v).
Proof.
  assert (Hk : forall o i a r, steady (keepsK k v) (mem_k o i a r)).
  { intros o i a r c H. unfold mem_k, keepsK in *.
    pose proof (lru_call_keeps _ _ kkey_eqb kkey_eqb_ok (get_cell_k o a r) (i, a, r) (c_k c) k v H) as Q.
    destruct (lru_call kkey_eqb None (get_cell_k o a r) (i, a, r) (c_k c)). exact Q. }
  assert (Hh : forall o i, steady (keepsK k v) (mem_hom o i)).
  { intros o i c H. unfold mem_hom. destruct (lru_call Nat.eqb (Some 1) _ i (c_hom c)). exact H. }
  assert (Hi : forall o i, steady (keepsK k v) (mem_iso o i)).
  { intros o i c H. unfold mem_iso. destruct (lru_call Nat.eqb (Some 1) _ i (c_iso c)). exact H. }
  repeat split; auto. intros o i id b c H. unfold mem_G.
  destruct (cfind gkey_eqb (i, id, b) (c_G c)); [exact H|].
  pose proof (st_body _ Hk Hi o i id b c H) as Q. destruct (mem_G_body o i id b c) as [c' [u|e]]; exact Q.
Qed.
Lemma forever_G k v : forever (keepsG k v).
Proof.
  assert (Hk : forall o i a r, steady (keepsG k v) (mem_k o i a r)).
  { intros o i a r c H. unfold mem_k. destruct (lru_call kkey_eqb None _ (i, a, r) (c_k c)). exact H. }
  assert (Hh : forall o i, steady (keepsG k v) (mem_hom o i)).
  { intros o i c H. unfold mem_hom. destruct (lru_call Nat.eqb (Some 1) _ i (c_hom c)). exact H. }
  assert (Hi : forall o i, steady (keepsG k v) (mem_iso o i)).
  { intros o i c H. unfold mem_iso. destruct (lru_call Nat.eqb (Some 1) _ i (c_iso c)). exact H. }
  repeat split; auto. intros o i id b c H. unfold mem_G.
  destruct (cfind gkey_eqb (i, id, b) (c_G c)) eqn:E.
  - unfold keepsG in *. cbn -[chit]. rewrite (cfind_chit _ _ _ gkey_eqb_ok).
    destruct (gkey_eqb k (i, id, b)) eqn:Ek; auto. apply gkey_eqb_ok in Ek. congruence.
  - pose proof (st_body _ Hk Hi o i id b) as Q.
    assert (Hbody : forall c, cfind gkey_eqb (i, id, b) (c_G (fst (mem_G_body o i id b c))) =
                              cfind gkey_eqb (i, id, b) (c_G c)).
    { clear. intros c.
      assert (S : forall x, steady (fun c => c_G c = x) (mem_G_body o i id b)).
      { intros x. apply st_body.
        - intros o' i' a r c' H. unfold mem_k. destruct (lru_call kkey_eqb None _ (i', a, r) (c_k c')). exact H.
        - intros o' i' c' H. unfold mem_iso. destruct (lru_call Nat.eqb (Some 1) _ i' (c_iso c')). exact H. }
      now rewrite (S (c_G c) c eq_refl). }
    specialize (Hbody c). specialize (Q c H). destruct (mem_G_body o i id b c) as [c' [u|e]]; auto.
    unfold keepsG in *. cbn -[gkey_eqb] in *. destruct (gkey_eqb k (i, id, b)) eqn:Ek; auto. apply gkey_eqb_ok in Ek. congruence.
Qed.
Lemma forever_session P (l : list (op (F := F))) : forever P -> forall g c,
  P c -> P (snd (fst (exec_all (g, c) l))).
Proof.
  intros (Hk & Hh & Hi & HG). induction l as [|p l IH]; intros g c H; cbn [exec_all]; auto.
  assert (Q : P (snd (fst (exec (g, c) p)))).
  { destruct p; cbn; auto.
    - destruct (do_set (g i) p); auto.
    - now apply Hk. - now apply Hh. - now apply Hi. - now apply HG.
    - unfold mem_cells_G. destruct (get_D _ =? 0); auto. unfold sbind, sret.
      destruct (get_kAd _ _ _); auto. specialize (Hi (g i) i c H). destruct (mem_iso (g i) i c). exact Hi. }
  destruct (exec (g, c) p) as [[g' c'] r]. specialize (IH g' c' Q). destruct (exec_all (g', c') l) as [[g'' c''] rs]. exact IH.
Qed.
Lemma stored_k o i a r c v : snd (mem_k o i a r c) = Ok v -> keepsK (i, a, r) v (fst (mem_k o i a r c)).
Proof.
  unfold mem_k, lru_call, keepsK. destruct (cfind kkey_eqb (i, a, r) (c_k c)) eqn:E; cbn -[chit cstore].
  - intros [= ->]. rewrite (cfind_chit _ _ _ kkey_eqb_ok).
    now rewrite (keqb_refl _ _ kkey_eqb_ok).
  - destruct (get_cell_k o a r); cbn -[kkey_eqb]; try discriminate. intros [= ->]. now rewrite (keqb_refl _ _ kkey_eqb_ok).
Qed.
Lemma stored_G o i id b c v : snd (mem_G o i id b c) = Ok v -> keepsG (i, id, b) v (fst (mem_G o i id b c)).
Proof.
  unfold mem_G, keepsG. destruct (cfind gkey_eqb (i, id, b) (c_G c)) eqn:E; cbn [fst snd c_G].
  - intros [= ->]. rewrite (cfind_chit _ _ _ gkey_eqb_ok).
    now rewrite (keqb_refl _ _ gkey_eqb_ok).
  - destruct (mem_G_body o i id b c) as [c' [u|e]]; cbn -[gkey_eqb]; try discriminate. intros [= ->].
    now rewrite (keqb_refl _ _ gkey_eqb_ok).
Qed.
Lemma recall_k o i a r c v : keepsK (i, a, r) v c -> snd (mem_k o i a r c) = Ok v.
Proof. unfold keepsK, mem_k, lru_call. intros ->. auto. Qed.
Lemma recall_G o i id b c v : keepsG (i, id, b) v c -> snd (mem_G o i id b c) = Ok v.
Proof. unfold keepsG, mem_G. intros ->. auto. Qed.
End session.
