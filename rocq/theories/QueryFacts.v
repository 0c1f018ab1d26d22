(** Proofs about the memoised queries with attributes. *)
From Coq Require Import String ZArith Bool Arith Lia List.
From Verif Require Import Prelude PreludeFacts GridModel GridSpec GridProofs GridThm CacheModel CacheProofs QueryModel QuerySpec.
Import ListNotations.

Lemma key_eqb_ok a b : key_eqb a b = true <-> a = b.
Proof.
  destruct a as [[[i h] b0] p], b as [[[i' h'] b'] p']. cbn. rewrite !andb_true_iff, !Nat.eqb_eq, !eqb_true_iff. split; [intros (((-> & ->) & ->) & ->); reflexivity|intros [= -> -> -> ->]; auto].
Qed.
Lemma meth_eqb_ok a b : meth_eqb a b = true <-> a = b.
Proof. destruct a, b; cbn; split; congruence. Qed.

Definition answer (m : meth) (g : grid) (b p : bool) : res ans :=
  match m with
  | MD => fresh g QD | MFdir => fresh g QFdir | MShape => fresh g (QShape b) | MN => fresh g (QN b)
  | MNmax => fresh g (QNmax b) | MFshape => fresh g (QFshape b p)
  end.
(** The attributes a computed call has left. *)
Definition left_by (m : meth) (b : bool) (a : attrs) : Prop :=
  match m with
  | MD => a_D a <> None
  | MShape => a_shape a <> None /\ (b = true -> a_fdir a <> None)
  | MFdir => a_fdir a <> None
  | MN | MNmax => b = true -> a_fdir a <> None
  | MFshape => True
  end.
Record good (g : grid) (a : attrs) : Prop := {
  gd_wf : wf g;
  gd_D : forall v, a_D a = Some v -> v = get_D g;
  gd_shape : forall v, a_shape a = Some v -> exists b, v = get_shape g b;
  gd_fdir : forall v, a_fdir a = Some v -> v = get_fdir g;
  gd_n : forall v, a_n a = Some v -> exists b, v = get_n g b;
  gd_nmax : forall v, a_nmax a = Some v -> exists b, v = get_n_max g b;
  gd_fshape : forall v, a_fshape a = Some v -> exists b p, fresh g (QFshape b p) = Ok (Shape v) }.
Definition grown (a a' : attrs) : Prop :=
  (a_D a <> None -> a_D a' <> None) /\ (a_shape a <> None -> a_shape a' <> None) /\ (a_fdir a <> None -> a_fdir a' <> None).
Lemma grown_refl a : grown a a. Proof. repeat split; auto. Qed.
Lemma grown_trans a b c : grown a b -> grown b c -> grown a c. Proof. unfold grown. intuition. Qed.
Lemma left_grown m b a a' : grown a a' -> left_by m b a -> left_by m b a'.
Proof. intros (H1 & H2 & H3). destruct m; cbn; intuition. Qed.
Definition entry (w : world) (m : meth) (k : key) (v : ans) : Prop :=
  match k with (i, _, b, p) => exists g a, objs w i = Some (g, a) /\ answer m g b p = Ok v /\ left_by m b a end.
Definition inv (w : world) : Prop :=
  (forall i g a, objs w i = Some (g, a) -> good g a) /\ (forall m k v, cfind key_eqb k (mem w m) = Some v -> entry w m k v).
(** What changes: attributes of existing objects. *)
Definition ext (w w' : world) : Prop :=
  (forall i g a, objs w i = Some (g, a) -> exists a', objs w' i = Some (g, a') /\ grown a a') /\ (forall i, objs w i = None -> objs w' i = None).
Lemma ext_refl w : ext w w. Proof. split; eauto using grown_refl. Qed.
Lemma ext_trans a b c : ext a b -> ext b c -> ext a c.
Proof.
  intros (H1 & H2) (H3 & H4). split; auto. intros i g x E. destruct (H1 _ _ _ E) as (x1 & E1 & G1). destruct (H3 _ _ _ E1) as (x2 & E2 & G2). eauto using grown_trans.
Qed.
Lemma entry_ext w w' m k v : ext w w' -> entry w m k v -> entry w' m k v.
Proof. intros (H & _). destruct k as [[[i h] b] p]. intros (g & a & E & A & L). destruct (H _ _ _ E) as (a' & E' & G). exists g, a'. eauto using left_grown. Qed.

Definition T {A} (i : nat) (pre : grid -> attrs -> Prop) (c : wst A) (post : grid -> attrs -> A -> Prop) : Prop :=
  forall w g a, inv w -> objs w i = Some (g, a) -> pre g a -> exists w' v a', c w = (w', Ok v) /\ inv w' /\ ext w w' /\ objs w' i = Some (g, a') /\ post g a' v.
Lemma T_bind {A B} i pre (c : wst A) mid (f : A -> wst B) post : T i pre c mid -> (forall v, T i (fun g a => mid g a v) (f v) post) -> T i pre (wbind c f) post.
Proof.
  intros H1 H2 w g a I E P. destruct (H1 w g a I E P) as (w1 & v1 & a1 & C1 & I1 & X1 & E1 & P1). destruct (H2 v1 w1 g a1 I1 E1 P1) as (w2 & v2 & a2 & C2 & I2 & X2 & E2 & P2).
  exists w2, v2, a2. unfold wbind. rewrite C1. eauto 10 using ext_trans.
Qed.
Lemma T_ret {A} i (pre : grid -> attrs -> Prop) (r : res A) post : (forall g a, pre g a -> good g a -> exists v, r = Ok v /\ post g a v) -> T i pre (wret r) post.
Proof. intros H w g a I E P. destruct (H g a P (proj1 I _ _ _ E)) as (v & -> & Q). exists w, v, a. unfold wret. auto using ext_refl. Qed.
Lemma T_sizes i pre : T i pre (sizes i) (fun g a v => pre g a /\ v = g).
Proof. intros w g a I E P. exists w, g, a. unfold sizes. rewrite E. auto 10 using ext_refl. Qed.
Lemma T_rd {A} i (pre : grid -> attrs -> Prop) (f : attrs -> option A) : (forall g a, pre g a -> good g a -> f a <> None) -> T i pre (rd i f) (fun g a v => pre g a /\ good g a /\ f a = Some v).
Proof. intros H w g a I E P. unfold rd. rewrite E. pose proof (H g a P (proj1 I _ _ _ E)) as N. destruct (f a) as [v|] eqn:F; [|congruence]. pose proof (proj1 I i g a E) as G. exists w, v, a. auto 10 using ext_refl. Qed.
Lemma T_upd i (pre post : grid -> attrs -> Prop) (f : attrs -> attrs) : (forall g a, pre g a -> good g a -> good g (f a) /\ grown a (f a) /\ post g (f a)) -> T i pre (upd i f) (fun g a _ => post g a).
Proof.
  intros H w g a I E P. unfold upd. rewrite E. destruct (H g a P (proj1 I _ _ _ E)) as (G & Gr & Q).
  assert (X : ext w (put_obj i (g, f a) w)).
  { split; cbn; intros j; destruct (Nat.eqb_spec j i) as [->|]; eauto using grown_refl; [intros g' a' E'; rewrite E in E'; injection E' as <- <-; eauto|congruence]. }
  eexists _, tt, (f a). split; [reflexivity|]. split; [split|].
  - intros j g' a'. cbn. destruct (Nat.eqb_spec j i) as [->|]; [intros [= <- <-]; auto|apply (proj1 I)].
  - intros m k v C. cbn in C. apply (entry_ext w); auto. now apply (proj2 I).
  - split; [exact X|]. cbn. rewrite Nat.eqb_refl. auto.
Qed.
Lemma T_weak {A} i (pre pre' : grid -> attrs -> Prop) (c : wst A) (post post' : grid -> attrs -> A -> Prop) : T i pre c post -> (forall g a, pre' g a -> pre g a) -> (forall g a v, good g a -> post g a v -> post' g a v) -> T i pre' c post'.
Proof. intros H H1 H2 w g a I E P. destruct (H w g a I E (H1 _ _ P)) as (w' & v & a' & C & I' & X & E' & Q). pose proof (proj1 I' i g a' E') as G. exists w', v, a'. auto 10. Qed.
(** Attributes that are set stay. *)
Lemma T_keep {A} i pre (c : wst A) post (S : attrs -> Prop) : (forall a a', grown a a' -> S a -> S a') -> T i pre c post -> T i (fun g a => pre g a /\ S a) c (fun g a v => post g a v /\ S a).
Proof.
  intros M H w g a I E (P & Sa). destruct (H w g a I E P) as (w' & v & a' & C & I' & X & E' & Q). destruct (proj1 X _ _ _ E) as (a2 & E2 & G). rewrite E' in E2. injection E2 as <-. exists w', v, a'. eauto 10.
Qed.
Lemma inv_mem w m c : inv w -> (forall k v, cfind key_eqb k c = Some v -> entry w m k v) -> inv (put_mem m c w) /\ ext w (put_mem m c w).
Proof.
  intros I H. split; [split|exact (ext_refl w)]; [apply (proj1 I)|]. intros m' k v. cbn. destruct (meth_eqb m' m) eqn:Em; [apply meth_eqb_ok in Em as ->; apply H|apply (proj2 I)].
Qed.
Lemma T_memo i m h b p pre body : T i pre body (fun g a v => answer m g b p = Ok v /\ left_by m b a) -> T i pre (memo m (i, h, b, p) body) (fun g a v => answer m g b p = Ok v /\ left_by m b a).
Proof.
  intros H w g a I E P. unfold memo. destruct (cfind key_eqb (i, h, b, p) (mem w m)) as [v|] eqn:C.
  - pose proof (proj2 I _ _ _ C) as (g' & a' & E' & An & L). rewrite E in E'. injection E' as <- <-.
    destruct (inv_mem w m (chit key_eqb (i, h, b, p) v (mem w m)) I) as (I' & X).
    { intros k v'. rewrite (cfind_chit _ _ key_eqb key_eqb_ok). destruct (key_eqb k (i, h, b, p)) eqn:K; [|apply (proj2 I)]. apply key_eqb_ok in K as ->. intros [= <-]. now apply (proj2 I). }
    eexists _, v, a. split; [reflexivity|]. auto.
  - destruct (H w g a I E P) as (w' & v & a' & Cb & I' & X & E' & An & L). rewrite Cb.
    destruct (inv_mem w' m (cstore (Some (capacity m)) (i, h, b, p) v (mem w' m)) I') as (I2 & X2).
    { intros k v' Q. apply (cfind_cstore _ _ key_eqb key_eqb_ok) in Q as [(-> & ->)|(_ & Q)]; [|now apply (proj2 I')]. exists g, a'. auto. }
    eexists _, v, a'. split; [reflexivity|]. split; [exact I2|]. split; [eapply ext_trans; eauto|]. auto.
Qed.
Definition any (g : grid) (a : attrs) : Prop := True.
Lemma T_D i h : T i any (m_D i h) (fun g a v => answer MD g false false = Ok v /\ left_by MD false a).
Proof.
  apply T_memo. eapply T_bind; [apply T_sizes|]. intros g0. cbn beta.
  eapply T_bind; [apply (T_upd i _ (fun g a => a_D a = Some (get_D g)))|].
  - intros g a (_ & ->) G. destruct G. split; [constructor; cbn; auto; intros v [= <-]; reflexivity|]. split; [repeat split; cbn; congruence|reflexivity].
  - intros u0; cbn beta; clear u0. eapply T_bind; [apply T_rd|]. { cbn. congruence. } intros v. apply T_ret. cbn. intros g a (E1 & _ & E2) _. exists (Num v). split; auto. split; congruence.
Qed.
Lemma T_inner_body i : T i any (body_inner i) (fun g a v => answer MShape g false false = Ok v /\ left_by MShape false a).
Proof.
  eapply T_bind; [apply T_sizes|]. intros g0. cbn beta.
  eapply T_bind; [apply (T_upd i _ (fun g a => a_shape a = Some (get_shape g false)))|].
  - intros g a (_ & ->) G. destruct G. split; [constructor; cbn; auto; intros v [= <-]; now exists false|]. split; [repeat split; cbn; congruence|reflexivity].
  - intros u0; cbn beta; clear u0. eapply T_bind; [apply T_rd|]. { cbn. congruence. } intros v. apply T_ret. cbn. intros g a (E1 & _ & E2) _. exists (Shape v). split; auto. split; [congruence|]. split; congruence.
Qed.
Lemma T_inner i h : T i any (m_inner i h) (fun g a v => answer MShape g false false = Ok v /\ left_by MShape false a).
Proof. apply T_memo, T_inner_body. Qed.
Lemma dir_any g b : wf g -> fdir_of_shape (get_D g) (get_shape g b) = get_fdir g.
Proof. intros W. destruct b; [now apply L_C01_direction_from_boundary_shape|reflexivity]. Qed.
Lemma T_fdir i h : T i any (m_fdir i h) (fun g a v => answer MFdir g false false = Ok v /\ left_by MFdir false a).
Proof.
  apply T_memo. eapply T_bind; [apply T_D|]. intros v0. cbn beta.
  eapply T_bind; [apply (T_weak i (fun g a => any g a /\ a_D a <> None) _ _ (fun g a v => (answer MShape g false false = Ok v /\ left_by MShape false a) /\ a_D a <> None) (fun g a v => a_shape a <> None /\ a_D a <> None))|].
  - apply (T_keep i any _ _ (fun a => a_D a <> None)); [intros a a' (G & _); exact G|apply T_inner].
  - cbn. intros g a (_ & L). split; [exact Logic.I|exact L].
  - cbn. intros g a v _ ((_ & S & _) & D). auto.
  - intros u0; cbn beta; clear u0. eapply T_bind; [apply T_rd; intros g a (_ & D) _; exact D|]. intros D. cbn beta.
    eapply T_bind; [apply T_rd; intros g a ((S & _) & _) _; exact S|]. intros s. cbn beta.
    eapply T_bind; [apply (T_upd i _ (fun g a => a_fdir a = Some (get_fdir g)))|].
    + intros g a ((_ & _ & ED) & G & ES). destruct G as [W GD GS GF Gn Gm Gs]. rewrite (GD _ ED). destruct (GS _ ES) as (b & ->). rewrite (dir_any g b W).
      split; [constructor; cbn; auto; intros v [= <-]; reflexivity|]. split; [repeat split; cbn; congruence|reflexivity].
    + intros u0; cbn beta; clear u0. eapply T_bind; [apply T_rd|]. { cbn. congruence. } intros v. apply T_ret. cbn. intros g a (E1 & _ & E2) _. exists (Dir v). split; auto. split; congruence.
Qed.
Lemma T_shape i h b : T i any (m_shape i h b) (fun g a v => answer MShape g b false = Ok v /\ left_by MShape b a).
Proof.
  apply T_memo. destruct b; [|apply T_inner_body]. eapply T_bind; [apply T_fdir|]. intros v0. cbn beta.
  eapply T_bind; [apply T_rd; cbn; intros g a (_ & L) _; exact L|]. intros d. cbn beta. eapply T_bind; [apply T_sizes|]. intros g0. cbn beta.
  eapply T_bind; [apply (T_upd i _ (fun g a => a_shape a = Some (get_shape g true) /\ a_fdir a <> None))|].
  - intros g a ((_ & G & Ed) & ->). rewrite (gd_fdir _ _ G _ Ed). intros _. destruct G as [W GD GS GF Gn Gm Gs]. split; [constructor; cbn; auto; intros v [= <-]; now exists true|]. split; [repeat split; cbn; congruence|]. cbn. split; [reflexivity|congruence].
  - intros u0; cbn beta; clear u0. eapply T_bind; [apply T_rd|]. { cbn. intros g a (E & _) _. congruence. } intros v. apply T_ret. cbn. intros g a ((E1 & E3) & _ & E2) _. exists (Shape v). split; auto. split; [congruence|]. split; [congruence|auto].
Qed.
Lemma T_n i h b : T i any (m_n i h b) (fun g a v => answer MN g b false = Ok v /\ left_by MN b a).
Proof.
  apply T_memo. eapply T_bind; [apply T_shape|]. intros r. cbn beta.
  eapply T_bind; [apply (T_ret i _ _ (fun g a v => v = get_shape g b /\ left_by MN b a))|].
  - cbn. intros g a (E & _ & L) _. injection E as <-. cbn. eauto.
  - intros s. cbn beta. eapply T_bind; [apply (T_upd i _ (fun g a => a_n a = Some (get_n g b) /\ left_by MN b a))|].
    + intros g a (-> & L) G. destruct G as [W GD GS GF Gn Gm Gs]. split; [constructor; cbn; auto; intros v [= <-]; now exists b|]. split; [repeat split; cbn; congruence|]. split; [reflexivity|exact L].
    + intros u0; cbn beta; clear u0. eapply T_bind; [apply T_rd|]. { cbn. intros g a (E & _) _. congruence. } intros v. apply T_ret. cbn. intros g a ((E1 & E3) & _ & E2) _. exists (Num v). split; auto. split; [congruence|auto].
Qed.
Lemma T_nmax i h b : T i any (m_nmax i h b) (fun g a v => answer MNmax g b false = Ok v /\ left_by MNmax b a).
Proof.
  apply T_memo. eapply T_bind; [apply T_shape|]. intros r. cbn beta.
  eapply T_bind; [apply (T_ret i _ _ (fun g a v => v = get_shape g b /\ left_by MN b a))|].
  - cbn. intros g a (E & _ & L) _. injection E as <-. cbn. eauto.
  - intros s. cbn beta. eapply T_bind; [apply (T_upd i _ (fun g a => a_nmax a = Some (get_n_max g b) /\ left_by MN b a))|].
    + intros g a (-> & L) G. destruct G as [W GD GS GF Gn Gm Gs]. split; [constructor; cbn; auto; intros v [= <-]; now exists b|]. split; [repeat split; cbn; congruence|]. split; [reflexivity|exact L].
    + intros u0; cbn beta; clear u0. eapply T_bind; [apply T_rd|]. { cbn. intros g a (E & _) _. congruence. } intros v. apply T_ret. cbn. intros g a ((E1 & E3) & _ & E2) _. exists (Num v). split; auto. split; [congruence|auto].
Qed.
Lemma dirs g : In (get_fdir g) [[ADash]; [AX]; [AY]; [AZ]; [AX; AY]; [AX; AZ]; [AY; AZ]; [AX; AY; AZ]].
Proof. unfold get_fdir, fdir_of_shape. repeat match goal with |- context [match ?x with _ => _ end] => destruct x end; cbn; auto 10. Qed.
Lemma shape3 g b : exists x y z, get_shape g b = [x; y; z].
Proof. destruct b; unfold get_shape; do 3 eexists; reflexivity. Qed.
Lemma fshape_eq g b : fshape_of (unify g) (get_shape g b) (get_fdir g) = get_fshape g b.
Proof.
  unfold get_fshape, fshape_of. destruct (shape3 g b) as (x & y & z & ->). pose proof (dirs g) as H. cbn in H. intuition; match goal with E : _ = get_fdir g |- _ => rewrite <- E end; destruct (unify g); reflexivity.
Qed.
Lemma fshape_ok g b : exists s, get_fshape g b = Ok s.
Proof.
  unfold get_fshape. destruct (shape3 g b) as (x & y & z & ->). pose proof (dirs g) as H. cbn in H. intuition; match goal with E : _ = get_fdir g |- _ => rewrite <- E end; destruct (unify g); cbn; eauto.
Qed.
Lemma T_fshape i h b p : T i (fun g a => a_fdir a <> None) (m_fshape i h b p) (fun g a v => answer MFshape g b p = Ok v /\ left_by MFshape b a).
Proof.
  apply T_memo. eapply T_bind; [apply (T_weak i (fun g a => any g a /\ a_fdir a <> None) _ _ (fun g a v => (answer MShape g b false = Ok v /\ left_by MShape b a) /\ a_fdir a <> None))|].
  - apply (T_keep i any _ _ (fun a => a_fdir a <> None)); [intros a a' (_ & _ & G); exact G|apply T_shape].
  - intros g a H. split; [exact Logic.I|exact H].
  - intros g a v _ H. exact H.
  - intros r. cbn beta. eapply T_bind; [apply (T_ret i _ _ (fun g a v => v = get_shape g b /\ a_fdir a <> None))|].
    + cbn. intros g a ((E & _) & L) _. injection E as <-. cbn. eauto.
    + intros s. cbn beta. eapply T_bind; [apply T_rd; intros g a (_ & L) _; exact L|]. intros d. cbn beta. eapply T_bind; [apply T_sizes|]. intros g0. cbn beta.
      eapply T_bind; [apply (T_ret i _ _ (fun g a v => get_fshape g b = Ok v))|].
      * intros g a (((-> & _) & G & Ed) & ->) _. rewrite (gd_fdir _ _ G _ Ed), fshape_eq. destruct (fshape_ok g b) as (f & ->). eauto.
      * intros f. cbn beta. eapply T_bind; [apply (T_upd i _ (fun g a => a_fshape a = Some f /\ get_fshape g b = Ok f))|].
        { intros g a Ef G. destruct G as [W GD GS GF Gn Gm Gs]. split; [constructor; cbn; auto; intros v [= <-]; exists b, false; rewrite Ef; reflexivity|]. split; [repeat split; cbn; congruence|]. cbn. auto. }
        intros u0; cbn beta; clear u0. eapply T_bind with (mid := fun g a _ => exists v, a_fshape a = Some v /\ fresh g (QFshape b p) = Ok (Shape v)).
        { destruct p.
          - eapply T_bind; [apply T_rd; intros g a (E & _) _; congruence|]. intros f'. cbn beta. apply (T_upd i _ (fun g a => exists v, a_fshape a = Some v /\ fresh g (QFshape b true) = Ok (Shape v))).
            intros g a ((E1 & E2) & _ & E3) G. assert (f' = f) by congruence. subst f'. destruct G as [W GD GS GF Gn Gm Gs].
            assert (Q : fresh g (QFshape b true) = Ok (Shape (f ++ [3]))) by (cbn [fresh]; rewrite E2; reflexivity).
            split; [constructor; cbn [set_fshape a_D a_shape a_fdir a_n a_nmax a_fshape]; auto; intros v [= <-]; eauto|]. split; [repeat split; cbn; congruence|]. eexists. split; [reflexivity|exact Q].
          - apply T_ret. intros g a (E1 & E2) _. exists tt. split; auto. exists f. split; auto. cbn [fresh]. now rewrite E2. }
        intros u0; cbn beta; clear u0. eapply T_bind; [apply T_rd; intros g a (v & E & _) _; congruence|]. intros v. apply T_ret. intros g a ((v' & E1 & E2) & _ & E3) _. assert (v' = v) by congruence. subst v'. exists (Shape v). split; auto. split; [exact E2|exact Logic.I].
Qed.
Lemma T_ask i h q : T i (fun g a => a_fdir a <> None) (ask i h q) (fun g a v => fresh g q = Ok v).
Proof.
  assert (W : forall (c : wst ans) m b p, T i any c (fun g a v => answer m g b p = Ok v /\ left_by m b a) -> T i (fun g a => a_fdir a <> None) c (fun g a v => answer m g b p = Ok v)).
  { intros c m b p H. eapply T_weak; [exact H|now intros|]. intros g a v _ (Q & _). exact Q. }
  destruct q as [| |b|b|b|b p]; cbn [ask]; [apply (W _ _ _ _ (T_D i h))|apply (W _ _ _ _ (T_fdir i h))|apply (W _ _ _ _ (T_shape i h b))|apply (W _ _ _ _ (T_n i h b))|apply (W _ _ _ _ (T_nmax i h b))|].
  eapply T_weak; [apply T_fshape|auto|]. intros g a v _ (Q & _). exact Q.
Qed.

(** ** Sessions *)
Definition built (w : world) : Prop := forall i g a, objs w i = Some (g, a) -> a_fdir a <> None.
Definition grids (w : world) (i : nat) : option grid := option_map fst (objs w i).
Definition same_grids (w : world) (gs : nat -> option grid) : Prop := forall i, gs i = grids w i.
Lemma grids_ext w w' gs : ext w w' -> same_grids w gs -> same_grids w' gs.
Proof. intros (H1 & H2) H i. rewrite H. unfold grids. destruct (objs w i) as [(g, a)|] eqn:E; [destruct (H1 _ _ _ E) as (a' & -> & _)|rewrite (H2 _ E)]; reflexivity. Qed.
Lemma built_ext w w' : ext w w' -> built w -> built w'.
Proof. intros (H1 & H2) B i g a E. destruct (objs w i) as [(g0, a0)|] eqn:E0; [|rewrite (H2 _ E0) in E; discriminate]. destruct (H1 _ _ _ E0) as (a' & E' & G). rewrite E in E'. injection E' as <- <-. apply G. eauto. Qed.
Lemma exec_plain p w gs : inv w -> built w -> same_grids w gs -> exists w', exec p w = (w', snd (plain gs p)) /\ inv w' /\ built w' /\ same_grids w' (fst (plain gs p)).
Proof.
  intros I B S. destruct p as [i x y z u|i h q]; cbn [exec plain]; rewrite (S i); unfold grids; destruct (objs w i) as [(g, a)|] eqn:E; cbn [option_map fst].
  - exists w. auto.
  - destruct (grid_new x y z u) as [g|e] eqn:Eg; [|exists w; auto]. set (w1 := put_obj i (g, attrs0) w).
    assert (W : wf g). { unfold grid_new in Eg. destruct (Nat.leb_spec 1 x), (Nat.leb_spec 1 y), (Nat.leb_spec 1 z); cbn in Eg; try discriminate. injection Eg as <-. unfold wf. cbn. lia. }
    assert (E1 : objs w1 i = Some (g, attrs0)) by (cbn; now rewrite Nat.eqb_refl).
    assert (I1 : inv w1).
    { split; cbn.
      - intros j g' a'. destruct (Nat.eqb_spec j i) as [->|]; [intros [= <- <-]; constructor; auto; cbn; discriminate|apply (proj1 I)].
      - intros m [[[j h] b] p] v C. destruct (proj2 I _ _ _ C) as (g' & a' & E' & An & L). exists g', a'. split; [cbn|auto]. destruct (Nat.eqb_spec j i) as [->|]; [congruence|exact E']. }
    destruct (T_shape i 0 true w1 g attrs0 I1 E1 Logic.I) as (w2 & v & a2 & C & I2 & X & E2 & _ & _ & L). unfold wbind. rewrite C. exists w2. split; [reflexivity|]. split; [exact I2|]. split.
    + intros j g' a' Ej. destruct (Nat.eqb_spec j i) as [->|Nj]; [assert (a' = a2) by congruence; subst; now apply L|].
      destruct X as (X1 & X2). destruct (objs w1 j) as [(g0, a0)|] eqn:E0; [|rewrite (X2 _ E0) in Ej; discriminate]. destruct (X1 _ _ _ E0) as (a1 & E' & G). rewrite Ej in E'. injection E' as <- <-. apply G.
      cbn in E0. apply Nat.eqb_neq in Nj. rewrite Nj in E0. eauto.
    + cbn [fst snd]. apply (grids_ext w1); auto. intros j. unfold grids. cbn. destruct (j =? i); [reflexivity|]. apply S.
  - cbn [fst snd]. destruct (T_ask i h q w g a I E (B _ _ _ E)) as (w2 & v & a2 & C & I2 & X & E2 & Q). unfold wbind. rewrite C, Q. exists w2. cbn. split; [reflexivity|]. split; [exact I2|]. split; [exact (built_ext w w2 X B)|exact (grids_ext w w2 gs X S)].
  - exists w. auto.
Qed.
Lemma run_plain : forall l w gs, inv w -> built w -> same_grids w gs -> snd (run w l) = plain_run gs l /\ inv (fst (run w l)) /\ built (fst (run w l)).
Proof.
  induction l as [|p l IH]; intros w gs I B S; [auto|]. cbn [run plain_run]. destruct (exec_plain p w gs I B S) as (w' & -> & I' & B' & S'). destruct (plain gs p) as [gs' r]. cbn [fst snd] in *.
  destruct (IH w' gs' I' B' S') as (Q1 & Q2). destruct (run w' l) as [w'' rs]. cbn [fst snd] in *. subst rs. auto.
Qed.
Lemma world0_inv : inv world0 /\ built world0 /\ same_grids world0 (fun _ => None).
Proof. split; [split; cbn; discriminate|]. split; [intros i g a; cbn; discriminate|]. intros i. reflexivity. Qed.
