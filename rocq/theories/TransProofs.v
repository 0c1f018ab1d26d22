(** Proofs about geometry factors: per-cell dictionaries and the matrix. *)
From Coq Require Import String ZArith Bool Arith List Lia Reals Lra.
From Verif Require Import Prelude PreludeFacts Num GridModel GridSpec GridProofs GridNeighbors
  GeoModel GeoSpec TabFacts GeoProofs PropModel PropSpec PropProofs.
Import ListNotations.
Close Scope R_scope.
Open Scope nat_scope.

(** ** Dictionaries *)
Lemma dget_dset {A} k k' (v : A) d : dget k (dset k' v d) = if Z.eqb k k' then Some v else dget k d.
Proof.
  induction d as [|[k2 v2] d IH]; simpl; [reflexivity|].
  destruct (Z.eqb_spec k' k2).
  - subst. simpl. destruct (Z.eqb_spec k k2); auto.
  - simpl. rewrite IH. destruct (Z.eqb_spec k k2), (Z.eqb_spec k k'); auto; congruence.
Qed.
Definition dsets {A} (ps : list (Z * A)) (d : list (Z * A)) : list (Z * A) :=
  fold_left (fun d p => dset (fst p) (snd p) d) ps d.
Lemma dget_dsets_other {A} k (ps : list (Z * A)) d : ~ In k (map fst ps) -> dget k (dsets ps d) = dget k d.
Proof.
  revert d. induction ps as [|[k' v] ps IH]; intros d H; simpl; auto.
  unfold dsets in *. rewrite IH by (simpl in H; tauto). rewrite dget_dset.
  destruct (Z.eqb_spec k k'); auto. simpl in H. intuition congruence.
Qed.
Lemma dget_dsets_in {A} k v (ps : list (Z * A)) d : NoDup (map fst ps) -> In (k, v) ps ->
  dget k (dsets ps d) = Some v.
Proof.
  revert d. induction ps as [|[k' v'] ps IH]; intros d N H; simpl in *; [tauto|].
  inversion N; subst. destruct H as [E|H].
  - inversion E; subst. change (dget k (dsets ps (dset k v d)) = Some v).
    rewrite dget_dsets_other by auto. rewrite dget_dset, Z.eqb_refl. reflexivity.
  - apply IH; auto.
Qed.

(** ** get_cell_G *)
Section cell.
Context (o : gobj R) (x y z : nat) (u : bool) (dx dy dz : dinput R) (K : rock o x y z u dx dy dz).
Let g := gr (geom o).
Let cvc (a : axis) (c : coord) := cv o dx dy dz a (pos AX c) (pos AY c) (pos AZ c).

Lemma cell_kAd_canon a c : flows g a -> in_grid g c ->
  cell_kAd o a (ById (natural_id g c)) = Ok (cvc a c).
Proof.
  intros Fa I. pose proof (rk_built _ _ _ _ _ _ _ _ K) as B. pose proof (rk_wf _ _ _ _ _ _ _ _ K) as W.
  pose proof (flow_dash o a Fa) as Na.
  unfold cell_kAd, get_cell_d, get_cell_A, get_cell_k.
  rewrite (cd_canon _ _ _ _ _ _ _ _ B), (cA_canon _ _ _ _ _ _ _ _ B) by auto. unfold ggrid in *. fold g.
  rewrite !(at_id _ _ _ _ _ _ _ _ B) by auto. cbn [rbind].
  destruct (klist_ok _ _ _ _ _ _ _ _ K a Fa) as (-> & L). cbn [rbind]. fold g in L.
  rewrite (list_per_cell g (klist o a) 0%R W L). rewrite (at_id _ _ _ _ _ _ _ _ B) by auto. cbn [rbind].
  unfold cvc, cv, kval, Aval, dval. destruct a; reflexivity.
Qed.

Definition Gf (iso : bool) (a : axis) (c c' : coord) : R :=
  if iso then G_arith (tfac o) (cvc a c) (cvc a c') else G_harm (tfac o) (cvc a c) (cvc a c').
Definition nbrs (b : bool) (a : axis) (c : coord) : list coord :=
  if b then adj g a c else filter (interiorb g) (adj g a c).
Definition Gpairs (iso b : bool) (c : coord) : list (Z * R) :=
  flat_map (fun a => map (fun c' => (natural_id g c', Gf iso a c c')) (nbrs b a c)) (get_fdir g).

Lemma flowb_flows a : flowb g a = true <-> flows g a.
Proof. apply flowb_true. Qed.
Lemma fdir_flows a : has_flow g -> In a (get_fdir g) -> flows g a.
Proof.
  intros H I. pose proof (rk_wf _ _ _ _ _ _ _ _ K) as W. fold g in W.
  assert (M : amem a (get_fdir g) = true).
  { unfold amem. apply existsb_exists. exists a. split; auto. destruct a; reflexivity. }
  rewrite get_fdir_spec in I by auto. unfold has_flow, flows in H. cbn [size] in H.
  destruct (axis_eqb a ADash) eqn:Ed.
  - exfalso. destruct a; try discriminate. unfold flow_axes in I.
    destruct (Nat.ltb_spec 1 (nx g)), (Nat.ltb_spec 1 (ny g)), (Nat.ltb_spec 1 (nz g));
      cbn in I; try lia; intuition congruence.
  - rewrite amem_fdir in M by (auto; destruct a; simpl in Ed; congruence). apply Nat.ltb_lt in M. exact M.
Qed.
Lemma flows_fdir a : flows g a -> In a (get_fdir g).
Proof.
  intros H. pose proof (rk_wf _ _ _ _ _ _ _ _ K) as W. fold g in W.
  pose proof (flow_dash o a H) as Na. unfold flows in H.
  assert (M : amem a (get_fdir g) = true) by (rewrite amem_fdir by auto; now apply Nat.ltb_lt).
  unfold amem in M. apply existsb_exists in M as (b & I & E). destruct a, b; simpl in E; try discriminate; auto.
Qed.
Lemma nbrs_spec b a c c' : wf g -> in_grid g c -> (b = true -> interior g c) -> flows g a ->
  (In c' (nbrs b a c) <-> face_adjacent a c c' /\ (b = false -> interior g c')).
Proof.
  intros W G I Fa. pose proof (flow_dash o a Fa). rewrite face_shift. unfold nbrs, adj.
  apply flowb_flows in Fa. rewrite Fa. destruct b.
  - cbn [In]. split; [intros [<-|[<-|[]]]; split; auto; discriminate|]. intros ((_ & [->| ->]) & _); auto.
  - rewrite filter_In, interiorb_true. cbn [In]. split.
    + intros ([<-|[<-|[]]] & ?); split; auto.
    + intros ((_ & [->| ->]) & ?); auto.
Qed.
Lemma nbrs_in_grid b a c c' : in_grid g c -> (b = true -> interior g c) -> flows g a ->
  In c' (nbrs b a c) -> in_grid g c'.
Proof.
  intros G I Fa H. pose proof (rk_wf _ _ _ _ _ _ _ _ K) as W. fold g in W.
  pose proof H as H'. apply nbrs_spec in H' as (A & N); auto. destruct b.
  - apply face_shift in A as (_ & [->| ->]); apply in_grid_shift_interior; auto.
  - apply interior_in_grid; auto.
Qed.

Lemma fold_pairs {A} (f : Z -> res A) (h : Z -> A) (l : list Z) (D : list (Z * A)) :
  (forall i, In i l -> f i = Ok (h i)) ->
  fold_left (fun acc i => let* D := acc in let* v := f i in Ok (dset i v D)) l (Ok D)
  = Ok (dsets (map (fun i => (i, h i)) l) D).
Proof.
  revert D. induction l as [|i l IH]; intros D H; auto.
  cbn [fold_left rbind map]. rewrite (H i) by now left. cbn [rbind]. rewrite IH by (intros; apply H; now right).
  reflexivity.
Qed.
Lemma dsets_app {A} (p q : list (Z * A)) D : dsets (p ++ q) D = dsets q (dsets p D).
Proof. unfold dsets. now rewrite fold_left_app. Qed.

Lemma cell_G_canon c b : has_flow g -> in_grid g c -> (b = true -> interior g c) ->
  exists iso, is_isotropic o = Ok iso /\
  get_cell_G o (natural_id g c) b = Ok (dsets (Gpairs iso b c) []).
Proof.
  intros HF I Ib. pose proof (rk_wf _ _ _ _ _ _ _ _ K) as W. fold g in W.
  destruct (isotropic_ok _ _ _ _ _ _ _ _ K) as (iso & Ei & _). exists iso. split; auto.
  unfold get_cell_G, ggrid. fold g.
  assert (En : get_cell_neighbors g (natural_id g c) b = Ok (dirs_of (fun a => map (natural_id g) (nbrs b a c)))).
  { rewrite neighbors_id_canon by auto. unfold nbrs. destruct b; auto.
    specialize (Ib eq_refl). apply interiorb_true in Ib. now rewrite Ib. }
  rewrite En, Ei. cbn [rbind]. unfold Gpairs.
  assert (Q : forall l D, (forall a, In a l -> flows g a) ->
    fold_left (fun acc a =>
    let* D := acc in
    let* c0 := cell_kAd o a (ById (natural_id g c)) in
    fold_left (fun acc id_n =>
      let* D := acc in
      let* c_n := cell_kAd o a (ById id_n) in
      Ok (dset id_n (if iso then G_arith (tfac o) c0 c_n else G_harm (tfac o) c0 c_n) D))
      (dirs_get a (dirs_of (fun a => map (natural_id g) (nbrs b a c)))) (Ok D)) l (Ok D)
    = Ok (dsets (flat_map (fun a => map (fun c' => (natural_id g c', Gf iso a c c')) (nbrs b a c)) l) D)).
  { induction l as [|a l IH]; intros D Hl; auto.
    cbn [fold_left rbind flat_map]. assert (Fa : flows g a) by (apply Hl; now left).
    rewrite cell_kAd_canon by auto. cbn [rbind].
    assert (Ed : dirs_get a (dirs_of (fun a => map (natural_id g) (nbrs b a c))) = map (natural_id g) (nbrs b a c)).
    { pose proof (flow_dash o a Fa). destruct a; try congruence; reflexivity. }
    rewrite Ed.
    assert (P : forall l' D, (forall c', In c' l' -> In c' (nbrs b a c)) ->
      fold_left (fun acc id_n =>
      let* D := acc in
      let* c_n := cell_kAd o a (ById id_n) in
      Ok (dset id_n (if iso then G_arith (tfac o) (cvc a c) c_n else G_harm (tfac o) (cvc a c) c_n) D))
       (map (natural_id g) l') (Ok D) = Ok (dsets (map (fun c' => (natural_id g c', Gf iso a c c')) l') D)).
    { clear D. induction l' as [|c' l' IH']; intros D Hl'; auto. cbn [map fold_left rbind].
      rewrite cell_kAd_canon; auto. 2:{ eapply nbrs_in_grid; eauto. apply Hl'; now left. }
      cbn [rbind]. rewrite IH' by (intros; apply Hl'; now right). reflexivity. }
    rewrite P by auto. rewrite IH by (intros; apply Hl; now right). now rewrite dsets_app. }
  apply Q. intros a Ha. now apply fdir_flows.
Qed.

Lemma shift_inj a s a' s' c : a <> ADash -> a' <> ADash -> s <> 0%Z -> s' <> 0%Z ->
  shift a s c = shift a' s' c -> a = a' /\ s = s'.
Proof. destruct c as [[i j] k], a, a'; simpl; intros; try congruence; inversion H3; split; auto; lia. Qed.

Lemma Gpairs_nodup iso b c : has_flow g -> in_grid g c -> (b = true -> interior g c) ->
  NoDup (map fst (Gpairs iso b c)).
Proof.
  intros HF I Ib. pose proof (rk_wf _ _ _ _ _ _ _ _ K) as W. fold g in W.
  assert (E : map fst (Gpairs iso b c) = map (natural_id g) (flat_map (fun a => nbrs b a c) (get_fdir g))).
  { unfold Gpairs. generalize (get_fdir g). induction l as [|a l IH]; auto.
    cbn [flat_map]. rewrite !map_app, IH, map_map. reflexivity. }
  rewrite E. clear E.
  assert (ND : NoDup (flat_map (fun a => nbrs b a c) (get_fdir g))).
  { assert (NF : NoDup (get_fdir g)).
    { rewrite get_fdir_spec by auto. unfold flow_axes.
      destruct (1 <? nx g), (1 <? ny g), (1 <? nz g); cbn; repeat constructor; cbn; intuition congruence. }
    assert (All : forall a, In a (get_fdir g) -> flows g a) by (intros; now apply fdir_flows).
    induction (get_fdir g) as [|a l IH]; [constructor|]. cbn [flat_map]. inversion NF; subst.
    assert (Fa : flows g a) by (apply All; now left).
    assert (Nb : forall a c', flows g a -> In c' (nbrs b a c) -> exists s, (s = -1 \/ s = 1)%Z /\ c' = shift a s c).
    { intros a' c' Fa' H. apply nbrs_spec in H as (A & _); auto. apply face_shift in A as (_ & [->| ->]); eauto. }
    apply NoDup_app; auto.
    - pose proof Fa as Fb. apply flowb_flows in Fb. unfold nbrs, adj. rewrite Fb.
      assert (Na := flow_dash o a Fa).
      assert (N2 : NoDup [shift a (-1) c; shift a 1 c]).
      { constructor; [|repeat constructor; auto]. intros [E|[]].
        apply shift_inj in E as (_ & E); auto; lia. }
      destruct b; auto. now apply NoDup_filter.
    - apply IH; auto. intros; apply All; now right.
    - intros c' H1' H2'. apply in_flat_map in H2' as (a' & Ha' & H2').
      destruct (Nb a c' Fa H1') as (s & Hs & ->).
      assert (Fa' : flows g a') by (apply All; now right).
      destruct (Nb a' _ Fa' H2') as (s' & Hs' & E).
      apply shift_inj in E as (-> & _); auto; try (apply (flow_dash o); auto); lia. }
  assert (IG : forall c', In c' (flat_map (fun a => nbrs b a c) (get_fdir g)) -> in_grid g c').
  { intros c' H. apply in_flat_map in H as (a & Ha & H). eapply nbrs_in_grid; eauto. now apply fdir_flows. }
  revert ND IG. generalize (flat_map (fun a => nbrs b a c) (get_fdir g)) as l.
  induction l as [|c' l IH]; intros ND IG; simpl; constructor.
  - intros H. apply in_map_iff in H as (c'' & E & H). apply natural_id_inj in E; auto.
    + subst. inversion ND; auto.
    + apply IG; now right.
    + apply IG; now left.
  - apply IH. now inversion ND. intros; apply IG; now right.
Qed.

(** The dictionary reported for a cell. *)
Lemma cell_G_spec c b : has_flow g -> in_grid g c -> (b = true -> interior g c) ->
  exists iso L, is_isotropic o = Ok iso /\ get_cell_G o (natural_id g c) b = Ok L /\
  (forall a c', flows g a -> face_adjacent a c c' -> (b = false -> interior g c') ->
     dget (natural_id g c') L = Some (Gf iso a c c')) /\
  (forall c', in_grid g c' ->
     ~ (exists a, flows g a /\ face_adjacent a c c' /\ (b = false -> interior g c')) ->
     dget (natural_id g c') L = None).
Proof.
  intros HF I Ib. pose proof (rk_wf _ _ _ _ _ _ _ _ K) as W. fold g in W.
  destruct (cell_G_canon c b HF I Ib) as (iso & Ei & E). exists iso. eexists. split; auto. split; [exact E|]. split.
  - intros a c' Fa A Hb. apply dget_dsets_in. now apply Gpairs_nodup.
    unfold Gpairs. apply in_flat_map. exists a. split; [now apply flows_fdir|].
    apply in_map_iff. exists c'. split; auto. apply nbrs_spec; auto.
  - intros c' I' N. rewrite dget_dsets_other; auto. intros H. apply N.
    apply in_map_iff in H as ((id & v) & E1 & H). cbn [fst] in E1. subst id.
    unfold Gpairs in H. apply in_flat_map in H as (a & Ha & H). apply in_map_iff in H as (c'' & E2 & H).
    inversion E2. assert (Fa : flows g a) by (now apply fdir_flows).
    assert (c'' = c').
    { apply (natural_id_inj g); [apply (nbrs_in_grid b a c); auto|auto|auto]. }
    subst. exists a. split; auto. apply nbrs_spec in H as (? & ?); auto.
Qed.
End cell.
