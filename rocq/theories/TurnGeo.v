(** Cells turned round. *)
From Coq Require Import String ZArith Bool Arith List Lia Reals Lra Permutation.
From Verif Require Import Prelude PreludeFacts Num GridModel GridSpec GridProofs GridNeighbors GeoModel GeoSpec GeoProofs
  PropModel PropSpec PropProofs TransProofs BlackOilModel ModelSpec ModelFacts NbrFacts MatrixProofs TurnSpec.
Import ListNotations.
Close Scope R_scope.
Open Scope nat_scope.

Section geo.
Context (g : grid) (r : bool * bool * bool).
Notation nid := (natural_id g).
Notation tn := (turn g r).
Lemma mirror_invol n b i : mirror n b (mirror n b i) = i.
Proof. unfold mirror. destruct b; lia. Qed.
Lemma turn_invol c : tn (tn c) = c.
Proof. destruct c as [[i j] k], r as [[rx ry] rz]. cbn [turn]. now rewrite !mirror_invol. Qed.
Lemma turn_axis a c : a <> ADash -> exists b, at_axis a (tn c) = mirror (size g a) b (at_axis a c).
Proof. intros N. destruct c as [[i j] k], r as [[rx ry] rz]. destruct a; cbn; try congruence; eauto. Qed.
Lemma turn_in_grid c : in_grid g c -> in_grid g (tn c).
Proof. intros H a N. specialize (H a N). destruct (turn_axis a c N) as (b & ->). unfold mirror. destruct b; lia. Qed.
Lemma turn_interior c : wf g -> interior g c -> interior g (tn c).
Proof.
  intros W H a N. specialize (H a N). destruct (turn_axis a c N) as (b & ->). unfold mirror. destruct b; auto. unfold flows in *. unfold padded.
  assert (1 <= size g a) by (destruct W as (? & ? & ?); destruct a; cbn; congruence || lia).
  destruct H as [(H1 & H2)|(H1 & H2)]; [left|right]; (split; [exact H1|]); destruct (Nat.ltb_spec 1 (size g a)); lia.
Qed.
Lemma turn_boundary c : wf g -> boundary_cell g c -> boundary_cell g (tn c).
Proof. intros W (H1 & H2). split; [now apply turn_in_grid|]. intros H. apply H2. rewrite <- (turn_invol c). now apply turn_interior. Qed.
Lemma turn_adjacent a c c' : face_adjacent a c c' -> face_adjacent a (tn c) (tn c').
Proof.
  assert (Q : forall c c', step a c c' -> step a (tn c) (tn c') \/ step a (tn c') (tn c)).
  { clear c c'. intros [[i j] k] [[i' j'] k'] (N & H1 & H2). unfold step.
    assert (H3 : forall b, b <> a -> at_axis b (tn (i', j', k')) = at_axis b (tn (i, j, k))).
    { intros b Hb. specialize (H2 b Hb). destruct r as [[rx ry] rz]. destruct b; cbn in *; congruence. }
    destruct r as [[rx ry] rz]. destruct a; try congruence; cbn [turn at_axis] in H1 |- *; unfold mirror; [destruct rx|destruct ry|destruct rz];
    ((left; split; [exact N|]; split; [lia|exact H3]) || (right; split; [exact N|]; split; [lia|intros b Hb; symmetry; exact (H3 b Hb)])). }
  intros [H|H]; apply Q in H; unfold face_adjacent; tauto.
Qed.
Lemma turn_linked c c' : linked g c c' -> linked g (tn c) (tn c').
Proof. intros (a & F & A). exists a. split; auto. now apply turn_adjacent. Qed.
Lemma turn_adjs c : Permutation (adjs g (tn c)) (map tn (adjs g c)).
Proof.
  apply NoDup_Permutation; [apply nodup_adjs| |].
  - apply NoDup_map_in; [|apply nodup_adjs]. intros a b _ _ E. rewrite <- (turn_invol a), <- (turn_invol b). now rewrite E.
  - intros c'. rewrite in_adjs, in_map_iff. split.
    + intros L. exists (tn c'). split; [apply turn_invol|]. apply in_adjs. apply turn_linked in L. now rewrite turn_invol in L.
    + intros (d & <- & I). apply in_adjs in I. now apply turn_linked.
Qed.
Lemma turn_interiorb c : wf g -> interiorb g (tn c) = interiorb g c.
Proof.
  intros W. destruct (interiorb g c) eqn:E, (interiorb g (tn c)) eqn:E'; auto.
  - apply interiorb_true in E. apply turn_interior in E; auto. apply interiorb_true in E. congruence.
  - apply interiorb_true in E'. apply turn_interior in E'; auto. rewrite turn_invol in E'. apply interiorb_true in E'. congruence.
Qed.
Lemma turn_outer a c : outer g a c -> outer g a (tn c).
Proof.
  intros (F & H). split; auto. unfold flows in F. assert (N : a <> ADash) by (intros ->; cbn in F; lia).
  destruct (turn_axis a c N) as (b & ->). unfold mirror, padded. destruct b; auto. destruct (Nat.ltb_spec 1 (size g a)); lia.
Qed.
Lemma turn_face c : on_one_face g c -> on_one_face g (tn c).
Proof.
  intros (a & H1 & H2). exists a. split; [now apply turn_outer|]. intros b H. apply H2. apply turn_outer in H. now rewrite turn_invol in H.
Qed.
(** Ids turned round. *)
Definition decode (id : Z) : coord := (id mod padded (nx g), id / padded (nx g) mod padded (ny g), id / padded (nx g) / padded (ny g))%Z.
Lemma decode_nid c : in_grid g c -> decode (nid c) = c.
Proof.
  intros H. pose proof (H AX ltac:(discriminate)) as Hx. pose proof (H AY ltac:(discriminate)) as Hy. pose proof (H AZ ltac:(discriminate)) as Hz.
  destruct c as [[i j] k]. cbn [at_axis size] in *. unfold decode, natural_id.
  set (X := padded (nx g)) in *. set (Y := padded (ny g)) in *.
  assert (E1 : ((i + X * (j + Y * k)) mod X = i)%Z) by (rewrite Z.mul_comm, Z_mod_plus_full; apply Z.mod_small; lia).
  assert (E2 : ((i + X * (j + Y * k)) / X = j + Y * k)%Z) by (rewrite Z.mul_comm, Z_div_plus_full by lia; rewrite Z.div_small by lia; lia).
  rewrite E1, E2. assert (E3 : ((j + Y * k) mod Y = j)%Z) by (rewrite Z.mul_comm, Z_mod_plus_full; apply Z.mod_small; lia).
  assert (E4 : ((j + Y * k) / Y = k)%Z) by (rewrite Z.mul_comm, Z_div_plus_full by lia; rewrite Z.div_small by lia; lia).
  now rewrite E3, E4.
Qed.
Definition tid (id : Z) : Z := nid (tn (decode id)).
Lemma tid_nid c : in_grid g c -> tid (nid c) = nid (tn c).
Proof. intros H. unfold tid. now rewrite decode_nid. Qed.
Lemma tid_invol c : in_grid g c -> tid (tid (nid c)) = nid c.
Proof. intros H. rewrite tid_nid, tid_nid, turn_invol; auto. now apply turn_in_grid. Qed.
End geo.

Lemma sumR_perm (l l' : list R) : Permutation l l' -> sumR l = sumR l'.
Proof. induction 1; cbn [sumR]; try lra. Qed.
Lemma filter_perm {A} (P : A -> bool) l l' : Permutation l l' -> Permutation (filter P l) (filter P l').
Proof.
  induction 1; cbn [filter].
  - constructor.
  - destruct (P x); auto.
  - destruct (P x), (P y); try constructor; apply Permutation_refl.
  - now transitivity (filter P l').
Qed.
Lemma filter_map_turn {A B} (P : B -> bool) (h : A -> B) l : filter P (map h l) = map h (filter (fun a => P (h a)) l).
Proof. induction l as [|a l IH]; cbn [map filter]; auto. destruct (P (h a)); cbn [map]; now rewrite IH. Qed.
(** Sums over the cells next to a cell turned round. *)
Lemma sum_turned g r (P : coord -> bool) (F : Z -> R) c : wf g -> (forall d, P (turn g r d) = P d) ->
  sumR (map F (map (natural_id g) (filter P (adjs g (turn g r c))))) = sumR (map F (map (fun d => natural_id g (turn g r d)) (filter P (adjs g c)))).
Proof.
  intros W H. apply sumR_perm, Permutation_map. rewrite <- (map_map (turn g r) (natural_id g)). apply Permutation_map.
  rewrite (filter_perm P _ _ (turn_adjs g r c)), filter_map_turn. rewrite (filter_ext _ P H). reflexivity.
Qed.
