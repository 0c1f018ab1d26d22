(** Boundary cells on one face: their only neighbour and its coupling. *)
From Coq Require Import String ZArith Bool Arith List Lia Reals Lra.
From Verif Require Import Prelude PreludeFacts Num GridModel GridSpec GridProofs GridNeighbors GridThm GeoModel GeoSpec GeoProofs
  PropModel PropSpec PropProofs TransProofs PropThm BlackOilModel FdmModel.
Import ListNotations.
Close Scope R_scope.
Open Scope nat_scope.

Lemma dset_new {A} k (v : A) d : dget k d = None -> dset k v d = (d ++ [(k, v)])%list.
Proof.
  induction d as [|[k' v'] d IH]; cbn [dget dset]; [reflexivity|].
  destruct (Z.eqb_spec k k'); [discriminate|]. intros H. rewrite IH by auto. reflexivity.
Qed.
Lemma dget_none {A} k (d : list (Z * A)) : ~ In k (map fst d) <-> dget k d = None.
Proof.
  induction d as [|[k' v'] d IH]; cbn [dget map fst In]; [tauto|]. destruct (Z.eqb_spec k k') as [->|N].
  - split; [tauto|discriminate].
  - rewrite <- IH. split; intros H J; apply H; auto. destruct J as [J|J]; [congruence|auto].
Qed.
Lemma dsets_nodup {A} (ps d : list (Z * A)) : NoDup (map fst (d ++ ps)%list) -> dsets ps d = (d ++ ps)%list.
Proof.
  revert d. induction ps as [|[k v] ps IH]; intros d N; cbn [dsets fold_left]; [now rewrite app_nil_r|].
  change (dsets ps (dset k v d) = (d ++ (k, v) :: ps)%list). rewrite dset_new.
  - rewrite IH; rewrite <- app_assoc; auto.
  - apply dget_none. rewrite map_app in N. cbn [map fst] in N. apply NoDup_remove_2 in N. intros H. apply N, in_or_app. auto.
Qed.

Section face.
Context (o : gobj R) (x y z : nat) (u : bool) (dx dy dz : dinput R) (K : rock o x y z u dx dy dz).
Notation g := (gr (geom o)).
Hypothesis HF : has_flow g.

Lemma cell_G_pairs c b : in_grid g c -> (b = true -> interior g c) ->
  exists iso, is_isotropic o = Ok iso /\ get_cell_G o (natural_id g c) b = Ok (Gpairs o dx dy dz iso b c).
Proof.
  intros I Ib. destruct (cell_G_canon _ _ _ _ _ _ _ _ K c b HF I Ib) as (iso & Ei & E). exists iso. split; auto.
  rewrite E. f_equal. apply dsets_nodup. cbn [app]. now apply (Gpairs_nodup _ _ _ _ _ _ _ _ K).
Qed.
Lemma Gf_pos iso a c c' : flows g a -> in_grid g c -> in_grid g c' -> (0 < Gf o dx dy dz iso a c c')%R.
Proof. intros. now apply (factor_pos _ _ _ _ _ _ _ _ iso a c c' K). Qed.

(** The neighbour of a face cell. *)
Lemma face_cell c : boundary_cell g c -> on_one_face g c ->
  exists a c' iso, flows g a /\ interior g c' /\ face_adjacent a c c' /\ is_isotropic o = Ok iso /\
  get_cell_neighbors g (natural_id g c) false = Ok (dirs_of (fun b => if axis_eqb b a then [natural_id g c'] else [])) /\
  get_cell_G o (natural_id g c) false = Ok [(natural_id g c', Gf o dx dy dz iso a c c')] /\
  (0 < Gf o dx dy dz iso a c c')%R.
Proof.
  intros B OF. pose proof (rk_wf _ _ _ _ _ _ _ _ K) as W. destruct B as (I & NI).
  destruct (L_C11_boundary_cell_one_neighbor g c W HF (conj I NI)) as (d & Ed & _ & H1). apply H1 in OF. clear H1.
  destruct (cell_G_pairs c false I) as (iso & Ei & EG); [discriminate|].
  assert (Ed' := neighbors_id_canon g c false W HF I). cbv iota in Ed'. rewrite Ed in Ed'. inversion Ed'; subst d. clear Ed'.
  assert (NB : forall a, map (natural_id g) (filter (interiorb g) (adj g a c)) = map (natural_id g) (nbrs o false a c)) by reflexivity.
  unfold total, dirs_of in OF. cbn [d_x d_y d_z] in OF. rewrite !NB in OF. rewrite !app_length, !map_length in OF.
  assert (NF : forall a, ~ flows g a -> nbrs o false a c = []).
  { intros a Na. unfold nbrs, adj. destruct (flowb g a) eqn:Fb; [|reflexivity]. apply flowb_true in Fb. contradiction. }
  assert (Sp : exists a, a <> ADash /\ length (nbrs o false a c) = 1 /\ forall b, b <> ADash -> b <> a -> nbrs o false b c = []).
  { destruct (length (nbrs o false AX c)) as [|n1] eqn:L1; [|exists AX].
    - destruct (length (nbrs o false AY c)) as [|n2] eqn:L2; [exists AZ|exists AY].
      + split; [discriminate|]. split; [lia|]. intros [] ? ?; try congruence; now apply length_zero_iff_nil.
      + split; [discriminate|]. split; [lia|]. intros [] ? ?; try congruence; apply length_zero_iff_nil; lia.
    - split; [discriminate|]. split; [lia|]. intros [] ? ?; try congruence; apply length_zero_iff_nil; lia. }
  destruct Sp as (a & Na & L1 & Oth).
  destruct (nbrs o false a c) as [|c' [|? ?]] eqn:En; try discriminate.
  assert (Fa : flows g a).
  { apply flowb_true. destruct (flowb g a) eqn:Fb; auto. exfalso. rewrite NF in En; [discriminate|]. intros Fa. apply flowb_true in Fa. congruence. }
  assert (Sc : In c' (nbrs o false a c)) by (rewrite En; now left).
  apply (nbrs_spec o) in Sc as (Adj & Int); auto; [|discriminate]. specialize (Int eq_refl).
  exists a, c', iso. do 4 (split; [assumption|]). split; [|split].
  - rewrite Ed. unfold dirs_of. rewrite !NB. f_equal.
    assert (Q : forall b, b <> ADash -> map (natural_id g) (nbrs o false b c) = if axis_eqb b a then [natural_id g c'] else []).
    { intros b Nb. destruct (axis_eqb b a) eqn:Eb.
      - assert (b = a) by (destruct a, b; cbn in Eb; congruence). subst. now rewrite En.
      - rewrite Oth; auto. intros ->. destruct a; discriminate. }
    rewrite !Q by discriminate. reflexivity.
  - rewrite EG. f_equal. unfold Gpairs.
    assert (Q : forall l, NoDup l -> (forall b, In b l -> flows g b) -> (In a l -> flat_map (fun b => map (fun c'0 => (natural_id g c'0, Gf o dx dy dz iso b c c'0)) (nbrs o false b c)) l = [(natural_id g c', Gf o dx dy dz iso a c c')])
       /\ (~ In a l -> flat_map (fun b => map (fun c'0 => (natural_id g c'0, Gf o dx dy dz iso b c c'0)) (nbrs o false b c)) l = [])).
    { induction l as [|b l IH]; intros ND Fl; [split; [intros []|reflexivity]|]. inversion ND; subst.
      destruct (IH H2) as (IH1 & IH2); [intros; apply Fl; now right|]. cbn [flat_map].
      assert (Fb : flows g b) by (apply Fl; now left). pose proof (flow_dash o b Fb) as Nb.
      split; intros Hin.
      - destruct Hin as [->|Hin].
        + rewrite En, IH2 by auto. reflexivity.
        + rewrite (Oth b), IH1; auto. intros ->. contradiction.
      - rewrite (Oth b), IH2; auto; [intros ?; apply Hin; now right|]. intros ->. apply Hin. now left. }
    apply Q.
    + rewrite get_fdir_spec by auto. unfold flow_axes.
      destruct (1 <? nx g), (1 <? ny g), (1 <? nz g); cbn; repeat constructor; cbn; intuition congruence.
    + intros b Hb. now apply (fdir_flows _ _ _ _ _ _ _ _ K).
    + now apply (flows_fdir _ _ _ _ _ _ _ _ K).
  - apply Gf_pos; auto. now apply interior_in_grid.
Qed.
End face.
