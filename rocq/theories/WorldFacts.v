(** Facts behind models that share nothing. *)
From Coq Require Import String ZArith Bool Arith List Lia.
From Verif Require Import Prelude PreludeFacts Num GridModel GeoModel PropModel BlackOilModel FdmModel MonadFacts HistSpec InvFacts MemoSpec MemoThm WorldModel WorldSpec.
Import ListNotations.
Open Scope nat_scope.

Lemma dset_id {A} k (v : A) d : dget k d = Some v -> dset k v d = d.
Proof. induction d as [|[k' v'] d IH]; cbn; [discriminate|]. destruct (Z.eqb k k'); [intros [= ->]; reflexivity|]. intros E. now rewrite IH. Qed.
Lemma dget_keys {A} k (d : list (Z * A)) v : dget k d = Some v -> In (k, v) d.
Proof. induction d as [|[k' v'] d IH]; cbn; [discriminate|]. destruct (Z.eqb_spec k k') as [->|]; [intros [= ->]; now left|right; auto]. Qed.
Lemma nodup_dget {A} k (v : A) d : NoDup (map fst d) -> In (k, v) d -> dget k d = Some v.
Proof.
  induction d as [|[k' v'] d IH]; cbn; [contradiction|]. intros N [[= -> ->]|I]; [now rewrite Z.eqb_refl|]. inversion N; subst. destruct (Z.eqb_spec k k') as [->|]; [|auto].
  exfalso. apply H1. apply in_map_iff. now exists (k', v).
Qed.
Lemma dset_keys {A} k (v : A) d x : In x (map fst (dset k v d)) -> x = k \/ In x (map fst d).
Proof. induction d as [|[k' v'] d IH]; cbn; [intuition|]. destruct (Z.eqb k k'); cbn; intuition. Qed.
Lemma dset_nodup {A} k (v : A) d : NoDup (map fst d) -> NoDup (map fst (dset k v d)).
Proof.
  induction d as [|[k' v'] d IH]; cbn; intros N; [constructor; auto; constructor|]. inversion N; subst. destruct (Z.eqb_spec k k'); cbn; [exact N|]. constructor; auto. intros I. destruct (dset_keys _ _ _ _ I); congruence.
Qed.
Lemma filter_nodup {A} (f : Z * A -> bool) d : NoDup (map fst d) -> NoDup (map fst (filter f d)).
Proof.
  induction d as [|a d IH]; cbn; intros N; [constructor|]. inversion N; subst. destruct (f a); cbn; auto. constructor; auto. intros I. apply H1. apply in_map_iff in I as (b & E & I). apply filter_In in I as (I & _). apply in_map_iff. now exists b.
Qed.

Section facts.
Context {F : Type} {NF : Num F} {NT : NumT F}.

(** Setting a well leaves the others. *)
Section frame.
Context (id' : Z) (v : option (well F)).
Notation K := (fun x : ws F => dget id' (b_wells (fst x)) = v).
Lemma f_upd id f : id <> id' -> inv K (upd_well id f).
Proof.
  intros N. apply i_set. intros [m o] [m' o'] H E. cbn [fst snd] in *. unfold dgetE in E. destruct (dget id (b_wells m)); cbn [rbind] in E; [|discriminate]. destruct (f m w); cbn [rbind] in E; [|discriminate].
  injection E as <- <-. destruct m. cbn in *. rewrite dget_dset_other; auto.
Qed.
Lemma f_log id : inv K (log_pressure id).
Proof. apply i_set. intros [m o] [m' o'] H E. cbn [fst snd] in *. destruct (get_pressure (m, o) id); cbn [rbind] in E; [|discriminate]. injection E as <- <-. destruct m. exact H. Qed.
Lemma f_tail id : id <> id' -> inv K (set_well_tail id).
Proof. intros N. unfold set_well_tail. isplit; auto using f_upd, f_log. Qed.
Lemma f_set_well id q pwf r s : id <> id' -> inv K (set_well (Some id) q pwf r s).
Proof.
  intros N. unfold set_well, assert_inside. isplit; auto using f_upd, f_log, f_tail.
  apply i_set. intros [m o] [m' o'] H E. cbn [fst snd] in *. destruct (din id (b_wells m)); injection E as <- <-; auto. destruct m. cbn in *. rewrite dget_dset_other; auto.
Qed.
End frame.

(** What is saved. *)
Lemma save_other d ts o : forall objs : list (Z * (option Z * well F)), ~ In o (map snd ts) -> dget o (fold_left (save d) ts objs) = dget o objs.
Proof.
  induction ts as [|[id o'] ts IH]; intros objs N; [reflexivity|]. cbn [fold_left map snd] in *. rewrite IH by (intros I; apply N; now right).
  unfold save. cbn [fst snd]. destruct (dget id d); auto. destruct (dget o' objs) as [[c v]|]; auto. apply dget_dset_other. intros ->. apply N. now left.
Qed.
Lemma save_in d ts o id : forall objs : list (Z * (option Z * well F)), NoDup (map snd ts) -> In (id, o) ts -> forall c v, dget o objs = Some (c, v) ->
  dget o (fold_left (save d) ts objs) = Some (c, match dget id d with Some w => w | None => v end).
Proof.
  induction ts as [|[id1 o1] ts IH]; intros objs N I c v E; [destruct I|]. cbn [fold_left map snd] in *. inversion N; subst. destruct I as [[= -> ->]|I].
  - rewrite save_other by auto. unfold save. cbn [fst snd]. rewrite E. destruct (dget id d); [|exact E]. apply dget_dset_same.
  - apply IH; auto. assert (o <> o1) by (intros ->; apply H1; apply in_map_iff; now exists (id, o1)). unfold save. cbn [fst snd]. destruct (dget id1 d); auto. destruct (dget o1 objs) as [[c1 v1]|]; auto. rewrite dget_dset_other by congruence; auto.
Qed.
Lemma look_id objs ts : forall d : list (Z * well F), (forall id o, In (id, o) ts -> forall v, dget id d = Some v -> exists c, dget o objs = Some (c, v)) -> fold_left (look objs) ts d = d.
Proof.
  induction ts as [|[id o] ts IH]; intros d H; [reflexivity|]. cbn [fold_left]. assert (E : look objs d (id, o) = d).
  { unfold look. cbn [fst snd]. unfold din. destruct (dget id d) as [v|] eqn:E; auto. destruct (H id o (or_introl eq_refl) v E) as (c & ->). now apply dset_id. }
  rewrite E. apply IH. intros id1 o1 I. apply H. now right.
Qed.

(** Nothing is shared. *)
Record apart (w : world F) (e : env F) : Prop := {
  ap_ties : forall k i, dget k (w_insts w) = Some i -> NoDup (map fst (i_ties i)) /\ forall id o, dget id (i_ties i) = Some o -> In o (e_put e) /\
    exists c v, dget o (w_objs w) = Some (c, v) /\ forall v', dget id (b_wells (fst (i_ws i))) = Some v' -> v' = v;
  ap_dict : forall k i d, dget k (w_insts w) = Some i -> i_dict i = Some d -> In d (e_lent e) /\ dget d (w_dicts w) = Some (b_bdict (fst (i_ws i)));
  ap_one : forall k1 i1 id1 k2 i2 id2 o, dget k1 (w_insts w) = Some i1 -> dget k2 (w_insts w) = Some i2 -> dget id1 (i_ties i1) = Some o -> dget id2 (i_ties i2) = Some o -> k1 = k2 /\ id1 = id2;
  ap_objs : forall o s, dget o (e_wells e) = Some s -> ~ In o (e_put e) -> dget o (w_objs w) = Some (sc_cell s, well_of s);
  ap_dicts : forall d bd, dget d (e_dicts e) = Some bd -> dget d (w_dicts w) = Some bd }.
Lemma apart_view w e k i : apart w e -> dget k (w_insts w) = Some i -> view w i = i_ws i.
Proof.
  intros A E. unfold view. destruct (ap_ties _ _ A k i E) as (N & T). rewrite look_id.
  - pose proof (ap_dict _ _ A k i) as D. destruct i as [[m o] ts d]. cbn [i_ws i_dict i_ties fst snd] in *.
    assert (Em : set_wells (b_wells m) m = m) by now destruct m. rewrite Em. destruct d as [d|]; [|reflexivity]. destruct (D d E eq_refl) as (_ & ->). f_equal. now destruct m.
  - intros id o I v Ev. destruct (T id o (nodup_dget _ _ _ N I)) as (_ & c & v' & Eo & Q). exists c. rewrite Eo. now rewrite (Q v Ev).
Qed.
Lemma ties_snd w e k i : apart w e -> dget k (w_insts w) = Some i -> NoDup (map snd (i_ties i)).
Proof.
  intros A E. destruct (ap_ties _ _ A k i E) as (N & _). pose proof (fun id1 id2 o => ap_one _ _ A k i id1 k i id2 o E E) as One. revert N One. generalize (i_ties i). intros ts N One.
  assert (One' : forall id1 id2 o, In (id1, o) ts -> In (id2, o) ts -> id1 = id2) by (intros id1 id2 o I1 I2; destruct (One id1 id2 o); auto; now apply nodup_dget). clear One.
  induction ts as [|[id o] ts IH]; cbn; [constructor|]. inversion N; subst. constructor.
  - intros I. apply in_map_iff in I as ([id2 o2] & Eo & I). cbn in Eo. subst o2. assert (id = id2) by (apply (One' id id2 o); [now left|now right]). subst id2. apply H1. apply in_map_iff. now exists (id, o).
  - apply IH; auto. intros id1 id2 o1 I1 I2. apply (One' id1 id2 o1); now right.
Qed.
Lemma nodup_snd_filter (f : Z * Z -> bool) ts : NoDup (map snd ts) -> NoDup (map snd (filter f ts)).
Proof.
  induction ts as [|a d IH]; cbn; intros N; [constructor|]. inversion N; subst. destruct (f a); cbn; auto. constructor; auto. intros I. apply H1. apply in_map_iff in I as (b & E & I). apply filter_In in I as (I & _). apply in_map_iff. now exists b.
Qed.
Lemma well_of_tell q (s : single_cell F) : tell q (well_of s) = well_of (mkSC (sc_cell s) (Some q) (sc_s s) (sc_r s) (sc_con s)).
Proof. reflexivity. Qed.

(** One command on the model [k], with what it saves. *)
Lemma apart_put w e k i y ts' dd objs' put' lent' :
  apart w e -> dget k (w_insts w) = Some i -> NoDup (map fst ts') ->
  (forall o, In o (e_put e) -> In o put') -> (forall d, In d (e_lent e) -> In d lent') ->
  (forall id o, dget id ts' = Some o -> (dget id (i_ties i) = Some o \/ ~ In o (e_put e)) /\ In o put' /\ exists c v, dget o objs' = Some (c, v) /\ forall v', dget id (b_wells (fst y)) = Some v' -> v' = v) ->
  (forall id1 id2 o, dget id1 ts' = Some o -> dget id2 ts' = Some o -> id1 = id2) ->
  (forall d, dd = Some d -> In d lent' /\ dget d (w_dicts w) = Some (b_bdict (fst y))) ->
  (forall k2 i2 id2 o, k2 <> k -> dget k2 (w_insts w) = Some i2 -> dget id2 (i_ties i2) = Some o -> dget o objs' = dget o (w_objs w)) ->
  (forall o, ~ In o put' -> dget o objs' = dget o (w_objs w)) ->
  apart (mkWorld objs' (w_dicts w) (dset k (mkInst y ts' dd) (w_insts w))) (mkEnv (e_wells e) put' (e_dicts e) lent').
Proof.
  intros A E N Pp Pl T Inj D Oth Un. constructor; cbn [w_insts w_objs w_dicts e_put e_lent e_wells e_dicts].
  - intros k' i' E'. rewrite dget_dset_z in E'. destruct (Z.eqb_spec k' k) as [->|Nk].
    + injection E' as <-. cbn [i_ties i_ws]. split; auto. intros id o Eo. apply (T id o Eo).
    + destruct (ap_ties _ _ A k' i' E') as (N' & T'). split; auto. intros id o Eo. destruct (T' id o Eo) as (I & c & v & Ev & Q). split; auto. exists c, v. split; auto. rewrite (Oth k' i' id o Nk E' Eo). exact Ev.
  - intros k' i' d E' Ed. rewrite dget_dset_z in E'. destruct (Z.eqb_spec k' k) as [->|Nk].
    + injection E' as <-. cbn [i_dict i_ws] in *. now apply D.
    + destruct (ap_dict _ _ A k' i' d E' Ed). auto.
  - intros k1 i1 id1 k2 i2 id2 o E1 E2 T1 T2. rewrite dget_dset_z in E1, E2. destruct (Z.eqb_spec k1 k) as [->|N1], (Z.eqb_spec k2 k) as [->|N2].
    + injection E1 as <-. injection E2 as <-. cbn [i_ties] in *. split; auto. now apply (Inj id1 id2 o).
    + injection E1 as <-. cbn [i_ties] in *. destruct (T id1 o T1) as ([Q|Q] & _).
      * now apply (ap_one _ _ A k i id1 k2 i2 id2 o).
      * destruct Q. exact (proj1 (proj2 (ap_ties _ _ A k2 i2 E2) id2 o T2)).
    + injection E2 as <-. cbn [i_ties] in *. destruct (T id2 o T2) as ([Q|Q] & _).
      * now apply (ap_one _ _ A k1 i1 id1 k i id2 o).
      * destruct Q. exact (proj1 (proj2 (ap_ties _ _ A k1 i1 E1) id1 o T1)).
    + now apply (ap_one _ _ A k1 i1 id1 k2 i2 id2 o).
  - intros o s Es Nu. rewrite (Un o Nu). apply (ap_objs _ _ A); auto.
  - apply (ap_dicts _ _ A).
Qed.
Lemma env_id (e : env F) : mkEnv (e_wells e) (e_put e) (e_dicts e) (e_lent e) = e.
Proof. now destruct e. Qed.
Lemma filter_in_id id o ts : In (id, o) (filter (fun t : Z * Z => Z.eqb (fst t) id) ts) <-> In (id, o) ts.
Proof. rewrite filter_In. cbn. rewrite Z.eqb_refl. tauto. Qed.
(** The wells after a call, for the cells it does not concern. *)
Lemma exec_frame (c : call F) x ts id o : In (id, o) ts -> ~ In (id, o) (concerns c ts) -> In (id, o) (untied c (fst x) ts) ->
  dget id (b_wells (fst (fst (exec c x)))) = dget id (b_wells (fst x)).
Proof.
  destruct c as [[i|] q pwf r s|w cell| | | | | |]; cbn [concerns untied exec]; intros I N U; try contradiction.
  - assert (Ni : i <> id) by (intros ->; apply N; now apply filter_in_id). apply (f_set_well id _ i q pwf r s Ni x eq_refl).
  - reflexivity.
  - unfold set_well_obj. unfold mbind at 1, mread at 1. destruct cell as [j|]; cbn [rbind].
    + unfold assert_inside, mbind at 1, mread at 1, passert. destruct (zmem j (b_ids (fst x))) eqn:Ez; [|reflexivity]. assert (Nj : j <> id) by (intros ->; rewrite ?Ez in U; apply filter_In in U as (_ & U); cbn in U; rewrite Z.eqb_refl in U; discriminate).
      unfold mbind at 1, mset at 1. cbn [fst snd]. match goal with |- dget id (b_wells (fst (fst (set_well_tail j ?y)))) = _ => pose proof (f_tail id (dget id (b_wells (fst y))) j Nj y eq_refl) as Q end. cbv beta in Q. rewrite Q. destruct (fst x). cbn. rewrite dget_dset_other by congruence; auto.
    + unfold attrE. destruct (sc_cell w) as [j|]; cbn [fst]; [|reflexivity].
      unfold assert_inside, mbind at 1, mread at 1, passert. destruct (zmem j (b_ids (fst x))) eqn:Ez; [|reflexivity]. assert (Nj : j <> id) by (intros ->; rewrite ?Ez in U; apply filter_In in U as (_ & U); cbn in U; rewrite Z.eqb_refl in U; discriminate).
      unfold mbind at 1, mset at 1. cbn [fst snd]. match goal with |- dget id (b_wells (fst (fst (set_well_tail j ?y)))) = _ => pose proof (f_tail id (dget id (b_wells (fst y))) j Nj y eq_refl) as Q end. cbv beta in Q. rewrite Q. destruct (fst x). cbn. rewrite dget_dset_other by congruence; auto.
Qed.
Lemma concerns_sub c ts t : In t (concerns (F := F) c ts) -> In t ts.
Proof. destruct c as [[i|] q pwf r s|w cell| | | | | |]; cbn; auto; try contradiction. intros I. now apply filter_In in I. Qed.
Lemma concerns_snd c ts : NoDup (map snd ts) -> NoDup (map snd (concerns (F := F) c ts)).
Proof. destruct c as [[i|] q pwf r s|w cell| | | | | |]; cbn; auto; try (intros; constructor). apply nodup_snd_filter. Qed.
Lemma untied_sub (c : call F) m ts t : In t (untied c m ts) -> In t ts.
Proof. destruct c as [| w cell | | | | | |]; cbn; auto. destruct (match cell with Some id => Some id | None => sc_cell w end); auto. destruct (zmem z (b_ids m)); auto. intros I. now apply filter_In in I. Qed.
Lemma untied_fst (c : call F) m ts : NoDup (map fst ts) -> NoDup (map fst (untied c m ts)).
Proof. destruct c as [| w cell | | | | | |]; cbn; auto. destruct (match cell with Some id => Some id | None => sc_cell w end); auto. destruct (zmem z (b_ids m)); auto. apply filter_nodup. Qed.

Lemma boundaries_keep bd (x : ws F) : b_bdict (fst (fst (set_boundaries bd x))) = bd /\ b_wells (fst (fst (set_boundaries bd x))) = b_wells (fst x).
Proof.
  set (P := fun y : ws F => b_bdict (fst y) = bd /\ b_wells (fst y) = b_wells (fst x)). change (P (fst (set_boundaries bd x))).
  unfold set_boundaries. unfold mbind at 1. unfold mset at 1. cbv beta iota.
  set (y := (set_bdict bd (fst x), snd x)). assert (Ey : P y) by (unfold y, P; destruct (fst x); split; reflexivity). clearbody y.
  match goal with |- P (fst (?c y)) => assert (Q : inv P c) end; [|exact (Q y Ey)].
  isplit.
  - match goal with a : (Z * (string * F))%type |- _ => destruct a as [id [c w]] end. isplit. apply (c_boundary (fun m => b_bdict m = bd /\ b_wells m = b_wells (fst x))); intros v []; exact (fun H => H).
  - apply i_set. intros [[] o] z H E. inversion E; subst. exact H.
Qed.

(** A fair command keeps everything apart and does to each model what it says. *)
Lemma play_apart w e c : apart w e -> fair e c -> apart (fst (play c w)) (learn e c) /\
  forall k i, dget k (w_insts w) = Some i -> exists i', dget k (w_insts (fst (play c w))) = Some i' /\ i_ws i' = after (i_ws i) (said k e c) /\
    (if addressed k c then [snd (play c w)] else []) = outcomes (i_ws i) (said k e c).
Proof.
  intros A H. destruct c as [o s|o q|d bd|d id v|k o cell|k d|k c]; cbn [fair learn] in *.
  - split.
    + constructor; cbn [play fst w_insts w_objs w_dicts e_put e_lent e_wells e_dicts].
      * intros k i E. destruct (ap_ties _ _ A k i E) as (N & T). split; auto. intros id o' Eo. destruct (T id o' Eo) as (I & c & v & Ev & Q). split; auto. exists c, v. split; auto. rewrite dget_dset_other; auto. intros ->. tauto.
      * apply (ap_dict _ _ A).
      * apply (ap_one _ _ A).
      * intros o' s' Es Nu. rewrite dget_dset_z in Es; rewrite dget_dset_z. destruct (Z.eqb o' o); [injection Es as <-; reflexivity|now apply (ap_objs _ _ A)].
      * apply (ap_dicts _ _ A).
    + intros k i E. exists i. auto.
  - destruct H as (Ho & Nu). destruct (dget o (e_wells e)) as [s|] eqn:Es; [|now destruct Ho]. pose proof (ap_objs _ _ A o s Es Nu) as Eo. cbn [play]. rewrite Eo. cbn [fst snd]. split.
    + constructor; cbn [w_insts w_objs w_dicts e_put e_lent e_wells e_dicts].
      * intros k i E. destruct (ap_ties _ _ A k i E) as (N & T). split; auto. intros id o' Eo'. destruct (T id o' Eo') as (I & c & v & Ev & Q). split; auto. exists c, v. split; auto. rewrite dget_dset_other; auto. intros ->. tauto.
      * apply (ap_dict _ _ A).
      * apply (ap_one _ _ A).
      * intros o' s' Es' Nu'. rewrite dget_dset_z in Es'; rewrite dget_dset_z. destruct (Z.eqb o' o); [injection Es' as <-; now rewrite well_of_tell|now apply (ap_objs _ _ A)].
      * apply (ap_dicts _ _ A).
    + intros k i E. exists i. auto.
  - split.
    + constructor; cbn [play fst w_insts w_objs w_dicts e_put e_lent e_wells e_dicts].
      * apply (ap_ties _ _ A).
      * intros k i d' E Ed. destruct (ap_dict _ _ A k i d' E Ed) as (I & Q). split; auto. rewrite dget_dset_other; auto. intros ->. tauto.
      * apply (ap_one _ _ A).
      * apply (ap_objs _ _ A).
      * intros d' bd' Eb. rewrite dget_dset_z in Eb; rewrite dget_dset_z. destruct (Z.eqb d' d); auto. now apply (ap_dicts _ _ A).
    + intros k i E. exists i. auto.
  - destruct H as (Hd & Nl). destruct (dget d (e_dicts e)) as [bd|] eqn:Eb; [|now destruct Hd]. pose proof (ap_dicts _ _ A d bd Eb) as Ed. cbn [play]. rewrite Ed. cbn [fst snd]. split.
    + constructor; cbn [w_insts w_objs w_dicts e_put e_lent e_wells e_dicts].
      * apply (ap_ties _ _ A).
      * intros k i d' E Ed'. destruct (ap_dict _ _ A k i d' E Ed') as (I & Q). split; auto. rewrite dget_dset_other; auto. intros ->. tauto.
      * apply (ap_one _ _ A).
      * apply (ap_objs _ _ A).
      * intros d' bd' Eb'. rewrite dget_dset_z in Eb'; rewrite dget_dset_z. destruct (Z.eqb d' d); auto. now apply (ap_dicts _ _ A).
    + intros k i E. exists i. auto.
  - destruct H as (Ho & Nu). destruct (dget o (e_wells e)) as [s|] eqn:Es; [|now destruct Ho]. pose proof (ap_objs _ _ A o s Es Nu) as Eo. cbn [play said addressed]. rewrite Eo, Es.
    destruct (dget k (w_insts w)) as [i|] eqn:Ei.
    2: { cbn [fst snd]. split; [|intros k' i' E'; destruct (Z.eqb_spec k k') as [->|]; [congruence|exists i'; auto]].
         constructor; cbn [e_put e_lent e_wells e_dicts]; [|apply (ap_dict _ _ A)|apply (ap_one _ _ A)|intros o' s' Q N; apply (ap_objs _ _ A); auto; intros I; apply N; now right|apply (ap_dicts _ _ A)].
         intros k' i' E'. destruct (ap_ties _ _ A k' i' E') as (N & T). split; auto. intros id o' Q. destruct (T id o' Q) as (I & Q'). split; auto. now right. }
    rewrite (apart_view _ _ _ _ A Ei).
    assert (Keep : apart w (mkEnv (e_wells e) (o :: e_put e) (e_dicts e) (e_lent e))).
    { constructor; cbn [e_put e_lent e_wells e_dicts]; [|apply (ap_dict _ _ A)|apply (ap_one _ _ A)|intros o' s' Q N; apply (ap_objs _ _ A); auto; intros I; apply N; now right|apply (ap_dicts _ _ A)].
      intros k' i' E'. destruct (ap_ties _ _ A k' i' E') as (N & T). split; auto. intros id o' Q. destruct (T id o' Q) as (I & Q'). split; auto. now right. }
    assert (Ex : exec (Set_well_obj s cell) (i_ws i) = match (match cell with Some id => Some id | None => sc_cell s end) with None => (i_ws i, Err AttributeError) | Some id => if zmem id (b_ids (fst (i_ws i))) then set_well_tail id (set_wells (dset id (well_of s) (b_wells (fst (i_ws i)))) (fst (i_ws i)), snd (i_ws i)) else (i_ws i, Err AssertionError) end).
    { cbn [exec]. unfold set_well_obj. unfold mbind at 1, mread at 1. destruct cell as [j|]; [|unfold attrE; destruct (sc_cell s) as [j|]; [|reflexivity]].
      all: unfold assert_inside, mbind at 1, mread at 1, passert; destruct (zmem j (b_ids (fst (i_ws i)))); reflexivity. }
    destruct (match cell with Some id => Some id | None => sc_cell s end) as [id|] eqn:Ec.
    2: { cbn [fst snd]. split; [exact Keep|]. intros k' i' E'. exists i'. split; auto. destruct (Z.eqb_spec k k') as [<-|]; [|auto]. rewrite Ei in E'. injection E' as <-. cbn [after fold_left outcomes]. rewrite Ex. auto. }
    destruct (zmem id (b_ids (fst (i_ws i)))) eqn:Ez.
    2: { cbn [fst snd]. split; [exact Keep|]. intros k' i' E'. exists i'. split; auto. destruct (Z.eqb_spec k k') as [<-|]; [|auto]. rewrite Ei in E'. injection E' as <-. cbn [after fold_left outcomes]. rewrite Ex. auto. }
    match type of Ex with _ = set_well_tail id ?x0 => set (x1 := x0) in * end.
    assert (Fr : forall id', id' <> id -> dget id' (b_wells (fst (fst (set_well_tail id x1)))) = dget id' (b_wells (fst (i_ws i)))).
    { intros id' N. pose proof (f_tail id' (dget id' (b_wells (fst x1))) id (not_eq_sym N) x1 eq_refl) as Q. cbv beta in Q. rewrite Q. unfold x1. cbn [fst]. destruct (fst (i_ws i)). cbn. rewrite dget_dset_other by congruence; auto. }
    assert (Bd : b_bdict (fst (fst (set_well_tail id x1))) = b_bdict (fst (i_ws i))).
    { pose proof (proj1 (exec_bdict (Set_well_obj s cell) (i_ws i) I)) as Q. rewrite Ex in Q. exact Q. }
    destruct (set_well_tail id x1) as [y r] eqn:Et. cbn [fst snd] in *. split.
    + destruct (ap_ties _ _ A k i Ei) as (N & T).
      assert (Sv : forall o', o' <> o -> dget o' (save (b_wells (fst y)) (w_objs w) (id, o)) = dget o' (w_objs w)).
      { intros o' No. apply (save_other (b_wells (fst y)) [(id, o)] o' (w_objs w)). cbn. intuition. }
      apply (apart_put w e k i y _ _ _ _ _ A Ei); cbn [e_put]; auto.
      * now apply dset_nodup.
      * intros o' I. now right.
      * intros id' o' E'. rewrite dget_dset_z in E'. destruct (Z.eqb_spec id' id) as [->|Ni].
        -- injection E' as <-. split; [now right|]. split; [now left|]. pose proof (save_in (b_wells (fst y)) [(id, o)] o id (w_objs w) ltac:(constructor; auto; constructor) (or_introl eq_refl) _ _ Eo) as Q. cbn [fold_left] in Q.
           do 2 eexists. split; [exact Q|]. intros v' Ev. now rewrite Ev.
        -- destruct (T id' o' E') as (I & c & v & Ev & Q). split; [now left|]. split; [now right|]. exists c, v. rewrite Sv by (intros ->; contradiction). split; auto. intros v'. rewrite (Fr id' Ni). apply Q.
      * intros id1 id2 o' T1 T2. rewrite dget_dset_z in T1, T2. destruct (Z.eqb_spec id1 id), (Z.eqb_spec id2 id); subst; auto.
        -- injection T1 as <-. destruct (T id2 o T2). contradiction.
        -- injection T2 as <-. destruct (T id1 o T1). contradiction.
        -- now apply (ap_one _ _ A k i id1 k i id2 o').
      * intros d Ed. rewrite Bd. now apply (ap_dict _ _ A k i).
      * intros k2 i2 id2 o' _ E2 T2. apply Sv. intros ->. destruct (ap_ties _ _ A k2 i2 E2) as (_ & T'). destruct (T' id2 o T2). contradiction.
      * intros o' N'. apply Sv. intros ->. apply N'. now left.
    + intros k' i' E'. cbn [w_insts]. rewrite dget_dset_z. destruct (Z.eqb_spec k' k) as [->|Nk].
      * rewrite Ei in E'. injection E' as <-. eexists. split; [reflexivity|]. cbn [i_ws]. rewrite Z.eqb_refl. cbn [after fold_left outcomes]. rewrite Ex. auto.
      * exists i'. split; auto. destruct (Z.eqb_spec k k'); [congruence|]. auto.
  - destruct (dget d (e_dicts e)) as [bd|] eqn:Eb; [|now destruct H]. pose proof (ap_dicts _ _ A d bd Eb) as Ed. cbn [play said addressed]. rewrite Ed, Eb. clear H.
    destruct (dget k (w_insts w)) as [i|] eqn:Ei.
    2: { cbn [fst snd]. split; [|intros k' i' E'; destruct (Z.eqb_spec k k') as [->|]; [congruence|exists i'; auto]].
         constructor; cbn [e_put e_lent e_wells e_dicts]; [apply (ap_ties _ _ A)| |apply (ap_one _ _ A)|apply (ap_objs _ _ A)|apply (ap_dicts _ _ A)].
         intros k' i' d' E' Q. destruct (ap_dict _ _ A k' i' d' E' Q). split; auto. now right. }
    rewrite (apart_view _ _ _ _ A Ei). destruct (set_boundaries bd (i_ws i)) as [y r] eqn:Et. cbn [fst snd]. split.
    + assert (Bd : b_bdict (fst y) = bd /\ b_wells (fst y) = b_wells (fst (i_ws i))).
      { assert (E : y = fst (set_boundaries bd (i_ws i))) by now rewrite Et. rewrite E. apply boundaries_keep. }
      destruct Bd as (Bd & Bw). destruct (ap_ties _ _ A k i Ei) as (N & T). replace (mkEnv (e_wells e) (e_put e) (e_dicts e) (d :: e_lent e)) with (mkEnv (e_wells e) (e_put e) (e_dicts e) (d :: e_lent e)) by reflexivity.
      apply (apart_put w e k i y _ _ _ _ _ A Ei); auto.
      * intros d' I. now right.
      * intros id o E'. destruct (T id o E') as (I & c & v & Ev & Q). split; [now left|]. split; auto. exists c, v. split; auto. now rewrite Bw.
      * intros id1 id2 o T1 T2. now apply (ap_one _ _ A k i id1 k i id2 o).
      * intros d' [= <-]. split; [now left|]. now rewrite Bd.
    + intros k' i' E'. cbn [w_insts]. rewrite dget_dset_z. destruct (Z.eqb_spec k' k) as [->|Nk].
      * rewrite Ei in E'. injection E' as <-. eexists. split; [reflexivity|]. cbn [i_ws]. rewrite Z.eqb_refl. cbn [after fold_left outcomes exec]. rewrite Et. auto.
      * exists i'. split; auto. destruct (Z.eqb_spec k k'); [congruence|]. auto.
  - clear H. cbn [play said addressed]. destruct (dget k (w_insts w)) as [i|] eqn:Ei.
    2: { cbn [fst snd]. split; [exact A|]. intros k' i' E'; destruct (Z.eqb_spec k k') as [->|]; [congruence|exists i'; auto]. }
    rewrite (apart_view _ _ _ _ A Ei). pose proof (exec_frame c (i_ws i) (i_ties i)) as Fr. pose proof (exec_bdict c (i_ws i)) as Bd. destruct (exec c (i_ws i)) as [y r] eqn:Et. cbn [fst snd] in *. split.
    + destruct (ap_ties _ _ A k i Ei) as (N & T). pose proof (ties_snd _ _ _ _ A Ei) as Ns. match goal with |- apart ?W e => replace (apart W e) with (apart W (mkEnv (e_wells e) (e_put e) (e_dicts e) (e_lent e))) by now rewrite env_id end.
      assert (Un : forall id o, dget id (untied c (fst (i_ws i)) (i_ties i)) = Some o -> dget id (i_ties i) = Some o).
      { intros id o E. apply dget_keys, untied_sub in E. now apply nodup_dget. }
      apply (apart_put w e k i y _ _ _ _ _ A Ei); auto.
      * now apply untied_fst.
      * intros id o E'. pose proof (Un id o E') as E1. destruct (T id o E1) as (I & c1 & v & Ev & Q). split; [now left|]. split; auto.
        destruct (in_dec (fun a b : Z * Z => ltac:(decide equality; apply Z.eq_dec)) (id, o) (concerns c (i_ties i))) as [J|J].
        -- do 2 eexists. split; [apply (save_in (b_wells (fst y)) _ o id (w_objs w) (concerns_snd c _ Ns) J _ _ Ev)|]. intros v' ->. reflexivity.
        -- exists c1, v. rewrite save_other. { split; auto. intros v'. rewrite (Fr id o); auto. - now apply dget_keys. - now apply dget_keys. }
           intros K. apply in_map_iff in K as ([id2 o2] & Eo & K). cbn in Eo. subst o2. assert (id2 = id); [|subst id2; contradiction]. apply concerns_sub in K. apply (nodup_dget _ _ _ N) in K. now apply (ap_one _ _ A k i id2 k i id o).
      * intros id1 id2 o T1 T2. apply (ap_one _ _ A k i id1 k i id2 o); auto.
      * intros d Ed. destruct c; try discriminate Ed; destruct (Bd I) as (Bd1 & _); rewrite Bd1; now apply (ap_dict _ _ A k i).
      * intros k2 i2 id2 o Nk E2 T2. apply save_other. intros K. apply in_map_iff in K as ([id3 o3] & Eo & K). cbn in Eo. subst o3. apply concerns_sub in K. apply (nodup_dget _ _ _ N) in K. apply Nk. now destruct (ap_one _ _ A k2 i2 id2 k i id3 o E2 Ei T2 K).
      * intros o No. apply save_other. intros K. apply in_map_iff in K as ([id3 o3] & Eo & K). cbn in Eo. subst o3. apply concerns_sub in K. apply (nodup_dget _ _ _ N) in K. apply No. now destruct (T id3 o K).
    + intros k' i' E'. cbn [w_insts]. rewrite dget_dset_z. destruct (Z.eqb_spec k' k) as [->|Nk].
      * rewrite Ei in E'. injection E' as <-. eexists. split; [reflexivity|]. cbn [i_ws]. rewrite Z.eqb_refl. cbn [after fold_left outcomes]. rewrite Et. auto.
      * exists i'. split; auto. destruct (Z.eqb_spec k k'); [congruence|]. auto.
Qed.
Lemma outcomes_app (x : ws F) l1 l2 : outcomes x (l1 ++ l2) = outcomes x l1 ++ outcomes (after x l1) l2.
Proof. revert x. induction l1 as [|c l1 IH]; intros x; [reflexivity|]. cbn [app outcomes after fold_left]. now rewrite IH. Qed.
Lemma plays_apart l : forall w e, apart w e -> careful e l -> forall k i, dget k (w_insts w) = Some i ->
  exists i', dget k (w_insts (plays w l)) = Some i' /\ view (plays w l) i' = after (i_ws i) (alone k e l) /\ answers k w l = outcomes (i_ws i) (alone k e l).
Proof.
  induction l as [|c l IH]; intros w e A C k i E.
  - exists i. split; [exact E|]. split; [exact (apart_view _ _ _ _ A E)|reflexivity].
  - destruct C as (Cf & Cl). destruct (play_apart w e c A Cf) as (A' & St). destruct (St k i E) as (i1 & E1 & W1 & O1). destruct (IH _ _ A' Cl k i1 E1) as (i2 & E2 & V2 & O2).
    exists i2. cbn [plays fold_left alone answers]. split; [exact E2|]. rewrite O1, O2, W1, outcomes_app. split; [|reflexivity]. fold (plays (fst (play c w)) l). rewrite V2, W1. unfold after. now rewrite fold_left_app.
Qed.
Lemma world_apart (ms : list (Z * ws F)) : apart (world_of ms) env0.
Proof.
  assert (Q : forall k i, dget k (w_insts (world_of ms)) = Some i -> exists x, i = mkInst x [] None).
  { intros k i. unfold world_of. cbn [w_insts]. induction ms as [|[k' x] ms IH]; cbn; [discriminate|]. destruct (Z.eqb k k'); auto. intros [= <-]. eauto. }
  constructor.
  - intros k i E. destruct (Q k i E) as (x & ->). cbn. split; [constructor|discriminate].
  - intros k i d E. destruct (Q k i E) as (x & ->). discriminate.
  - intros k1 i1 id1 k2 i2 id2 o E. destruct (Q k1 i1 E) as (x & ->). discriminate.
  - discriminate.
  - discriminate.
Qed.
Lemma world_get (ms : list (Z * ws F)) k x : dget k ms = Some x -> dget k (w_insts (world_of ms)) = Some (mkInst x [] None).
Proof. unfold world_of. cbn [w_insts]. induction ms as [|[k' y] ms IH]; cbn; [discriminate|]. destruct (Z.eqb k k'); auto. now intros [= ->]. Qed.
End facts.
