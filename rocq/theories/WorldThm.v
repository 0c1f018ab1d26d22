(** Objects shared with the caller. *)
From Coq Require Import String ZArith Bool Arith List Lia QArith.
From Verif Require Import Prelude PreludeFacts Num GridModel GeoModel PropModel BlackOilModel FdmModel MonadFacts HistSpec InvFacts Samples QSamples SolveSpec MemoSpec WorldModel WorldSpec WorldFacts.
Import ListNotations.
Close Scope Q_scope.
Open Scope nat_scope.

(** C117: whatever models there are and whatever a script does with them, in
    whatever order: if it passes every well object at most once and leaves well
    objects and boundary dictionaries alone once they are passed, every model is in
    the state, and its methods return and raise, as if it were the only one and had
    been given the values. *)
Lemma L_C117_apart :
  forall (F : Type) (NF : Num F) (NT : NumT F) (ms : list (Z * ws F)) (l : list (cmd F)) k x,
  dget k ms = Some x -> careful env0 l ->
  seen (plays (world_of ms) l) k = Some (after x (alone k env0 l)) /\ answers k (world_of ms) l = outcomes x (alone k env0 l).
Proof.
  intros F NF NT ms l k x E C. destruct (plays_apart l _ _ (world_apart ms) C k _ (world_get ms k x E)) as (i & E1 & E2 & E3). unfold seen. rewrite E1. cbn [option_map]. split; [f_equal; exact E2|exact E3].
Qed.

(** Tied cells. *)
Section tied.
Context {F : Type} {NF : Num F} {NT : NumT F}.
Lemma look_other objs ts id : forall d : list (Z * well F), ~ In id (map fst ts) -> dget id (fold_left (look objs) ts d) = dget id d.
Proof.
  induction ts as [|[id1 o1] ts IH]; intros d N; [reflexivity|]. cbn [fold_left map fst] in *. rewrite IH by (intros I; apply N; now right). unfold look. cbn [fst snd]. destruct (din id1 d); auto. destruct (dget o1 objs) as [[c v]|]; auto.
  apply dget_dset_other. intros ->. apply N. now left.
Qed.
Lemma look_tied objs ts id o c v : NoDup (map fst ts) -> In (id, o) ts -> dget o objs = Some (c, v) -> forall (d : list (Z * well F)) w, dget id (fold_left (look objs) ts d) = Some w -> w = v.
Proof.
  induction ts as [|[id1 o1] ts IH]; intros N I Eo d w E; [destruct I|]. cbn [fold_left map fst] in *. inversion N; subst. destruct I as [[= -> ->]|I]; [|now apply (IH H2 I Eo _ _ E)].
  rewrite look_other in E by auto. unfold look in E. cbn [fst snd] in E. unfold din in E. destruct (dget id d) eqn:Ed; [|congruence]. rewrite Eo, dget_dset_same in E. congruence.
Qed.
Definition tied (w : world F) (k id o : Z) : Prop := (exists i, dget k (w_insts w) = Some i /\ dget id (i_ties i) = Some o) /\ (forall i, dget k (w_insts w) = Some i -> NoDup (map fst (i_ties i))) /\ dget o (w_objs w) <> None.
Lemma tied_well w k id o v : tied w k id o -> well_at w k id = Some v -> exists c, dget o (w_objs w) = Some (c, v).
Proof.
  intros ((i & Ei & Et) & N & Ho) E. unfold well_at, seen in E. rewrite Ei in E. cbn [option_map] in E. destruct (dget o (w_objs w)) as [[c v']|] eqn:Eo; [|now destruct Ho]. exists c. do 2 f_equal. symmetry.
  apply (look_tied (w_objs w) (i_ties i) id o c v' (N i Ei) (dget_keys _ _ _ Et) Eo (b_wells (fst (i_ws i)))). rewrite <- E. unfold view. cbn [fst].
  set (L := fold_left _ _ _). destruct (i_dict i) as [d|]; [destruct (dget d (w_dicts w))|]; destruct (fst (i_ws i)); reflexivity.
Qed.
Lemma save_some (d : list (Z * well F)) ts o : forall objs, dget o objs <> None -> dget o (fold_left (save d) ts objs) <> None.
Proof.
  induction ts as [|[id1 o1] ts IH]; intros objs H; [exact H|]. cbn [fold_left]. apply IH. unfold save. cbn [fst snd]. destruct (dget id1 d); auto. destruct (dget o1 objs) as [[c v]|]; auto. rewrite dget_dset_z. destruct (Z.eqb o o1); [discriminate|exact H].
Qed.
Lemma untied_quiet (c : call F) m ts : match c with Set_well_obj _ _ => False | _ => True end -> untied c m ts = ts.
Proof. destruct c; auto. contradiction. Qed.
Lemma tied_play w c k id o : quiet c -> tied w k id o -> tied (fst (play c w)) k id o.
Proof.
  intros Q ((i & Ei & Et) & N & Ho). destruct c as [o' s|o' q|d bd|d id' v|k' o' cell|k' d|k' c]; cbn [play quiet] in *; try contradiction.
  - cbn [fst]. split; [exists i; auto|]. split; auto. cbn [w_objs]. rewrite dget_dset_z. destruct (Z.eqb o o'); [discriminate|exact Ho].
  - destruct (dget o' (w_objs w)) as [[c v]|]; cbn [fst]; (split; [exists i; auto|]); (split; auto). cbn [w_objs]. rewrite dget_dset_z. destruct (Z.eqb o o'); [discriminate|exact Ho].
  - split; [exists i; auto|]. split; auto.
  - destruct (dget d (w_dicts w)); cbn [fst]; (split; [exists i; auto|]); (split; auto).
  - destruct (dget k' (w_insts w)) as [i'|] eqn:Ei'; [|cbn [fst]; split; [exists i; auto|split; auto]]. destruct (dget d (w_dicts w)) as [bd|]; [|cbn [fst]; split; [exists i; auto|split; auto]].
    destruct (set_boundaries bd (view w i')) as [y r]. cbn [fst]. unfold tied. cbn [w_insts w_objs]. rewrite dget_dset_z. destruct (Z.eqb_spec k k') as [->|]; [|split; [exists i; auto|split; auto]].
    assert (i' = i) by congruence. subst i'. split; [eexists; split; [reflexivity|exact Et]|]. split; auto. intros i1 [= <-]. exact (N i Ei).
  - destruct (dget k' (w_insts w)) as [i'|] eqn:Ei'; [|cbn [fst]; split; [exists i; auto|split; auto]]. destruct (exec c (view w i')) as [y r]. cbn [fst]. unfold tied. cbn [w_insts w_objs]. rewrite untied_quiet by (destruct c; auto).
    rewrite dget_dset_z. destruct (Z.eqb_spec k k') as [->|]; [|split; [exists i; auto|split; auto using save_some]].
    assert (i' = i) by congruence. subst i'. split; [eexists; split; [reflexivity|exact Et]|]. split; [intros i1 [= <-]; exact (N i Ei)|now apply save_some].
Qed.
Lemma tied_plays l : forall w k id o, Forall quiet l -> tied w k id o -> tied (plays w l) k id o.
Proof. induction l as [|c l IH]; intros w k id o Q T; [exact T|]. inversion Q; subst. cbn [plays fold_left]. apply IH; auto. now apply tied_play. Qed.
Lemma tied_put w k id o k' id' : (forall k i, dget k (w_insts w) = Some i -> NoDup (map fst (i_ties i))) -> (k, id) <> (k', id') -> tied w k id o -> tied (fst (play (Put_well k' o (Some id')) w)) k id o.
Proof.
  intros Nd Ne ((i & Ei & Et) & N & Ho). cbn [play]. destruct (dget k' (w_insts w)) as [i'|] eqn:Ei'; [|split; [exists i; auto|split; auto]]. destruct (dget o (w_objs w)) as [[c v]|] eqn:Eo; [|now destruct Ho].
  destruct (zmem id' (b_ids (fst (view w i')))); [|cbn [fst]; split; [exists i; auto|split; auto; rewrite Eo; discriminate]]. destruct (set_well_tail id' _) as [y r]. cbn [fst]. unfold tied. cbn [w_insts w_objs].
  assert (S : dget o (save (b_wells (fst y)) (w_objs w) (id', o)) <> None) by (apply (save_some (b_wells (fst y)) [(id', o)] o (w_objs w)); rewrite Eo; discriminate).
  rewrite dget_dset_z. destruct (Z.eqb_spec k k') as [->|]; [|split; [exists i; auto|split; auto]]. assert (i' = i) by congruence. subst i'. split.
  - eexists. split; [reflexivity|]. cbn [i_ties]. rewrite dget_dset_other; auto. congruence.
  - split; auto. intros i1 [= <-]. apply dset_nodup. exact (N i Ei).
Qed.
Lemma put_ties w k id o : (forall k i, dget k (w_insts w) = Some i -> NoDup (map fst (i_ties i))) -> snd (play (Put_well k o (Some id)) w) = Ok tt ->
  tied (fst (play (Put_well k o (Some id)) w)) k id o /\ (forall k' i, dget k' (w_insts (fst (play (Put_well k o (Some id)) w))) = Some i -> NoDup (map fst (i_ties i))).
Proof.
  intros Nd E. cbn [play] in *. destruct (dget k (w_insts w)) as [i|] eqn:Ei; [|discriminate]. destruct (dget o (w_objs w)) as [[c v]|] eqn:Eo; [|discriminate]. destruct (zmem id (b_ids (fst (view w i)))); [|discriminate].
  destruct (set_well_tail id _) as [y r]. cbn [fst snd] in *. unfold tied. cbn [w_insts w_objs]. rewrite dget_dset_same. split.
  - split; [eexists; split; [reflexivity|cbn [i_ties]; apply dget_dset_same]|]. split; [intros i1 [= <-]; apply dset_nodup; exact (Nd k i Ei)|]. apply (save_some (b_wells (fst y)) [(id, o)] o (w_objs w)). rewrite Eo. discriminate.
  - intros k' i' E'. rewrite dget_dset_z in E'. destruct (Z.eqb k' k); [injection E' as <-; apply dset_nodup; exact (Nd k i Ei)|exact (Nd k' i' E')].
Qed.
Lemma world_ties (ms : list (Z * ws F)) k i : dget k (w_insts (world_of ms)) = Some i -> NoDup (map fst (i_ties i)).
Proof.
  unfold world_of. cbn [w_insts]. induction ms as [|[k' x] ms IH]; cbn; [discriminate|]. destruct (Z.eqb k k'); auto. intros [= <-]. constructor.
Qed.
End tied.

(** C117: one well object passed for two cells, of one model or of two: the two
    cells have one and the same well ever after, with the rate, the pressure, the
    equivalent radius and the productivity last assigned to either. *)
Lemma L_C117_one_well :
  forall (F : Type) (NF : Num F) (NT : NumT F) (ms : list (Z * ws F)) o s k1 id1 k2 id2 l v1 v2, (k1, id1) <> (k2, id2) ->
  let w1 := plays (world_of ms) [Make_well o s] in let w2 := plays w1 [Put_well k1 o (Some id1)] in
  snd (play (Put_well k1 o (Some id1)) w1) = Ok tt -> snd (play (Put_well k2 o (Some id2)) w2) = Ok tt -> Forall quiet l ->
  let w := plays (world_of ms) ([Make_well o s; Put_well k1 o (Some id1); Put_well k2 o (Some id2)] ++ l) in
  well_at w k1 id1 = Some v1 -> well_at w k2 id2 = Some v2 -> v1 = v2.
Proof.
  intros F NF NT ms o s k1 id1 k2 id2 l v1 v2 Ne w1 w2 E1 E2 Q w V1 V2.
  assert (N1 : forall k i, dget k (w_insts w1) = Some i -> NoDup (map fst (i_ties i))) by (intros k i; apply (world_ties ms)).
  destruct (put_ties w1 k1 id1 o N1 E1) as (T1 & N2). destruct (put_ties w2 k2 id2 o N2 E2) as (T2 & _). apply (tied_put w2 k1 id1 o k2 id2 N2 Ne) in T1.
  assert (Ew : w = plays (fst (play (Put_well k2 o (Some id2)) w2)) l) by (unfold w, plays; rewrite fold_left_app; reflexivity).
  apply (tied_plays l _ _ _ _ Q) in T1. apply (tied_plays l _ _ _ _ Q) in T2. rewrite <- Ew in T1, T2.
  destruct (tied_well _ _ _ _ _ T1 V1) as (c1 & Q1). destruct (tied_well _ _ _ _ _ T2 V2) as (c2 & Q2). congruence.
Qed.

(** C117 without the care: two models and one well object, of which the second model
    sets the rate: the first, on which only one method was called, has that rate; a
    well object told a new rate afterwards; a dictionary changed after it was passed. *)
Lemma L_C117_shared_refuted :
  exists m0 : bo Q, build 3 1 1 None 0%Q (Some 10%Q) None = Ok m0 /\
  forall NT : NumT Q,
  let ms := [(1%Z, (m0, None)); (2%Z, (m0, None))] in
  let make := Make_well 7%Z (single_cell_new (Some 2%Z) (Some (-1)%Q) None (Some (1 # 2)%Q) (Some "q"%string)) in
  let l1 := [make; Put_well 1%Z 7%Z None; Put_well 2%Z 7%Z None; On 2%Z (Set_well (Some 2%Z) (Some (-9)%Q) None None None)] in
  let l2 := [make; Put_well 1%Z 7%Z None; Tell_rate 7%Z (-9)%Q] in
  let l3 := [Make_dict 8%Z [(0%Z, ("pressure"%string, 20%Q))]; Put_dict 1%Z 8%Z; Edit_dict 8%Z 0%Z ("pressure"%string, 30%Q)] in
  let rate x := option_map (fun x => option_map (@w_q Q) (dget 2%Z (b_wells (fst x)))) x in
  let bounds x := option_map (fun x => b_bdict (fst x)) x in
  answers 1%Z (world_of ms) l1 = [Ok tt] /\ answers 2%Z (world_of ms) l1 = [Ok tt; Ok tt] /\
  rate (seen (plays (world_of ms) l1) 1%Z) = Some (Some (Some (Some (-9)%Q))) /\ rate (Some (after (m0, None) (alone 1%Z env0 l1))) = Some (Some (Some (Some (-1)%Q))) /\
  answers 1%Z (world_of ms) l2 = [Ok tt] /\
  rate (seen (plays (world_of ms) l2) 1%Z) = Some (Some (Some (Some (-9)%Q))) /\ rate (Some (after (m0, None) (alone 1%Z env0 l2))) = Some (Some (Some (Some (-1)%Q))) /\
  answers 1%Z (world_of ms) l3 = [Ok tt] /\
  bounds (seen (plays (world_of ms) l3) 1%Z) = Some [(0%Z, ("pressure"%string, 30%Q))] /\ bounds (Some (after (m0, None) (alone 1%Z env0 l3))) = Some [(0%Z, ("pressure"%string, 20%Q))].
Proof.
  eexists. split; [vm_compute; reflexivity|]. intros NT. cbv zeta.
  do 9 (split; [vm_compute; reflexivity|]). vm_compute; reflexivity.
Qed.

(** C117: two models, each with a well object and a dictionary of its own, used in turn. *)
Example ex_C117_case : exists m0 : bo Q, build 3 1 1 None 0%Q (Some 10%Q) None = Ok m0 /\
  forall NT : NumT Q,
  let well q := single_cell_new (Some 2%Z) (Some q) None (Some (1 # 2)%Q) (Some "q"%string) in
  let l := [Make_well 7%Z (well (-1)%Q); Make_well 8%Z (well (-2)%Q); Tell_rate 8%Z (-3)%Q; Make_dict 5%Z [(0%Z, ("pressure"%string, 20%Q))]; Put_dict 1%Z 5%Z; Put_dict 2%Z 5%Z;
    Put_well 1%Z 7%Z None; Put_well 2%Z 8%Z (Some 3%Z); On 1%Z (Set_well (Some 2%Z) (Some (-9)%Q) None None None); On 1%Z Compile] in
  careful env0 l /\ dget 1%Z [(1%Z, (m0, None)); (2%Z, (m0, None : option (fs Q)))] = Some (m0, None) /\ length (alone 1%Z env0 l) = 4 /\ length (alone 2%Z env0 l) = 2 /\
  option_map (fun w => (w_q w, w_con w)) (well_at (plays (world_of [(1%Z, (m0, None)); (2%Z, (m0, None))]) l) 2%Z 3%Z) = Some (Some (Some (-3)%Q), Some (Some "q"%string)).
Proof.
  eexists. split; [vm_compute; reflexivity|]. intros NT. cbv zeta. split.
  { cbn. intuition discriminate. }
  split; [reflexivity|]. split; [reflexivity|]. split; [reflexivity|]. vm_compute; reflexivity.
Qed.
(** C117: one object in two cells of one model; then the rate of one is set. *)
Example ex_C117_one_case : exists m0 : bo Q, build 3 1 1 None 0%Q (Some 10%Q) None = Ok m0 /\
  forall NT : NumT Q,
  let s := single_cell_new (Some 2%Z) (Some (-1)%Q) None (Some (1 # 2)%Q) (Some "q"%string) in
  let w1 := plays (world_of [(1%Z, (m0, None))]) [Make_well 7%Z s] in let w2 := plays w1 [Put_well 1%Z 7%Z (Some 2%Z)] in
  let l := [On 1%Z (Set_well (Some 2%Z) (Some (-9)%Q) None None None)] in
  snd (play (Put_well 1%Z 7%Z (Some 2%Z)) w1) = Ok tt /\ snd (play (Put_well 1%Z 7%Z (Some 3%Z)) w2) = Ok tt /\ Forall quiet l /\
  let w := plays (world_of [(1%Z, (m0, None))]) ([Make_well 7%Z s; Put_well 1%Z 7%Z (Some 2%Z); Put_well 1%Z 7%Z (Some 3%Z)] ++ l) in
  well_at w 1%Z 2%Z <> None /\ option_map (fun v => w_q v) (well_at w 1%Z 3%Z) = Some (Some (Some (-9)%Q)).
Proof.
  eexists. split; [vm_compute; reflexivity|]. intros NT. cbv zeta. split; [vm_compute; reflexivity|]. split; [vm_compute; reflexivity|]. split; [repeat constructor|]. split; [vm_compute; discriminate|vm_compute; reflexivity].
Qed.
