(** Neighbours, boundaries and transmissibilities of an interior cell. *)
From Coq Require Import String ZArith Bool Arith List Lia Reals Lra.
From Verif Require Import Prelude PreludeFacts Num GridModel GridSpec GridProofs GridNeighbors GridThm GeoModel GeoSpec GeoProofs
  PropModel PropSpec PropProofs TransProofs AgreeProofs PropThm MatrixProofs BlackOilModel FdmModel MonadFacts SumFacts ModelSpec ModelFacts VectFacts FaceFacts AsmFacts BalanceSpec CanonFacts.
Import ListNotations.
Close Scope R_scope.
Open Scope nat_scope.

Definition adjs (g : grid) (c : coord) : list coord := (adj g AX c ++ adj g AY c ++ adj g AZ c)%list.
Definition linked (g : grid) (c c' : coord) : Prop := exists a, flows g a /\ face_adjacent a c c'.
Lemma in_adjs g c c' : In c' (adjs g c) <-> linked g c c'.
Proof.
  unfold adjs, linked. rewrite !in_app_iff.
  assert (H : forall a, a <> ADash -> (In c' (adj g a c) <-> flows g a /\ face_adjacent a c c')).
  { intros a Na. unfold adj. destruct (flowb g a) eqn:E.
    - apply flowb_true in E. rewrite face_shift. cbn [In]. split; [intros [<-|[<-|[]]]; tauto|intros (_ & _ & [->| ->]); auto].
    - split; [intros []|]. intros (F & _). apply flowb_true in F. congruence. }
  rewrite !H by discriminate. split; [intros [?|[?|?]]; eauto|]. intros (a & F & A). destruct a; auto. unfold flows in F. cbn in F. lia.
Qed.
Lemma nodup_adjs g c : NoDup (adjs g c).
Proof.
  destruct c as [[i j] k]. unfold adjs, adj. destruct (flowb g AX), (flowb g AY), (flowb g AZ); cbn [shift app];
  repeat (constructor; [cbn [In]; intros H; repeat (destruct H as [H|H]; [inversion H; lia|]); exact H|]); constructor.
Qed.
Lemma linked_sym g c c' : linked g c c' -> linked g c' c.
Proof. intros (a & F & A). exists a. split; auto. unfold face_adjacent in *. tauto. Qed.
Lemma dget_map {A B} (f : A -> B) k (l : list (Z * A)) : dget k (map (fun kv => (fst kv, f (snd kv))) l) = option_map f (dget k l).
Proof. induction l as [|[j a] l IH]; cbn [map dget fst snd]; [reflexivity|]. destruct (Z.eqb k j); auto. Qed.
Lemma dirs_list_of (f : axis -> list Z) : dirs_list (dirs_of f) = (f AX ++ f AY ++ f AZ)%list.
Proof. reflexivity. Qed.
Lemma NoDup_map_in {A B} (f : A -> B) l : (forall a b, In a l -> In b l -> f a = f b -> a = b) -> NoDup l -> NoDup (map f l).
Proof.
  intros H N. induction N as [|a l I N IH]; cbn; constructor; [|apply IH; intros; apply H; auto; now right].
  intros J. apply in_map_iff in J as (b & E & J). apply H in E; [subst; contradiction|now right|now left].
Qed.

Definition nbs (m : bo R) (id : Z) : list Z := match get_cell_neighbors (bgrid m) id false with Ok nb => dirs_list nb | Err _ => [] end.
Definition bns (m : bo R) (id : Z) : list Z := match get_cell_boundaries (bgrid m) id with Ok nb => dirs_list nb | Err _ => [] end.
Definition tr (m : bo R) (id j : Z) : R :=
  match get_cell_trans m id true with Ok T => match dget j T with Some t => t | None => 0%R end | Err _ => 0%R end.
(** Transmissibility between two interior cells by position, from the
    dictionaries. *)
Definition scoup (m : bo R) (p q : nat) : R :=
  match nth_error (b_ids m) p, nth_error (b_ids m) q with
  | Some id, Some id' => if zmem id' (nbs m id) then tr m id id' else 0%R
  | _, _ => 0%R
  end.

Section nbr.
Context {m : bo R} {x y z : nat} {u : bool} {dx dy dz : dinput R} (K : model m x y z u dx dy dz).
Notation g := (gr (geom (b_grid m))).
Notation N := (length (b_ids m)).
Notation nid := (natural_id g).
Notation wfg := (md_wf K).
Notation hfg := (md_flow _ _ _ _ _ _ _ _ K).
Notation rkg := (md_rock _ _ _ _ _ _ _ _ K).

Lemma linked_grid c c' : interior g c -> linked g c c' -> in_grid g c'.
Proof. intros I (a & F & A). apply face_shift in A as (_ & [->| ->]); apply in_grid_shift_interior; auto using wfg. Qed.
Lemma cell_of id : In id (b_ids m) -> exists c, interior g c /\ id = nid c.
Proof. apply (proj2 (proj2 (ids_facts K))). Qed.
Lemma id_of c : interior g c -> In (nid c) (b_ids m).
Proof. intros I. apply (proj2 (proj2 (ids_facts K))). eauto. Qed.

Lemma nbs_ok c : interior g c -> exists nb, get_cell_neighbors g (nid c) false = Ok nb /\ nbs m (nid c) = dirs_list nb /\
  dirs_list nb = map nid (filter (interiorb g) (adjs g c)).
Proof.
  intros I. unfold nbs. change (bgrid m) with g. rewrite neighbors_id_canon; [|apply wfg|apply hfg|apply interior_in_grid; auto using wfg].
  eexists. split; [reflexivity|]. split; [reflexivity|]. rewrite dirs_list_of. unfold adjs. now rewrite !filter_app, !map_app.
Qed.
Lemma bns_ok c : interior g c -> exists bn, get_cell_boundaries g (nid c) = Ok bn /\ bns m (nid c) = dirs_list bn /\
  dirs_list bn = map nid (filter (fun x => negb (interiorb g x)) (adjs g c)).
Proof.
  intros I. unfold bns. change (bgrid m) with g. rewrite cell_boundaries_canon; [|apply wfg|apply hfg|apply interior_in_grid; auto using wfg].
  rewrite (proj2 (interiorb_true g c) I).
  eexists. split; [reflexivity|]. split; [reflexivity|]. rewrite dirs_list_of. unfold adjs. now rewrite !filter_app, !map_app.
Qed.
Lemma in_nbs c j : interior g c -> In j (nbs m (nid c)) <-> exists c', interior g c' /\ linked g c c' /\ j = nid c'.
Proof.
  intros I. destruct (nbs_ok c I) as (nb & _ & -> & ->). rewrite in_map_iff. split.
  - intros (c' & <- & H). apply filter_In in H as (H & J). apply interiorb_true in J. apply in_adjs in H. eauto.
  - intros (c' & J & L & ->). exists c'. split; auto. apply filter_In. split; [now apply in_adjs|now apply interiorb_true].
Qed.
Lemma in_bns c j : interior g c -> In j (bns m (nid c)) <-> exists c', boundary_cell g c' /\ linked g c c' /\ j = nid c'.
Proof.
  intros I. destruct (bns_ok c I) as (nb & _ & -> & ->). rewrite in_map_iff. split.
  - intros (c' & <- & H). apply filter_In in H as (H & J). apply in_adjs in H. exists c'. split; [|auto]. split; [eapply linked_grid; eauto|].
    intros J'. apply interiorb_true in J'. rewrite J' in J. discriminate.
  - intros (c' & (J1 & J2) & L & ->). exists c'. split; auto. apply filter_In. split; [now apply in_adjs|].
    destruct (interiorb g c') eqn:E; auto. apply interiorb_true in E. contradiction.
Qed.
Lemma nodup_ids c (P : coord -> bool) : interior g c -> NoDup (map nid (filter P (adjs g c))).
Proof.
  intros I. apply NoDup_map_in; [|apply NoDup_filter, nodup_adjs]. intros a b Ha Hb E. apply filter_In in Ha as (Ha & _), Hb as (Hb & _).
  apply in_adjs in Ha, Hb. apply (natural_id_inj g); auto; eapply linked_grid; eauto.
Qed.
Lemma nodup_nbs id : In id (b_ids m) -> NoDup (nbs m id).
Proof. intros H. destruct (cell_of id H) as (c & I & ->). destruct (nbs_ok c I) as (nb & _ & -> & ->). now apply nodup_ids. Qed.
Lemma nodup_bns id : In id (b_ids m) -> NoDup (bns m id).
Proof. intros H. destruct (cell_of id H) as (c & I & ->). destruct (bns_ok c I) as (nb & _ & -> & ->). now apply nodup_ids. Qed.
Lemma nbs_in id j : In id (b_ids m) -> In j (nbs m id) -> In j (b_ids m) /\ In id (nbs m j) /\ j <> id.
Proof.
  intros H J. destruct (cell_of id H) as (c & I & ->). apply (in_nbs c) in J as (c' & I' & L & ->); auto. split; [now apply id_of|]. split.
  - apply in_nbs; auto. exists c. auto using linked_sym.
  - intros E. apply natural_id_inj in E; auto using interior_in_grid, wfg. subst c'. destruct L as (a & Fa & A). apply face_shift in A as (Na & A).
    destruct c as [[? ?] ?]. destruct a; cbn in A; try congruence; destruct A as [A|A]; inversion A; lia.
Qed.

(** The transmissibilities. *)
Lemma tr_link c c' : interior g c -> linked g c c' ->
  exists T, get_cell_trans m (nid c) true = Ok T /\ dget (nid c') T = Some (tr m (nid c) (nid c')) /\ (0 < tr m (nid c) (nid c'))%R /\
  exists iso a, is_isotropic (b_grid m) = Ok iso /\ flows g a /\ face_adjacent a c c' /\
    tr m (nid c) (nid c') = (Gf (b_grid m) dx dy dz iso a c c' / muB m)%R.
Proof.
  intros I (a & Fa & A). destruct (cell_G_spec _ _ _ _ _ _ _ _ rkg c true hfg (interior_in_grid _ _ wfg I) (fun _ => I)) as (iso & L & Ei & EL & S & _).
  specialize (S a c' Fa A ltac:(discriminate)). unfold tr, get_cell_trans. rewrite EL. cbn [rbind]. eexists. split; [reflexivity|]. rewrite (dget_map (fun v => ndiv v (muB m))), S. cbn [option_map].
  split; [reflexivity|]. split.
  - cbn. apply Rdiv_lt_0_compat; [|apply (muB_pos K)]. apply (factor_pos _ _ _ _ _ _ _ _ iso a c c' rkg); auto; [now apply interior_in_grid; auto using wfg|].
    eapply linked_grid; eauto. exists a; auto.
  - exists iso, a. auto.
Qed.
Lemma axis_unique a a' c c' : face_adjacent a c c' -> face_adjacent a' c c' -> a = a'.
Proof.
  intros A A'. apply face_shift in A as (Na & A), A' as (Na' & A').
  destruct A as [A|A], A' as [A'|A']; rewrite A in A'; apply shift_inj in A' as (? & _); auto; lia.
Qed.
Lemma tr_nb id j : In id (b_ids m) -> In j (nbs m id) -> (0 < tr m id j)%R /\ tr m id j = tr m j id.
Proof.
  intros H J. destruct (cell_of id H) as (c & I & ->). apply (in_nbs c) in J as (c' & I' & L & ->); auto.
  destruct (tr_link c c' I L) as (T & _ & _ & P & iso & a & Ei & Fa & A & E).
  destruct (tr_link c' c I' (linked_sym _ _ _ L)) as (T' & _ & _ & P' & iso' & a' & Ei' & Fa' & A' & E'). split; auto.
  rewrite E, E'. replace iso' with iso by congruence. rewrite (axis_unique a' a c c'); auto; [|now apply face_adj_sym]. f_equal. apply Gf_comm.
Qed.
Lemma tr_bn id j : In id (b_ids m) -> In j (bns m id) -> (0 < tr m id j)%R.
Proof.
  intros H J. destruct (cell_of id H) as (c & I & ->). apply (in_bns c) in J as (c' & I' & L & ->); auto.
  now destruct (tr_link c c' I L) as (T & _ & _ & P & _).
Qed.
Lemma tr_get id j : In id (b_ids m) -> In j (nbs m id ++ bns m id)%list -> exists T, get_cell_trans m id true = Ok T /\ dget j T = Some (tr m id j).
Proof.
  intros H J. destruct (cell_of id H) as (c & I & ->).
  assert (L : exists c', linked g c c' /\ j = nid c').
  { apply in_app_iff in J as [J|J]; [apply (in_nbs c) in J as (c' & _ & L & ->)|apply (in_bns c) in J as (c' & _ & L & ->)]; eauto. }
  destruct L as (c' & L & ->). destruct (tr_link c c' I L) as (T & E & D & _). eauto.
Qed.
Lemma in_pad c : in_grid g c -> (0 <= nid c < Z.of_nat (get_n g true))%Z.
Proof.
  intros I. destruct (L_C03_interior_boundary_partition g wfg hfg) as (inner & bound & _ & _ & _ & _ & H1 & H2 & Rg & _).
  apply Rg. destruct (interior_dec g c) as [J|J]; [left; apply H1|right; apply H2]; exists c; split; auto. split; auto.
Qed.
Definition height (id : Z) : R := match gz m with Ok zs => match pyget zs id with Ok v => v | Err _ => 0%R end | Err _ => 0%R end.
Lemma dz_ok c c' : in_grid g c -> in_grid g c' -> FdmModel.dz m (nid c) (nid c') = Ok (height (nid c') - height (nid c))%R.
Proof.
  intros I I'. destruct (md_z _ _ _ _ _ _ _ _ K) as (zs & Ez & Lz). unfold FdmModel.dz, height. rewrite Ez. cbn [rbind].
  assert (G : forall c, in_grid g c -> exists v, pyget zs (nid c) = Ok v).
  { intros d Id. pose proof (in_pad d Id). exists (nth (Z.to_nat (nid d)) zs 0%R). rewrite <- (Z2Nat.id (nid d)) at 1 by lia. apply pyget_nth. lia. }
  destruct (G c I) as (v & Ev), (G c' I') as (v' & Ev'). rewrite Ev, Ev'. reflexivity.
Qed.
Lemma dz_id id j : In id (b_ids m) -> In j (nbs m id ++ bns m id)%list -> FdmModel.dz m id j = Ok (height j - height id)%R.
Proof.
  intros H J. destruct (cell_of id H) as (c & I & ->).
  assert (L : exists c', linked g c c' /\ j = nid c').
  { apply in_app_iff in J as [J|J]; [apply (in_nbs c) in J as (c' & _ & L & ->)|apply (in_bns c) in J as (c' & _ & L & ->)]; eauto. }
  destruct L as (c' & L & ->). apply dz_ok; [apply interior_in_grid; auto using wfg|eapply linked_grid; eauto].
Qed.
Lemma level_height id j : level m -> In id (b_ids m) -> In j (b_ids m) -> height id = height j.
Proof. intros (zs & h & Ez & H) I J. unfold height. rewrite Ez, (H _ I), (H _ J). reflexivity. Qed.

(** Boundary cells and the cells they belong to. *)
Lemma bns_face id j : In id (b_ids m) -> In j (bns m id) -> face_id m j.
Proof.
  intros H J. destruct (cell_of id H) as (c & I & ->). apply (in_bns c) in J as (c' & B & L & ->); auto. exists c'. split; auto. split; auto.
  destruct (L_C11_boundary_cell_one_neighbor g c' wfg hfg B) as (d & Ed & Le & T). apply T.
  rewrite neighbors_id_canon in Ed; [|apply wfg|apply hfg|apply B]. inversion Ed; subst d. clear Ed.
  assert (X : In c (filter (interiorb g) (adjs g c'))) by (apply filter_In; split; [apply in_adjs; now apply linked_sym|now apply interiorb_true]).
  unfold total, dirs_of in *. cbn [d_x d_y d_z] in *. unfold adjs in X. rewrite !filter_app, !in_app_iff in X. rewrite !app_length, !map_length in *.
  destruct X as [X|[X|X]]; match type of X with In _ ?l => destruct l as [|? ?] eqn:El; [destruct X|] end; cbn [length] in *; lia.
Qed.
Lemma edge_bns idb id : face_id m idb -> In id (b_ids m) ->
  (In idb (bns m id) <-> fst (edge (m := m) idb) = id) /\ (In idb (bns m id) -> tr m id idb = snd (edge (m := m) idb)).
Proof.
  intros (c & B & OF & ->) H. destruct (cell_of id H) as (c1 & I1 & ->).
  destruct (face_cell _ _ _ _ _ _ _ _ rkg hfg c B OF) as (a & c' & iso & Fa & Ic & Ad & Ei & En & EG & Ps).
  assert (Ee : edge (m := m) (nid c) = (nid c', (Gf (b_grid m) dx dy dz iso a c c' / muB m)%R)).
  { unfold edge, get_cell_trans. rewrite EG. reflexivity. }
  rewrite Ee. cbn [fst snd].
  assert (Q : In (nid c) (bns m (nid c1)) <-> nid c' = nid c1).
  { rewrite (in_bns c1) by auto. split.
    - intros (c2 & B2 & L & E). apply natural_id_inj in E; [|apply B|apply B2]. subst c2.
      rewrite neighbors_id_canon in En; [|apply wfg|apply hfg|apply B]. assert (En' : dirs_list (dirs_of (fun a => map nid (filter (interiorb g) (adj g a c)))) = dirs_list (dirs_of (fun b => if axis_eqb b a then [nid c'] else []))) by congruence.
      clear En. rewrite !dirs_list_of in En'.
      assert (X : In (nid c1) (map nid (filter (interiorb g) (adjs g c)))).
      { apply in_map, filter_In. split; [apply in_adjs; now apply linked_sym|now apply interiorb_true]. }
      unfold adjs in X. rewrite !filter_app, !map_app, En' in X. destruct a; cbn in X; intuition.
    - intros E. apply natural_id_inj in E; auto using interior_in_grid, wfg. subst c1. exists c. split; auto. split; auto. exists a. split; auto. now apply face_adj_sym. }
  split; auto. intros Hin. apply Q in Hin. apply natural_id_inj in Hin; auto using interior_in_grid, wfg. subst c1.
  assert (L : linked g c' c) by (exists a; split; auto; now apply face_adj_sym).
  destruct (tr_link c' c Ic L) as (_ & _ & _ & _ & iso' & a' & Ei' & Fa' & A' & E'). rewrite E'. replace iso' with iso by congruence.
  rewrite (axis_unique a' a c c'); auto; [|now apply face_adj_sym]. f_equal. apply Gf_comm.
Qed.

(** The couplings by position. *)
Lemma scoup_sym p q : p < N -> q < N -> scoup m p q = scoup m q p /\ scoup m p p = 0%R /\ (0 <= scoup m p q)%R.
Proof.
  intros Hp Hq. destruct (nth_id p Hp) as (id & E & I). destruct (nth_id q Hq) as (j & E' & I'). unfold scoup. rewrite E, E'. split; [|split].
  - destruct (zmem j (nbs m id)) eqn:M.
    + apply zmem_In in M. destruct (tr_nb id j I M) as (_ & ->). apply nbs_in in M as (_ & M & _); auto. apply zmem_In in M. now rewrite M.
    + destruct (zmem id (nbs m j)) eqn:M'; auto. apply zmem_In in M'. apply nbs_in in M' as (_ & M' & _); auto. apply zmem_In in M'. congruence.
  - destruct (zmem id (nbs m id)) eqn:M; auto. apply zmem_In in M. apply nbs_in in M as (_ & _ & M); auto. congruence.
  - destruct (zmem j (nbs m id)) eqn:M; [|lra]. apply zmem_In in M. destruct (tr_nb id j I M). lra.
Qed.
Lemma scoup_coupling p q : ~ three_d g -> p < N -> q < N -> scoup m p q = coupling m p q.
Proof.
  intros N3 Hp Hq. destruct (L_C22_matrix_agrees _ _ _ _ _ _ _ _ rkg hfg N3) as (M & ids & EM & Ei & _ & H).
  rewrite (md_ids _ _ _ _ _ _ _ _ K) in Ei. inversion Ei; subst ids; clear Ei.
  destruct (nth_id p Hp) as (id & E & I). destruct (nth_id q Hq) as (j & E' & I'). destruct (H p q id j E E') as (L & EL & V).
  unfold scoup, coupling, get_cells_trans. rewrite E, E', EM. cbn [rbind ment]. rewrite V. clear V H.
  destruct (cell_of id I) as (c & Ic & ->). destruct (cell_of j I') as (c' & Ic' & ->).
  destruct (cell_G_spec _ _ _ _ _ _ _ _ rkg c false hfg (interior_in_grid _ _ wfg Ic) ltac:(discriminate)) as (iso & L' & Eiso & EL' & S & NS).
  rewrite EL in EL'. inversion EL'; subst L'; clear EL'. destruct (zmem (nid c') (nbs m (nid c))) eqn:Mz.
  - apply zmem_In in Mz. apply (in_nbs c) in Mz as (c2 & _ & L2 & E2); auto. apply natural_id_inj in E2; [subst c2| |]; auto using interior_in_grid, wfg.
    + destruct (tr_link c c' Ic L2) as (_ & _ & _ & _ & iso' & a' & Ei' & Fa' & A' & ->). rewrite (S a' c' Fa' A' (fun _ => Ic')). replace iso' with iso by congruence. reflexivity.
    + apply (linked_grid c); auto.
  - rewrite NS; [cbn; unfold Rdiv; lra|apply interior_in_grid; auto using wfg|]. intros (a & Fa & A & _).
    assert (In (nid c') (nbs m (nid c))) by (apply in_nbs; auto; exists c'; split; auto; split; auto; exists a; auto). apply zmem_In in H. congruence.
Qed.
End nbr.
