(** Facts about [FormatModel.v]. *)
From Coq Require Import String ZArith Bool Arith List Lia.
From Verif Require Import Prelude PreludeFacts Num GridModel GridSpec GridProofs GeoModel PropModel
  FormatModel FormatSpec.
Import ListNotations.

(** ** Sets *)
Lemma leaf_eqb_ok {A} (eqb : A -> A -> bool) (E : forall x y, eqb x y = true <-> x = y) x y :
  leaf_hashable x = true -> (leaf_eqb eqb x y = true <-> x = y).
Proof.
  destruct x, y; simpl; intros H; try discriminate; try (split; congruence).
  rewrite E. split; congruence.
Qed.
Lemma leaves_eqb_ok {A} (eqb : A -> A -> bool) (E : forall x y, eqb x y = true <-> x = y) l :
  forall m, forallb leaf_hashable l = true -> (leaves_eqb eqb l m = true <-> l = m).
Proof.
  induction l as [|x l IH]; intros [|y m] H; simpl in *; try (split; congruence).
  apply andb_true_iff in H as [H1 H2]. rewrite andb_true_iff, leaf_eqb_ok, IH by auto.
  split; [intros [-> ->]; auto | intros [= -> ->]; auto].
Qed.
Lemma item_eqb_ok {A} (eqb : A -> A -> bool) (E : forall x y, eqb x y = true <-> x = y) x y :
  hashable x = true -> (item_eqb eqb x y = true <-> x = y).
Proof.
  destruct x, y; simpl; intros H; try (split; congruence).
  - rewrite leaf_eqb_ok by auto. split; congruence.
  - rewrite leaves_eqb_ok by auto. split; congruence.
Qed.

Lemma dedup_In' {A} (eqb : A -> A -> bool) (l : list A) x :
  (forall a b, In a l -> (eqb a b = true <-> a = b)) -> (In x (dedup eqb l) <-> In x l).
Proof.
  revert x. induction l as [|a l IH]; intros x E; simpl; [tauto|].
  rewrite filter_In, IH by (intros; apply E; simpl; auto). destruct (eqb a x) eqn:Ex; simpl.
  - apply E in Ex; simpl; auto. subst. tauto.
  - split; [tauto|]. intros [->|]; auto.
Qed.
Lemma dedup_NoDup' {A} (eqb : A -> A -> bool) (l : list A) :
  (forall a b, In a l -> (eqb a b = true <-> a = b)) -> NoDup (dedup eqb l).
Proof.
  induction l as [|a l IH]; intros E; simpl; constructor.
  - rewrite filter_In. intros [_ H]. assert (eqb a a = true) by (apply E; simpl; auto).
    rewrite H0 in H. discriminate.
  - apply NoDup_filter, IH. intros; apply E; simpl; auto.
Qed.
Lemma py_set_ok {A} (eqb : A -> A -> bool) (E : forall x y, eqb x y = true <-> x = y) l :
  forallb hashable l = true ->
  exists s, py_set eqb l = Ok (VSet s) /\ NoDup s /\ forall x, In x s <-> In x l.
Proof.
  intros H. unfold py_set. rewrite H. eexists. split; [reflexivity|].
  rewrite forallb_forall in H.
  assert (E' : forall a b, In a l -> (item_eqb eqb a b = true <-> a = b))
    by (intros; apply item_eqb_ok; auto).
  split; [apply dedup_NoDup'; auto | intros; apply dedup_In'; auto].
Qed.

(** ** reformat of the values that occur *)
Lemma rmapM_map {A B C} (f : B -> res C) (h : A -> B) (k : A -> C) l :
  (forall a, f (h a) = Ok (k a)) -> rmapM f (map h l) = Ok (map k l).
Proof. intros H. induction l; simpl; auto. now rewrite H, IHl. Qed.

Lemma scal_hashable {A} (l : list A) : forallb hashable (map scal l) = true.
Proof. induction l; simpl; auto. Qed.
Lemma tri_hashable {A} (l : list (A * A * A)) : forallb hashable (map tri l) = true.
Proof. induction l as [|[[? ?] ?]]; simpl; auto. Qed.

Lemma flat3_app {A} (l m : list (A * A * A)) : flat3 (l ++ m) = flat3 l ++ flat3 m.
Proof. apply flat_map_app. Qed.
Lemma flat3_length {A} (l : list (A * A * A)) : length (flat3 l) = 3 * length l.
Proof. induction l as [|[[? ?] ?]]; simpl in *; lia. Qed.

(** From the four formats to [shows]. *)
Lemma shows_intro {A} (r : option string -> res (pyval A)) l (a : arr A) (S : res (pyval A)) fmt :
  (r (Some "list"%string) = Ok (VList l)) -> (r (Some "tuple"%string) = Ok (VTup l)) ->
  (r (Some "set"%string) = S) ->
  (exists s, S = Ok (VSet s) /\ NoDup s /\ forall x, In x s <-> In x l) ->
  (r (Some "array"%string) = Ok (VArr a)) -> holds a l ->
  (forall f, ~ In f ["list"; "tuple"; "set"; "array"]%string -> r (Some f) = Err ValueError) ->
  r None = Err ValueError -> shows fmt l (r fmt).
Proof.
  intros H1 H2 H3 H3' H4 H4' H5 H6. destruct fmt as [f|]; simpl; auto.
  repeat split; intros; subst; eauto.
Qed.

Lemma not_fmt f s : f <> s -> is_fmt (Some f) s = false.
Proof. intros H. simpl. now apply String.eqb_neq. Qed.
Ltac other_fmt Hf :=
  repeat (rewrite not_fmt by (intro; subst; apply Hf; simpl; tauto)).

Lemma stack_scal {A} (d : list A) : stack (map (fun a => ([], [a])) d) = Ok ([length d], d).
Proof.
  assert (E : flat_map snd (map (fun a => (@nil nat, [a])) d) = d)
    by (induction d; simpl in *; congruence).
  destruct d as [|a d]; [reflexivity|]. unfold stack.
  change (map (fun a => (@nil nat, [a])) (a :: d)) with
    ((@nil nat, [a]) :: map (fun a => (@nil nat, [a])) d) in *.
  cbv iota beta.
  replace (forallb _ _) with true.
  - rewrite E. cbn [length fst]. now rewrite map_length.
  - symmetry. apply forallb_forall. intros x [<-|Hx]; [reflexivity|].
    apply in_map_iff in Hx as (b & <- & _). reflexivity.
Qed.
Lemma stack_tri {A} (d : list (A * A * A)) :
  d <> [] -> stack (map (fun c => match c with (i, j, k) => ([3], [i; j; k]) end) d)
  = Ok ([length d; 3], flat3 d).
Proof.
  intros Hd. set (h := fun c : A * A * A => match c with (i, j, k) => ([3], [i; j; k]) end).
  assert (E : flat_map snd (map h d) = flat3 d)
    by (unfold flat3; rewrite flat_map_concat_map, map_map, flat_map_concat_map; f_equal;
        apply map_ext; intros [[? ?] ?]; reflexivity).
  assert (S : forall c, fst (h c) = [3]) by (intros [[? ?] ?]; reflexivity).
  destruct d as [|c d]; [congruence|]. unfold stack. cbn [map] in *. cbv iota beta.
  replace (forallb _ _) with true.
  - rewrite E, S. cbn [length]. now rewrite map_length.
  - symmetry. apply forallb_forall. intros x [<-|Hx].
    + rewrite S. reflexivity.
    + apply in_map_iff in Hx as (b & <- & _). rewrite !S. reflexivity.
Qed.

(** An array of numbers. *)
Lemma reformat_flat {A} (eqb : A -> A -> bool) (E : forall x y, eqb x y = true <-> x = y) d fmt :
  shows fmt (map scal d) (reformat eqb (VArr ([length d], d)) fmt).
Proof.
  assert (I : map (@Lf A) (map Sc d) = map scal d) by (rewrite map_map; reflexivity).
  eapply shows_intro with (r := fun fmt => reformat eqb (VArr ([length d], d)) fmt).
  - cbn. now rewrite I.
  - cbn. now rewrite I.
  - cbn. rewrite I. reflexivity.
  - apply py_set_ok; auto. apply scal_hashable.
  - cbn. reflexivity.
  - left. eauto.
  - intros f Hf. unfold reformat. cbn -[is_fmt]. other_fmt Hf. reflexivity.
  - reflexivity.
Qed.

(** An array of points. *)
Lemma rows3 {A} (d : list (A * A * A)) :
  map (fun i => chunk 3 i (flat3 d)) (seq 0 (length d))
  = map (fun c => match c with (i, j, k) => [i; j; k] end) d.
Proof.
  induction d as [|[[i j] k] d IH]; [reflexivity|].
  cbn [length seq map]. f_equal. rewrite <- seq_shift, map_map, <- IH. apply map_ext.
  intros n. unfold chunk. f_equal.
Qed.
Lemma tuples3 {A} (d : list (A * A * A)) :
  rmapM py_tuple (map (@Lf A) (map (fun i => Ar [3] (chunk 3 i (flat3 d))) (seq 0 (length d))))
  = Ok (map tri d).
Proof.
  replace (map (fun i => Ar [3] (chunk 3 i (flat3 d))) (seq 0 (length d))) with
    (map (Ar [3]) (map (fun i => chunk 3 i (flat3 d)) (seq 0 (length d)))) by (rewrite map_map; auto).
  rewrite rows3, !map_map. apply rmapM_map. intros [[i j] k]. reflexivity.
Qed.
Lemma reformat_points {A} (eqb : A -> A -> bool) (E : forall x y, eqb x y = true <-> x = y) d fmt :
  shows fmt (map tri d) (reformat eqb (VArr ([length d; 3], flat3 d)) fmt).
Proof.
  pose proof (tuples3 d) as T.
  eapply shows_intro with (r := fun fmt => reformat eqb (VArr ([length d; 3], flat3 d)) fmt).
  - cbn -[chunk]. rewrite T. reflexivity.
  - cbn -[chunk]. rewrite T. reflexivity.
  - cbn -[chunk]. rewrite T. reflexivity.
  - apply py_set_ok; auto. apply tri_hashable.
  - reflexivity.
  - right. eauto.
  - intros f Hf. unfold reformat. cbn -[is_fmt chunk]. other_fmt Hf. reflexivity.
  - reflexivity.
Qed.

(** A list of numbers, a list of points. *)
Lemma list_scal_arr {A} (d : list A) :
  (let* rows := rmapM item_arr (map scal d) in stack rows) = Ok ([length d], d).
Proof.
  rewrite (rmapM_map item_arr scal (fun a => ([], [a]))) by reflexivity. cbn [rbind].
  apply stack_scal.
Qed.
Lemma list_tri_arr {A} (d : list (A * A * A)) : d <> [] ->
  (let* rows := rmapM item_arr (map tri d) in stack rows) = Ok ([length d; 3], flat3 d).
Proof.
  intros Hd. rewrite (rmapM_map item_arr tri
    (fun c => match c with (i, j, k) => ([3], [i; j; k]) end)).
  - cbn [rbind]. now apply stack_tri.
  - intros [[i j] k]. reflexivity.
Qed.
Lemma tuples_tri {A} (d : list (A * A * A)) : rmapM py_tuple (map tri d) = Ok (map tri d).
Proof. apply rmapM_map. intros [[? ?] ?]; reflexivity. Qed.

Definition seq_val {A} (tup : bool) (l : list (item A)) : pyval A :=
  if tup then VTup l else VList l.
Lemma np_seq_scal {A} t (d : list A) : np_array (seq_val t (map scal d)) = Ok ([length d], d).
Proof. destruct t; apply list_scal_arr. Qed.
Lemma np_seq_tri {A} t (d : list (A * A * A)) : d <> [] ->
  np_array (seq_val t (map tri d)) = Ok ([length d; 3], flat3 d).
Proof. destruct t; apply list_tri_arr. Qed.
Lemma iter_seq {A} t (l : list (item A)) : py_iter (seq_val t l) = Ok l.
Proof. destruct t; reflexivity. Qed.
Definition reformat_go {A} (eqb : A -> A -> bool) (in_data : pyval A) (fmt : option string) :=
    let* a := np_array in_data in
    let points := ispoints (fst a) in
    let items := let* l := py_iter in_data in if points then rmapM py_tuple l else Ok l in
    if is_fmt fmt "list" then rmap (@VList A) items
    else if is_fmt fmt "tuple" then rmap (@VTup A) items
    else if is_fmt fmt "set" then let* l := items in py_set eqb l
    else if is_fmt fmt "array" then Ok (VArr a)
    else Err ValueError.
Lemma reformat_seq {A} eqb t (l : list (item A)) fmt :
  reformat eqb (seq_val t l) fmt = reformat_go eqb (seq_val t l) fmt.
Proof. destruct t; reflexivity. Qed.
Lemma reformat_dict {A} eqb (d : dirs (item A)) fmt : fmt <> Some "dict"%string ->
  reformat eqb (VDict d) fmt = reformat eqb (VList (dirs_list d)) fmt.
Proof.
  intros H. unfold reformat. replace (is_fmt fmt "dict") with false; auto.
  destruct fmt as [f|]; auto. symmetry. apply not_fmt. congruence.
Qed.

Lemma reformat_scals {A} (eqb : A -> A -> bool) (E : forall x y, eqb x y = true <-> x = y) t d fmt :
  shows fmt (map scal d) (reformat eqb (seq_val t (map scal d)) fmt).
Proof.
  rewrite reformat_seq.
  eapply shows_intro with (r := fun fmt => reformat_go eqb (seq_val t (map scal d)) fmt);
    unfold reformat_go; rewrite ?np_seq_scal, ?iter_seq; cbn -[is_fmt].
  - reflexivity.
  - reflexivity.
  - reflexivity.
  - apply py_set_ok; auto. apply scal_hashable.
  - reflexivity.
  - left. eauto.
  - intros f Hf. rewrite ?np_seq_scal, ?(np_seq_tri t), ?iter_seq by auto. cbn -[is_fmt].
    other_fmt Hf. reflexivity.
  - reflexivity.
Qed.
Lemma reformat_tris {A} (eqb : A -> A -> bool) (E : forall x y, eqb x y = true <-> x = y) t d fmt :
  shows fmt (map tri d) (reformat eqb (seq_val t (map tri d)) fmt).
Proof.
  destruct d as [|c d]; [exact (reformat_scals eqb E t [] fmt)|].
  assert (N : c :: d <> []) by congruence. revert N. generalize (c :: d). clear c d. intros d N.
  rewrite reformat_seq.
  eapply shows_intro with (r := fun fmt => reformat_go eqb (seq_val t (map tri d)) fmt);
    unfold reformat_go; rewrite ?(np_seq_tri t d N), ?iter_seq; cbn -[is_fmt]; rewrite ?tuples_tri.
  - reflexivity.
  - reflexivity.
  - reflexivity.
  - apply py_set_ok; auto. apply tri_hashable.
  - reflexivity.
  - right. eauto.
  - intros f Hf. rewrite ?np_seq_scal, ?(np_seq_tri t), ?iter_seq by auto. cbn -[is_fmt].
    other_fmt Hf. reflexivity.
  - reflexivity.
Qed.

Lemma dirs_map_list {A B} (f : A -> B) d : dirs_list (dirs_map f d) = map f (dirs_list d).
Proof. unfold dirs_list, dirs_map. simpl. now rewrite !map_app. Qed.
Lemma reformat_dirs {A} (eqb : A -> A -> bool) d fmt :
  (fmt <> Some "dict"%string -> shows fmt (dirs_list d) (reformat eqb (VList (dirs_list d)) fmt)) ->
  shows_dirs fmt d (reformat eqb (VDict d) fmt).
Proof.
  intros H. split.
  - intros ->. reflexivity.
  - intros Hf. rewrite reformat_dict by auto. apply H, Hf.
Qed.

(** ** Layouts *)
Definition lift3 {A} (a : arr (A * A * A)) : arr A := (fst a ++ [3], flat3 (snd a)).

Lemma prodn_snoc s n : prodn (s ++ [n]) = prodn s * n.
Proof. induction s; simpl; [lia|]. fold (prodn (s ++ [n])). fold (prodn s). rewrite IHs. lia. Qed.
Lemma flat3_skipn {A} n (l : list (A * A * A)) : skipn (n * 3) (flat3 l) = flat3 (skipn n l).
Proof.
  revert l. induction n; intros l; [reflexivity|]. destruct l as [|[[? ?] ?] l]; [reflexivity|].
  simpl. apply IHn.
Qed.
Lemma flat3_firstn {A} n (l : list (A * A * A)) : firstn (n * 3) (flat3 l) = flat3 (firstn n l).
Proof.
  revert l. induction n; intros l; [reflexivity|]. destruct l as [|[[? ?] ?] l]; [reflexivity|].
  simpl. do 3 f_equal. apply IHn.
Qed.
Lemma flat3_chunk {A} m i (l : list (A * A * A)) : chunk (m * 3) i (flat3 l) = flat3 (chunk m i l).
Proof. unfold chunk. now rewrite Nat.mul_assoc, flat3_skipn, flat3_firstn. Qed.
Lemma flat3_flat_map {A B} (f : B -> list (A * A * A)) l :
  flat3 (flat_map f l) = flat_map (fun x => flat3 (f x)) l.
Proof. induction l; simpl; auto. now rewrite flat3_app, IHl. Qed.
Lemma take_ax_lift3 {A} s : forall ax sel (l : list (A * A * A)), ax < length s ->
  take_ax (s ++ [3]) ax sel (flat3 l) = flat3 (take_ax s ax sel l).
Proof.
  induction s as [|n s IH]; intros ax sel l H; [simpl in H; lia|].
  destruct ax; cbn [app take_ax]; rewrite prodn_snoc, flat3_flat_map; apply flat_map_ext; intros i;
    rewrite flat3_chunk.
  - reflexivity.
  - apply IH. simpl in H. lia.
Qed.
Lemma upd_snoc {A} (s : list A) ax v x : ax < length s -> upd (s ++ [x]) ax v = upd s ax v ++ [x].
Proof.
  revert ax. induction s; intros ax H; simpl in H; [lia|]. destruct ax; simpl; auto.
  f_equal. apply IHs. lia.
Qed.
Lemma sl_lift3 {A} x y ax (a : arr (A * A * A)) : ax < length (fst a) ->
  sl x y ax (lift3 a) = lift3 (sl x y ax a).
Proof.
  intros H. unfold sl, lift3, take_shape. cbn [fst snd].
  rewrite app_nth1, upd_snoc, take_ax_lift3 by auto. reflexivity.
Qed.
Lemma ends_lift3 {A} ax (a : arr (A * A * A)) : ax < length (fst a) ->
  ends ax (lift3 a) = lift3 (ends ax a).
Proof.
  intros H. unfold ends, lift3, take_shape. cbn [fst snd].
  rewrite app_nth1, upd_snoc, take_ax_lift3 by auto. reflexivity.
Qed.
Lemma sl_dims {A} x y ax (a : arr A) : length (fst (sl x y ax a)) = length (fst a).
Proof.
  unfold sl, take_shape. simpl. generalize (length (slice_idx x y (nth ax (fst a) 0))). intros n.
  revert ax. induction (fst a); intros [|ax]; simpl; auto.
Qed.

(** The shape of the grid with its boundary layer never ends in 3. *)
Lemma fshape_cases g b : wf g -> exists s, get_fshape g b = Ok s /\ prodn s = get_n g b /\
  (get_D g = 3 -> length s = 3) /\
  (get_D g < 3 -> unify g = true -> length s = 3) /\
  (get_D g < 3 -> unify g = false -> length s = Nat.max 1 (get_D g)) /\
  (b = true -> last s 0 <> 3).
Proof.
  intros H. unfold get_fshape, get_n.
  assert (S : exists x y z, get_shape g b = [x; y; z] /\ (nx g = 1 -> x = 1) /\ (ny g = 1 -> y = 1) /\
    (nz g = 1 -> z = 1) /\ (b = true -> (1 < nx g -> 3 < x) /\ (1 < ny g -> 3 < y) /\ (1 < nz g -> 3 < z))).
  { destruct b.
    - rewrite get_shape_true by auto. eexists _, _, _. split; [reflexivity|].
      unfold pad. destruct (Nat.ltb_spec 1 (nx g)), (Nat.ltb_spec 1 (ny g)), (Nat.ltb_spec 1 (nz g));
        repeat split; intros; lia.
    - eexists _, _, _. split; [reflexivity|]. repeat split; auto; discriminate. }
  destruct S as (x & y & z & -> & S1 & S2 & S3 & S4).
  rewrite get_fdir_spec, get_D_spec by auto. unfold flow_axes.
  destruct H as (Hx & Hy & Hz).
  destruct (unify g); cases_flow g (conj Hx (conj Hy Hz)); cbn -[Nat.mul];
    (eexists; split; [reflexivity|]); repeat split; intros; cbn;
    try lia; try discriminate; auto;
    match goal with E : b = true |- _ => specialize (S4 E) end; lia.
Qed.

Lemma ispoints_fshape g s : wf g -> get_fshape g true = Ok s -> ispoints s = false.
Proof.
  intros H E. destruct (fshape_cases g true H) as (s' & E' & _ & _ & _ & _ & L).
  rewrite E in E'. injection E' as <-. unfold ispoints.
  destruct (Nat.eqb_spec (last s 0) 3); [exfalso; now apply L|]. apply andb_false_r.
Qed.
Lemma ispoints_snoc s : s <> [] -> ispoints (s ++ [3]) = true.
Proof.
  intros H. unfold ispoints. rewrite last_last, app_length. destruct s; [congruence|].
  simpl. replace (length s + 1) with (S (length s)) by lia. reflexivity.
Qed.
Lemma fshape_nonempty g b s : wf g -> get_fshape g b = Ok s -> s <> [].
Proof.
  intros H E. destruct (fshape_cases g b H) as (s' & E' & _ & L1 & L2 & L3 & _).
  rewrite E in E'. injection E' as <-. intros ->. cbn [length] in *.
  assert (D : get_D g <= 3).
  { rewrite get_D_spec. unfold flow_axes.
    destruct (1 <? nx g), (1 <? ny g), (1 <? nz g); simpl; lia. }
  destruct (Nat.eq_dec (get_D g) 3) as [E3|E3]; [specialize (L1 E3); lia|].
  destruct (unify g); [specialize (L2 ltac:(lia) eq_refl) | specialize (L3 ltac:(lia) eq_refl)]; lia.
Qed.

(** The sliced array before the final flattening. *)
Definition sliced {A} (g : grid) (lr : bool * bool) (a0 : arr A) : res (arr A) :=
  let cut ax a := sl (fst lr) (snd lr) ax a in
    if Nat.eqb (get_D g) 3 then Ok (cut 2 (cut 1 (cut 0 a0)))
    else if negb (unify g) then
      match get_D g with
      | 0 => Ok a0
      | 1 => Ok (cut 0 a0)
      | 2 => Ok (cut 1 (cut 0 a0))
      | _ => Err ValueError
      end
    else
      match get_fdir g with
      | [ADash] => Ok a0
      | [AX] => Ok (cut 2 a0)
      | [AY] => Ok (cut 1 a0)
      | [AZ] => Ok (cut 0 a0)
      | [AX; AY] => Ok (cut 2 (cut 1 a0))
      | [AX; AZ] => Ok (cut 2 (cut 0 a0))
      | [AY; AZ] => Ok (cut 1 (cut 0 a0))
      | _ => Err ValueError
      end.
Lemma remove_arr_eq {A} g (a : arr A) points remove :
  remove_boundaries_arr g a points remove =
  let p := points_arg points (fst a) in
  let* fs := get_fshape_p g true p in
  let* a0 := np_reshape fs a in
  let* lr := remove_mode remove in
  let* out := sliced g lr a0 in
  if negb (shape_eqb (fst a) fs) then (if p then np_reshape3 out else Ok (np_flatten out))
  else Ok out.
Proof. reflexivity. Qed.

Lemma sliced_lift3 {A} g lr (a : arr (A * A * A)) :
  wf g -> (exists b, get_fshape g b = Ok (fst a)) ->
  sliced g lr (lift3 a) = rmap lift3 (sliced g lr a).
Proof.
  intros H [b E]. destruct (fshape_cases g b H) as (s & E' & _ & L1 & L2 & L3 & _).
  rewrite E in E'. injection E' as E'. rewrite <- E' in *. clear E E' s.
  assert (D : get_D g <= 3).
  { rewrite get_D_spec. unfold flow_axes.
    destruct (1 <? nx g), (1 <? ny g), (1 <? nz g); simpl; lia. }
  unfold sliced. destruct (Nat.eqb_spec (get_D g) 3) as [E3|E3].
  - specialize (L1 E3). rewrite !sl_lift3 by (rewrite ?sl_dims; lia). reflexivity.
  - destruct (unify g) eqn:U; cbn [negb].
    + specialize (L2 ltac:(lia) eq_refl).
      destruct (get_fdir g) as [|[] [|[] [|? ?]]]; try reflexivity;
        rewrite ?sl_lift3 by (rewrite ?sl_dims; lia); reflexivity.
    + specialize (L3 ltac:(lia) eq_refl).
      destruct (get_D g) as [|[|[|n]]] eqn:ED; try reflexivity;
        rewrite ?sl_lift3 by (rewrite ?sl_dims; lia); reflexivity.
Qed.

Lemma remove_flat {A} g (d : list A) m s lr : get_fshape g true = Ok s -> length d = prodn s ->
  remove_mode m = Ok lr -> remove_boundaries g d m = rmap snd (sliced g lr (s, d)).
Proof.
  intros E L M. unfold remove_boundaries. rewrite E. cbn [rbind].
  rewrite reshape_ok by auto. cbn [rbind]. rewrite M. cbn [rbind]. unfold sliced.
  destruct (Nat.eqb (get_D g) 3); [reflexivity|].
  destruct (unify g); cbn [negb].
  - destruct (get_fdir g) as [|[] [|[] [|? ?]]]; reflexivity.
  - destruct (get_D g) as [|[|[|n]]]; reflexivity.
Qed.

(** Slicing off both ends gives the shape without boundaries. *)
Lemma sliced_shape {A} g (d : list A) s : wf g -> get_fshape g true = Ok s -> length d = prodn s ->
  forall out, sliced g (true, true) (s, d) = Ok out -> get_fshape g false = Ok (fst out).
Proof.
  intros H E L out. unfold get_fshape in *.
  change (get_shape g false) with [nx g; ny g; nz g].
  rewrite get_shape_true in E by auto. unfold sliced, pad in *.
  rewrite get_fdir_spec, get_D_spec in * by auto. unfold flow_axes in *.
  assert (P : forall n, length (slice_idx true true (n + 2)) = n)
    by (intros; unfold slice_idx; rewrite seq_length; lia).
  destruct (unify g); flow_split g H; cbn -[Nat.sub seq take_ax] in *; injection E as <-;
    intros [= <-]; cbn -[Nat.sub seq take_ax]; rewrite ?P; auto.
Qed.

Lemma shape_eqb_eq a b : shape_eqb a b = true <-> a = b.
Proof. unfold shape_eqb. destruct (list_eq_dec Nat.eq_dec a b); split; congruence. Qed.
Lemma shape_eqb_refl a : shape_eqb a a = true.
Proof. now apply shape_eqb_eq. Qed.
Lemma remove_mode_inv {A} g (d d' : list A) m : remove_boundaries g d m = Ok d' ->
  exists lr, remove_mode m = Ok lr.
Proof.
  unfold remove_boundaries. destruct (get_fshape g true); [|discriminate]. cbn [rbind].
  destruct (reshape a d); [|discriminate]. cbn [rbind].
  destruct (remove_mode m); [eauto|discriminate].
Qed.
Lemma remove_inv {A} g (d d' : list A) m : remove_boundaries g d m = Ok d' ->
  exists s lr out, get_fshape g true = Ok s /\ length d = prodn s /\ remove_mode m = Ok lr /\
    sliced g lr (s, d) = Ok out /\ snd out = d'.
Proof.
  intros E. destruct (remove_mode_inv _ _ _ _ E) as [lr M].
  destruct (get_fshape g true) as [s|] eqn:F; [|unfold remove_boundaries in E; now rewrite F in E].
  assert (L : length d = prodn s).
  { unfold remove_boundaries in E. rewrite F in E. cbn [rbind] in E. unfold reshape in E.
    destruct (Nat.eqb_spec (length d) (prodn s)); [auto|discriminate]. }
  rewrite (remove_flat g d m s lr) in E by auto.
  destruct (sliced g lr (s, d)) as [out|] eqn:O; [|discriminate]. injection E as E.
  exists s, lr, out. auto 6.
Qed.
Lemma np_reshape_ok {A} s t (d : list A) : length d = prodn s -> np_reshape s (t, d) = Ok (s, d).
Proof. intros H. unfold np_reshape. cbn [snd]. now rewrite reshape_ok. Qed.

(** ** remove_boundaries keeps the layout *)


Lemma take_ax_len {A} s : forall ax sel (l : list A), ax < length s -> length l = prodn s ->
  Forall (fun i => i < nth ax s 0) sel ->
  length (take_ax s ax sel l) = prodn (upd s ax (length sel)).
Proof.
  induction s as [|n s IH]; intros ax sel l H L F; [simpl in H; lia|].
  assert (C : forall i, i < n -> length (chunk (prodn s) i l) = prodn s).
  { intros i Hi. apply chunk_length. cbn in L. fold (prodn s) in L. nia. }
  destruct ax; cbn [take_ax upd nth length prodn fold_right] in *; fold (prodn s).
  - rewrite (@firstn_flat_map_chunk _ _ _ (prodn s)); auto.
    intros i Hi. apply C. rewrite Forall_forall in F. auto.
  - fold (prodn (upd s ax (length sel))).
    rewrite (@firstn_flat_map_chunk _ _ _ (prodn (upd s ax (length sel)))); [now rewrite seq_length|].
    intros i Hi. apply in_seq in Hi. apply IH; auto; [lia|]. apply C. lia.
Qed.
Lemma sl_sound {A} x y ax (a : arr A) : ax < length (fst a) -> sound a -> sound (sl x y ax a).
Proof.
  intros H S. unfold sound, sl, take_shape. cbn [fst snd]. apply take_ax_len; auto.
  apply slice_idx_lt.
Qed.
Lemma dims_cases g : get_D g <= 3.
Proof.
  rewrite get_D_spec. unfold flow_axes.
  destruct (1 <? nx g), (1 <? ny g), (1 <? nz g); simpl; lia.
Qed.
Lemma sliced_sound {A} g b lr (a out : arr A) : wf g -> get_fshape g b = Ok (fst a) -> sound a ->
  sliced g lr a = Ok out -> sound out /\ length (fst out) = length (fst a).
Proof.
  intros H E S. destruct (fshape_cases g b H) as (s & E' & _ & L1 & L2 & L3 & _).
  rewrite E in E'. injection E' as E'. rewrite <- E' in *. clear E E' s.
  pose proof (dims_cases g) as D.
  unfold sliced. destruct (Nat.eqb_spec (get_D g) 3) as [E3|E3].
  - specialize (L1 E3). intros [= <-]. split.
    + repeat (apply sl_sound; [rewrite ?sl_dims; lia|]). exact S.
    + now rewrite !sl_dims.
  - destruct (unify g) eqn:U; cbn [negb].
    + specialize (L2 ltac:(lia) eq_refl).
      destruct (get_fdir g) as [|[] [|[] [|? ?]]]; try discriminate; intros [= <-]; split;
        repeat (apply sl_sound; [rewrite ?sl_dims; lia|]); rewrite ?sl_dims; auto.
    + specialize (L3 ltac:(lia) eq_refl).
      destruct (get_D g) as [|[|[|n]]] eqn:ED; try discriminate; intros [= <-]; split;
        repeat (apply sl_sound; [rewrite ?sl_dims; lia|]); rewrite ?sl_dims; auto.
Qed.

Lemma div3 n : Nat.modulo (3 * n) 3 = 0 /\ Nat.div (3 * n) 3 = n.
Proof. rewrite Nat.mul_comm. split; [apply Nat.mod_mul | apply Nat.div_mul]; lia. Qed.
Lemma reshape3_flat3 {A} t (d : list (A * A * A)) :
  np_reshape3 (t, flat3 d) = Ok ([length d; 3], flat3 d).
Proof.
  unfold np_reshape3. cbn [snd]. rewrite flat3_length.
  destruct (div3 (length d)) as [-> ->]. reflexivity.
Qed.

Lemma remove_scalars {A} g (d d' : list A) m points (a : arr A) :
  wf g -> remove_boundaries g d m = Ok d' -> says false points -> laid_out g d a ->
  exists a', remove_boundaries_arr g a points m = Ok a' /\ snd a' = d' /\ sound a' /\
    (fst a = [length d] -> fst a' = [length d']) /\
    (get_fshape g true = Ok (fst a) -> length (fst a') = length (fst a) /\
       (m = "both"%string -> get_fshape g false = Ok (fst a'))).
Proof.
  intros H E P La. destruct (remove_inv _ _ _ _ E) as (s & lr & out & F & L & M & O & D').
  assert (NP : points_arg points (fst a) = false).
  { destruct P as [->| ->]; [|reflexivity]. unfold points_arg.
    destruct La as [->|(s' & Fs & ->)]; [reflexivity|]. cbn [fst]. eapply ispoints_fshape; eauto. }
  assert (Da : snd a = d) by (destruct La as [->|(s' & _ & ->)]; reflexivity).
  destruct (sliced_sound g true lr (s, d) out H F L O) as [So Dim].
  rewrite remove_arr_eq. rewrite NP. cbv zeta. unfold get_fshape_p. rewrite F. cbn [rmap rbind].
  replace (np_reshape s a) with (Ok (s, d)).
  2:{ unfold np_reshape. rewrite Da, reshape_ok by auto. reflexivity. }
  cbn [rbind]. rewrite M. cbn [rbind]. rewrite O. cbn [rbind].
  destruct (shape_eqb (fst a) s) eqn:Sh; cbn [negb].
  - apply shape_eqb_eq in Sh. exists out. split; [reflexivity|]. split; [auto|]. split; [auto|]. split.
    + intros Fa. assert (s = [length d]) as -> by congruence. cbn [fst length] in Dim.
      destruct (fst out) as [|k [|? ?]] eqn:Eo; try discriminate.
      unfold sound in So. rewrite Eo in So. cbn in So. rewrite <- D'. unfold arr in *. f_equal. lia.
    + intros Fa. split; [cbn [fst] in Dim; rewrite Dim; congruence|]. intros ->. injection M as <-.
      eapply sliced_shape; eauto.
  - exists (np_flatten out). split; [reflexivity|]. cbn [np_flatten snd fst]. split; [auto|].
    split; [unfold sound; cbn; lia|]. split.
    + intros _. congruence.
    + intros Fa. assert (fst a = s) by congruence. rewrite H0, shape_eqb_refl in Sh. discriminate.
Qed.

Lemma laid_out3_lift {A} g (d : list (A * A * A)) a s : get_fshape g true = Ok s -> length d = prodn s ->
  laid_out3 g d a -> np_reshape (s ++ [3]) a = Ok (lift3 (s, d)).
Proof.
  intros F L La. assert (Da : snd a = flat3 d) by (destruct La as [->|(s' & _ & ->)]; reflexivity).
  unfold np_reshape. rewrite Da, reshape_ok; [reflexivity|].
  rewrite flat3_length, prodn_snoc. lia.
Qed.
Lemma laid_out3_points {A} g (d : list (A * A * A)) a points : wf g -> laid_out3 g d a ->
  says true points -> points_arg points (fst a) = true.
Proof.
  intros H La [->| ->]; [|reflexivity]. unfold points_arg.
  destruct La as [->|(s' & Fs & ->)]; [reflexivity|]. cbn [fst]. apply ispoints_snoc.
  eapply fshape_nonempty; eauto.
Qed.
Lemma remove_points {A} g (d d' : list (A * A * A)) m points (a : arr A) :
  wf g -> remove_boundaries g d m = Ok d' -> says true points -> laid_out3 g d a ->
  exists a', remove_boundaries_arr g a points m = Ok a' /\ snd a' = flat3 d' /\ sound a' /\
    (fst a = [length d; 3] -> fst a' = [length d'; 3]) /\
    (get_fshape_p g true true = Ok (fst a) -> length (fst a') = length (fst a) /\
       (m = "both"%string -> get_fshape_p g false true = Ok (fst a'))).
Proof.
  intros H E P La. destruct (remove_inv _ _ _ _ E) as (s & lr & out & F & L & M & O & D').
  pose proof (laid_out3_points g d a points H La P) as NP.
  destruct (sliced_sound g true lr (s, d) out H F L O) as [So Dim].
  rewrite remove_arr_eq. rewrite NP. cbv zeta. unfold get_fshape_p. rewrite F. cbn [rmap rbind].
  rewrite (laid_out3_lift g d a s F L La). cbn [rbind]. rewrite M. cbn [rbind].
  rewrite sliced_lift3 by (cbn [fst]; eauto). rewrite O. cbn [rbind rmap].
  assert (Sd : sound (lift3 out)).
  { unfold sound, lift3. cbn [fst snd]. rewrite flat3_length, prodn_snoc. unfold sound in So. rewrite So. apply Nat.mul_comm. }
  destruct (shape_eqb (fst a) (s ++ [3])) eqn:Sh; cbn [negb].
  - apply shape_eqb_eq in Sh. exists (lift3 out). split; [reflexivity|].
    split; [unfold lift3; cbn [snd]; congruence|]. split; [auto|]. split.
    + intros Fa. assert (Es : s = [length d]).
      { destruct s as [|x [|y s]]; rewrite Fa in Sh; cbn in Sh; try discriminate.
        - injection Sh as <-. reflexivity.
        - injection Sh as _ _ Sh. destruct s; discriminate. }
      subst s. cbn [fst length] in Dim.
      unfold lift3. cbn [fst]. destruct (fst out) as [|k [|? ?]] eqn:Eo; try discriminate.
      unfold sound in So. rewrite Eo in So. cbn in So. cbn. rewrite <- D'. unfold arr in *. f_equal. lia.
    + intros Fa. split; [unfold lift3; cbn [fst]; rewrite Sh, !app_length; cbn [fst] in Dim; congruence|].
      intros ->. injection M as <-.
      rewrite (sliced_shape g d s H F L out O). reflexivity.
  - unfold lift3. rewrite reshape3_flat3. eexists. split; [reflexivity|]. cbn [fst snd].
    rewrite D'. split; [reflexivity|]. split; [unfold sound; cbn [fst snd prodn fold_right]; rewrite flat3_length; lia|].
    split; [auto|]. intros Fa. assert (fst a = s ++ [3]) by congruence.
    rewrite H0, shape_eqb_refl in Sh. discriminate.
Qed.

(** The wrong number of entries. *)
Lemma remove_bad {A} g (a : arr A) points m : wf g ->
  length (snd a) <> get_n g true * (if points_arg points (fst a) then 3 else 1) ->
  remove_boundaries_arr g a points m = Err ValueError.
Proof.
  intros H N. rewrite remove_arr_eq. cbv zeta.
  destruct (fshape_cases g true H) as (s & F & Pn & _). unfold get_fshape_p. rewrite F.
  cbn [rmap rbind]. unfold np_reshape, reshape.
  destruct (Nat.eqb_spec (length (snd a)) (prodn (if points_arg points (fst a) then s ++ [3] else s)))
    as [X|X]; [|reflexivity].
  exfalso. apply N. rewrite X. destruct (points_arg points (fst a)); rewrite ?prodn_snoc, Pn; lia.
Qed.

(** ** extract_boundaries *)
Lemma extract_inv {A} g (d d' : list A) : extract_raw g d = Ok d' ->
  exists s, get_fshape g true = Ok s /\ length d = prodn s.
Proof.
  unfold extract_raw. destruct (get_fshape g true) as [s|] eqn:F; [|discriminate]. cbn [rbind].
  unfold reshape. destruct (Nat.eqb_spec (length d) (prodn s)); [eauto|discriminate].
Qed.
Lemma extract_flat {A} g (d : list A) a s : get_fshape g true = Ok s -> length d = prodn s ->
  snd a = d -> extract_raw_arr g a false = extract_raw g d.
Proof.
  intros F L Da. unfold extract_raw_arr, get_fshape_p, extract_raw. rewrite F. cbn [rmap rbind].
  unfold np_reshape. rewrite Da, reshape_ok by auto. cbn [rmap rbind].
  destruct (Nat.eqb (get_D g) 3); [reflexivity|].
  destruct (unify g); cbn [negb].
  - destruct (get_fdir g) as [|[] [|[] [|? ?]]]; reflexivity.
  - destruct (get_D g) as [|[|[|n]]]; reflexivity.
Qed.
Lemma extract_lift {A} g (d : list (A * A * A)) a s : wf g -> get_fshape g true = Ok s ->
  length d = prodn s -> laid_out3 g d a -> extract_raw_arr g a true = rmap flat3 (extract_raw g d).
Proof.
  intros H F L La. unfold extract_raw_arr, get_fshape_p, extract_raw. rewrite F. cbn [rmap rbind].
  rewrite (laid_out3_lift g d a s F L La), reshape_ok by auto. cbn [rbind].
  destruct (fshape_cases g true H) as (s' & E' & _ & L1 & L2 & L3 & _).
  rewrite F in E'. injection E' as E'. rewrite <- E' in *. clear E' s'.
  pose proof (dims_cases g) as D.
  destruct (Nat.eqb_spec (get_D g) 3) as [E3|E3].
  - specialize (L1 E3).
    repeat first [ rewrite sl_lift3 by (rewrite ?sl_dims; cbn [fst]; lia)
                 | rewrite ends_lift3 by (rewrite ?sl_dims; cbn [fst]; lia) ].
    unfold lift3. cbn [snd rmap]. now rewrite !flat3_app.
  - destruct (unify g) eqn:U; cbn [negb].
    + specialize (L2 ltac:(lia) eq_refl).
      destruct (get_fdir g) as [|[] [|[] [|? ?]]]; try reflexivity;
      repeat first [ rewrite sl_lift3 by (rewrite ?sl_dims; cbn [fst]; lia)
                 | rewrite ends_lift3 by (rewrite ?sl_dims; cbn [fst]; lia) ];
      unfold lift3; cbn [snd rmap]; now rewrite ?flat3_app.
    + specialize (L3 ltac:(lia) eq_refl).
      destruct (get_D g) as [|[|[|n]]] eqn:ED; try reflexivity;
      repeat first [ rewrite sl_lift3 by (rewrite ?sl_dims; cbn [fst]; lia)
                 | rewrite ends_lift3 by (rewrite ?sl_dims; cbn [fst]; lia) ];
      unfold lift3; cbn [snd rmap]; now rewrite ?flat3_app.
Qed.

Lemma zeqb_ok x y : Z.eqb x y = true <-> x = y.
Proof. apply Z.eqb_eq. Qed.

Lemma extract_scalars g d d' points a fmt : wf g -> extract_boundaries_z g d = Ok d' ->
  says false points -> laid_out g d a ->
  shows fmt (map scal d') (extract_boundaries_f g a points fmt).
Proof.
  intros H E P La. unfold extract_boundaries_z in E.
  destruct (extract_raw g d) as [r|] eqn:R; [|discriminate]. injection E as E.
  destruct (extract_inv _ _ _ R) as (s & F & L).
  assert (NP : points_arg points (fst a) = false).
  { destruct P as [->| ->]; [|reflexivity]. unfold points_arg.
    destruct La as [->|(s' & Fs & ->)]; [reflexivity|]. cbn [fst]. eapply ispoints_fshape; eauto. }
  assert (Da : snd a = d) by (destruct La as [->|(s' & _ & ->)]; reflexivity).
  unfold extract_boundaries_f. rewrite NP. cbv zeta.
  rewrite (extract_flat g d a s F L Da), R. cbn [rbind]. unfold np_flatten. cbn [snd].
  rewrite E. apply reformat_flat, zeqb_ok.
Qed.
Lemma extract_points g (d d' : list coord) points a fmt : wf g ->
  extract_boundaries_pts g d = Ok d' -> says true points -> laid_out3 g d a ->
  shows fmt (map tri d') (extract_boundaries_f g a points fmt).
Proof.
  unfold coord in *. intros H E P La. unfold extract_boundaries_pts in E.
  destruct (extract_inv _ _ _ E) as (s & F & L).
  pose proof (laid_out3_points g d a points H La P) as NP.
  unfold extract_boundaries_f. rewrite NP. cbv zeta.
  rewrite (extract_lift g d a s H F L La), E. cbn [rbind rmap].
  rewrite reshape3_flat3. cbn [rbind]. apply reformat_points, zeqb_ok.
Qed.
