(** Proofs about the property arrays of a grid as objects. *)
From Coq Require Import String ZArith Bool Arith Lia List.
From Verif Require Import Prelude PreludeFacts Num GridModel GeoModel PropModel RefModel RefSpec.
Import ListNotations.

Lemma pname_eqb_spec a b : reflect (a = b) (pname_eqb a b).
Proof. destruct a, b; constructor; congruence. Qed.
Lemma fset_same {A} n (v : A) f : fset n v f n = v.
Proof. unfold fset. now destruct n. Qed.
Lemma fset_other {A} n m (v : A) f : m <> n -> fset n v f m = f m.
Proof. unfold fset. destruct (pname_eqb_spec m n); congruence. Qed.
Lemma nth_upd_eq {A} (l : list A) a b v : a < length l -> nth_error (upd l a v) b = if a =? b then Some v else nth_error l b.
Proof.
  revert a b. induction l as [|x l IH]; intros [|a] [|b] H; cbn in *; try lia; auto. apply IH. lia.
Qed.

Section refs.
Context {F : Type} {NF : Num F}.
Implicit Types (p : rprops F) (q : props F) (s : rprops F * res unit).
Definition owns p n a := r_cur p n = Some a \/ r_att p n = Some a \/ r_syn p n = Some a.
Record inv p : Prop := {
  i_len : forall n a, owns p n a -> a < length (r_heap p);
  i_apart : forall n m a, owns p n a -> owns p m a -> n = m;
  i_set : forall n a, r_att p n = Some a -> r_cur p n <> None;
  i_k : forall n, n <> PHI -> n <> ZED -> r_k p n = r_att p n }.
Definition view p n : prop F :=
  mkProp (of_props p n) (of_attr p n) (match r_cur p n, r_att p n with Some a, Some b => a =? b | _, _ => false end).
Definition rel p q := inv p /\ p_comp q = r_comp p /\ p_comp_type q = r_ctype p /\ forall n, pget n q = view p n.

Lemma pget_pput n m v q : pget m (pput n v q) = if pname_eqb m n then v else pget m q.
Proof. destruct q, n, m; reflexivity. Qed.
Lemma comp_pput n v q : p_comp (pput n v q) = p_comp q /\ p_comp_type (pput n v q) = p_comp_type q.
Proof. destruct q, n; auto. Qed.
Lemma deref_app h l a : match a with Some a => a < length h | None => True end -> deref (F := F) (h ++ [l]) a = deref h a.
Proof. destruct a; cbn; auto. intros H. now apply nth_error_app1. Qed.
Lemma deref_upd h a l b : a < length h -> b <> Some a -> deref (F := F) (upd h a l) b = deref h b.
Proof. destruct b as [b|]; cbn; auto. intros H N. rewrite nth_upd_eq by exact H. destruct (Nat.eqb_spec a b); congruence. Qed.

(** ** One property *)
Lemma set_prop_rel g p q n v r : rel p q ->
  rel (fst (rset_prop g p n v r)) (fst (set_prop g q n v r)) /\ snd (rset_prop g p n v r) = snd (set_prop g q n v r).
Proof.
  intros R. pose proof R as (I & C & Ct & V). destruct p as [h cu at_ k sy pe co ct]. unfold rset_prop, set_prop. destruct r as [r|].
  - rewrite (V n). unfold view, of_props, of_attr. cbn [r_cur r_att r_heap cur att linked r_comp r_ctype] in *.
    destruct (match r with ById id => get_cell_coords g id true | ByCoords c => Ok c end) as [c|e]; [|auto]. cbn [rbind].
    destruct (get_cell_icoords g c) as [ic|e]; [|auto]. cbn [rbind].
    destruct (cu n) as [a|] eqn:Ca; [|auto]. cbn [deref]. destruct (nth_error h a) as [l|] eqn:Ea; [|auto]. destruct v as [x|ls]; [|auto].
    destruct (flat_set l ic x) as [l'|e]; [|auto]. cbn [rbind fst snd]. split; [|reflexivity].
    assert (La : a < length h) by (apply nth_error_Some; congruence).
    assert (O : forall m b, m <> n -> owns (mkRef h cu at_ k sy pe co ct) m b -> b <> a).
    { intros m b Nm Ob ->. apply Nm, (i_apart _ I m n a Ob). left. exact Ca. }
    split; [constructor|]. { intros m b Ob. cbn. rewrite upd_length. exact (i_len _ I m b Ob). } { exact (i_apart _ I). } { exact (i_set _ I). } { exact (i_k _ I). }
    rewrite !(proj1 (comp_pput _ _ _)), !(proj2 (comp_pput _ _ _)). split; [exact C|]. split; [exact Ct|].
    intros m. rewrite pget_pput. destruct (pname_eqb_spec m n) as [->|Nm].
    + unfold view, of_props, of_attr. cbn [r_cur r_att r_heap]. rewrite Ca. cbn [deref]. rewrite nth_upd_eq, Nat.eqb_refl by exact La. f_equal.
      destruct (at_ n) as [b|]; [|reflexivity]. cbn [deref]. rewrite nth_upd_eq by exact La. now destruct (a =? b).
    + rewrite V. unfold view, of_props, of_attr. cbn [r_cur r_att r_heap]. f_equal; symmetry; apply deref_upd; auto.
      * intros E. exact (O m a Nm (or_introl E) eq_refl).
      * intros E. exact (O m a Nm (or_intror (or_introl E)) eq_refl).
  - destruct (bcast (get_n g true) v) as [l|e]; [|auto]. cbn [fst snd]. split; [|reflexivity].
    assert (O : forall m b, owns (mkRef (h ++ [l]) (fset n (Some (length h)) cu) at_ k sy pe co ct) m b -> (m = n /\ b = length h) \/ owns (mkRef h cu at_ k sy pe co ct) m b).
    { intros m b. unfold owns. cbn. unfold fset. destruct (pname_eqb_spec m n) as [->|]; [intros [[= <-]|H]; auto|auto]. }
    split; [constructor|].
    + intros m b Ob. cbn. rewrite app_length. cbn. destruct (O m b Ob) as [(-> & ->)|Ob']; [lia|]. pose proof (i_len _ I m b Ob'). cbn in *. lia.
    + intros m m' b O1 O2. destruct (O _ _ O1) as [(-> & ->)|O1'], (O _ _ O2) as [(-> & E)|O2']; auto.
      * pose proof (i_len _ I m' _ O2'). cbn in *. lia.
      * pose proof (i_len _ I m _ O1'). cbn in *. lia.
      * exact (i_apart _ I m m' b O1' O2').
    + intros m b. cbn. unfold fset. destruct (pname_eqb_spec m n); [discriminate|apply (i_set _ I)].
    + exact (i_k _ I).
    + rewrite !(proj1 (comp_pput _ _ _)), !(proj2 (comp_pput _ _ _)). split; [exact C|]. split; [exact Ct|].
      assert (B : forall m, deref (h ++ [l]) (at_ m) = deref h (at_ m)).
      { intros m. apply deref_app. destruct (at_ m) as [b|] eqn:Eb; [|exact Logic.I]. apply (i_len _ I m b). right. left. exact Eb. }
      intros m. rewrite pget_pput. unfold view, of_props, of_attr. cbn [r_cur r_att r_heap]. rewrite B. destruct (pname_eqb_spec m n) as [->|Nm].
      * rewrite fset_same. cbn [deref]. rewrite nth_error_app2, Nat.sub_diag by lia. cbn [nth_error]. rewrite (V n). cbn [att view of_attr r_heap r_att]. f_equal.
        destruct (at_ n) as [b|] eqn:Eb; [|reflexivity]. symmetry. apply Nat.eqb_neq. assert (b < length h) by (apply (i_len _ I n b); right; left; exact Eb). lia.
      * rewrite fset_other by exact Nm. rewrite V. unfold view, of_props, of_attr. cbn [r_cur r_att r_heap]. f_equal. symmetry. apply deref_app. destruct (cu m) as [b|] eqn:Eb; [|exact Logic.I]. apply (i_len _ I m b). left. exact Eb.
Qed.
Lemma link_rel p q n : rel p q -> r_cur p n <> None -> rel (rlink n p) (plink n q).
Proof.
  intros (I & C & Ct & V) S. destruct p as [h cu at_ k sy pe co ct]. unfold plink. cbn [rlink r_cur] in *.
  assert (O : forall m b, owns (mkRef h cu (fset n (cu n) at_) (match n with KX | KY | KZ => fset n (cu n) k | _ => k end) sy pe co ct) m b -> owns (mkRef h cu at_ k sy pe co ct) m b).
  { intros m b. unfold owns. cbn. unfold fset. destruct (pname_eqb_spec m n) as [->|]; intuition. }
  split; [constructor|].
  - intros m b Ob. exact (i_len _ I m b (O m b Ob)).
  - intros m m' b O1 O2. exact (i_apart _ I m m' b (O _ _ O1) (O _ _ O2)).
  - intros m b. cbn. unfold fset. destruct (pname_eqb_spec m n) as [->|]; [auto|apply (i_set _ I)].
  - intros m N1 N2. pose proof (i_k _ I m N1 N2) as K. cbn in *. unfold fset. destruct n, m; cbn; congruence.
  - rewrite !(proj1 (comp_pput _ _ _)), !(proj2 (comp_pput _ _ _)). split; [exact C|]. split; [exact Ct|].
    intros m. rewrite pget_pput. rewrite (V n). unfold view, of_props, of_attr. cbn [r_cur r_att r_heap cur]. destruct (pname_eqb_spec m n) as [->|Nm].
    + rewrite fset_same. f_equal. destruct (cu n); [now rewrite Nat.eqb_refl|congruence].
    + rewrite fset_other by exact Nm. apply V.
Qed.
Lemma rset_prop_cur g p n v r p' : rset_prop g p n v r = (p', Ok tt) -> r_cur p' n <> None.
Proof.
  destruct p as [h cu at_ k sy pe co ct]. unfold rset_prop. destruct r as [r|].
  - destruct (match r with ById id => get_cell_coords g id true | ByCoords c => Ok c end) as [c|e]; [|discriminate]. cbn [rbind].
    destruct (get_cell_icoords g c) as [ic|e]; [|discriminate]. cbn [rbind]. destruct (cu n) as [a|] eqn:Ca; [|discriminate]. destruct (nth_error h a); [|discriminate]. destruct v as [x|]; [|discriminate].
    destruct (flat_set l ic x); [|discriminate]. cbn. intros [= <-]. cbn. congruence.
  - destruct (bcast _ _); [|discriminate]. intros [= <-]. cbn. rewrite fset_same. discriminate.
Qed.
Definition rel2 (s : rprops F * res unit) (t : props F * res unit) : Prop := rel (fst s) (fst t) /\ snd s = snd t.
Lemma linked_rel g n v r s t : rel2 s t -> rel2 (rset_linked g n v r s) (set_linked g n v r t).
Proof.
  intros (R & E). destruct s as [p x], t as [q y]. cbn in *. subst y. destruct x as [[]|e]; [|split; auto]. destruct v as [v|]; [|split; auto]. cbn.
  destruct (set_prop_rel g p q n v r R) as (R' & E'). destruct (rset_prop g p n v r) as [p' x] eqn:Ep, (set_prop g q n v r) as [q' y]. cbn in *. subst y. destruct x as [[]|e]; [|split; auto].
  split; [|reflexivity]. cbn. apply link_rel; auto. exact (rset_prop_cur _ _ _ _ _ _ Ep).
Qed.
Lemma comp_rel c p q : rel p q -> rel2 (rset_comp p c) (set_comp q c).
Proof.
  intros (I & C & Ct & V). destruct p as [h cu at_ k sy pe co ct], q as [a b d e f x y]. split; [|reflexivity]. cbn. split; [destruct I; constructor; auto|]. cbn. split; [reflexivity|]. split; [reflexivity|].
  intros n. specialize (V n). destruct n; exact V.
Qed.
Lemma view_cur p q n : rel p q -> (cur (pget n q) = None <-> r_cur p n = None).
Proof.
  intros (I & _ & _ & V). rewrite V. cbn. unfold of_props. destruct (r_cur p n) as [a|] eqn:E; cbn; [|tauto]. split; [|discriminate]. intros N. apply nth_error_None in N. assert (a < length (r_heap p)) by (apply (i_len _ I n a); left; exact E). lia.
Qed.
Lemma set_props_rel g p q kx ky kz phi z comp r : rel p q -> rel2 (rset_props g p kx ky kz phi z comp r) (set_props g q kx ky kz phi z comp r).
Proof.
  intros R. unfold rset_props, set_props.
  assert (R0 : rel2 (p, Ok tt) (q, Ok tt)) by (split; auto).
  apply (linked_rel g KX kx r) in R0. apply (linked_rel g KY ky r) in R0. apply (linked_rel g KZ kz r) in R0. apply (linked_rel g PHI phi r) in R0. apply (linked_rel g ZED z r) in R0.
  revert R0. generalize (rset_linked g ZED z r (rset_linked g PHI phi r (rset_linked g KZ kz r (rset_linked g KY ky r (rset_linked g KX kx r (p, Ok tt)))))).
  generalize (set_linked g ZED z r (set_linked g PHI phi r (set_linked g KZ kz r (set_linked g KY ky r (set_linked g KX kx r (q, Ok tt)))))).
  intros t s R0.
  assert (R1 : rel2 (match s, comp with (p, Ok _), Some c => rset_comp p c | _, _ => s end) (match t, comp with (p, Ok _), Some c => set_comp p c | _, _ => t end)).
  { destruct s as [p1 x], t as [q1 y], R0 as (R0 & E). cbn in E. subst y. destruct x as [[]|e]; [|split; auto]. destruct comp as [c|]; [|split; auto]. now apply comp_rel. }
  revert R1. generalize (match s, comp with (p, Ok _), Some c => rset_comp p c | _, _ => s end) (match t, comp with (p, Ok _), Some c => set_comp p c | _, _ => t end). clear.
  intros s t R0.
  assert (R1 : rel2 (match s with (p, Ok _) => match r_cur p ZED with None => rset_linked g ZED (Some (Scalar n0)) None (p, Ok tt) | Some _ => s end | _ => s end)
                    (match t with (p, Ok _) => match cur (p_z p) with None => set_linked g ZED (Some (Scalar n0)) None (p, Ok tt) | Some _ => t end | _ => t end)).
  { destruct s as [p1 x], t as [q1 y]. pose proof R0 as (R1 & E). cbn in E. subst y. destruct x as [[]|e]; [|split; auto]. pose proof (view_cur p1 q1 ZED R1) as H. cbn [pget] in H.
    destruct (cur (p_z q1)), (r_cur p1 ZED); [exact R0|destruct H as (_ & H); now specialize (H eq_refl)|destruct H as (H & _); now specialize (H eq_refl)|]. apply linked_rel. split; auto. }
  revert R1. generalize (match s with (p, Ok _) => match r_cur p ZED with None => rset_linked g ZED (Some (Scalar n0)) None (p, Ok tt) | Some _ => s end | _ => s end)
                    (match t with (p, Ok _) => match cur (p_z p) with None => set_linked g ZED (Some (Scalar n0)) None (p, Ok tt) | Some _ => t end | _ => t end). clear.
  intros [p x] [q y] R. pose proof R as (R1 & E). cbn in E. subst y. destruct x as [[]|e]; [|exact R]. pose proof R1 as (_ & C & _). cbn [fst] in C, R1. rewrite C. destruct (r_comp p); [exact R|]. now apply comp_rel.
Qed.

(** ** Full names *)
Lemma name_inv n s : inv (fst s) -> inv (fst (rname n s)).
Proof.
  destruct s as [[h cu at_ k sy pe co ct] [[]|e]]; cbn; auto. intros I. destruct (at_ n) as [a|] eqn:Ea; [|exact I]. cbn.
  assert (O : forall m b, owns (mkRef h cu at_ k (fset n (Some a) sy) pe co ct) m b -> owns (mkRef h cu at_ k sy pe co ct) m b).
  { intros m b. unfold owns. cbn. unfold fset. destruct (pname_eqb_spec m n) as [->|]; [|tauto]. intros [H|[H|[= <-]]]; auto. }
  constructor; [intros m b Ob; exact (i_len _ I m b (O _ _ Ob))|intros m m' b O1 O2; exact (i_apart _ I m m' b (O _ _ O1) (O _ _ O2))|exact (i_set _ I)|exact (i_k _ I)].
Qed.
Definition same_but_names p p' := r_heap p' = r_heap p /\ r_cur p' = r_cur p /\ r_att p' = r_att p /\ r_k p' = r_k p /\ r_comp p' = r_comp p /\ r_ctype p' = r_ctype p.
Lemma name_same n s : same_but_names (fst s) (fst (rname n s)).
Proof. destruct s as [[h cu at_ k sy pe co ct] [[]|e]]; cbn; [destruct (at_ n)|]; repeat split. Qed.
Lemma perm_same s : same_but_names (fst s) (fst (rperm s)).
Proof. destruct s as [[h cu at_ k sy pe co ct] [[]|e]]; repeat split. Qed.
Lemma perm_inv s : inv (fst s) -> inv (fst (rperm s)).
Proof. destruct s as [[h cu at_ k sy pe co ct] [[]|e]]; cbn; auto. intros [A B C D]. constructor; auto. Qed.
Lemma same_trans a b c : same_but_names a b -> same_but_names b c -> same_but_names a c.
Proof. unfold same_but_names. intuition congruence. Qed.
Lemma allow_same p : same_but_names p (fst (rallow p)).
Proof. unfold rallow. repeat (eapply same_trans; [|apply name_same]). eapply same_trans; [|apply perm_same]. apply (name_same PHI (p, Ok tt)). Qed.
Lemma allow_inv p : inv p -> inv (fst (rallow p)).
Proof. intros I. unfold rallow. repeat apply name_inv. apply perm_inv, name_inv. exact I. Qed.
Lemma allow_rel p q : rel p q -> rel (fst (rallow p)) q.
Proof.
  intros (I & C & Ct & V). destruct (allow_same p) as (S1 & S2 & S3 & S4 & S5 & S6). split; [now apply allow_inv|]. rewrite S5, S6. split; [exact C|]. split; [exact Ct|]. intros n. unfold view, of_props, of_attr. rewrite S1, S2, S3. apply V.
Qed.
Lemma step_rel g p q o : rel p q -> rel (fst (rstep g p o)) (fst (pstep g q o)) /\ (is_allow o = false -> snd (rstep g p o) = snd (pstep g q o)).
Proof.
  intros R. destruct o as [kx ky kz phi z comp r|n v r|c|]; cbn [rstep pstep is_allow].
  - destruct (set_props_rel g p q kx ky kz phi z comp r R); auto.
  - destruct (set_prop_rel g p q n v r R); auto.
  - destruct (comp_rel c p q R); auto.
  - split; [now apply allow_rel|discriminate].
Qed.
Lemma run_rel g : forall l p q, rel p q -> rel (fst (rrun g p l)) (fst (prun g q l)) /\
  forall i o, nth_error l i = Some o -> is_allow o = false -> nth_error (snd (rrun g p l)) i = nth_error (snd (prun g q l)) i.
Proof.
  induction l as [|o l IH]; intros p q R; [split; [exact R|intros [|i] o; discriminate]|]. cbn [rrun prun]. destruct (step_rel g p q o R) as (R1 & E). destruct (rstep g p o) as [p1 x], (pstep g q o) as [q1 y]. cbn [fst snd] in *.
  destruct (IH p1 q1 R1) as (R2 & E2). destruct (rrun g p1 l) as [p2 xs], (prun g q1 l) as [q2 ys]. cbn [fst snd] in *. split; [exact R2|]. intros [|i] o' Ho A; cbn in *; [injection Ho as <-; rewrite E; auto|eauto].
Qed.
Lemma rel0 : rel ref0 props0.
Proof. split; [constructor; unfold owns; cbn; intuition discriminate|]. cbn. split; [reflexivity|]. split; [reflexivity|]. intros []; reflexivity. Qed.
Lemma run_inv g l : inv (fst (rrun g ref0 l)).
Proof. destruct (run_rel g l ref0 props0 rel0) as ((I & _) & _). exact I. Qed.
Lemma rrun_app g : forall l l' p, fst (rrun g p (l ++ l')) = fst (rrun g (fst (rrun g p l)) l').
Proof. induction l as [|o l IH]; intros l' p; cbn; [reflexivity|]. destruct (rstep g p o) as [p1 x]. specialize (IH l' p1). destruct (rrun g p1 l), (rrun g p1 (l ++ l')). exact IH. Qed.

Lemma name_when n s : snd (rname n s) = Ok tt <-> snd s = Ok tt /\ r_att (fst s) n <> None.
Proof. destruct s as [[h cu at_ k sy pe co ct] [[]|e]]; cbn; [destruct (at_ n); cbn|]; intuition (try discriminate; congruence). Qed.
Lemma perm_when s : snd (rperm s) = Ok tt <-> snd s = Ok tt.
Proof. destruct s as [[h cu at_ k sy pe co ct] [[]|e]]; cbn; tauto. Qed.
Lemma att_name n s m : r_att (fst (rname n s)) m = r_att (fst s) m.
Proof. destruct (name_same n s) as (_ & _ & -> & _). reflexivity. Qed.
Lemma att_perm s m : r_att (fst (rperm s)) m = r_att (fst s) m.
Proof. destruct (perm_same s) as (_ & _ & -> & _). reflexivity. Qed.
Lemma allow_when p : snd (rallow p) = Ok tt <-> forall n, r_att p n <> None.
Proof.
  unfold rallow. rewrite !name_when, perm_when, !name_when. repeat rewrite ?att_name, ?att_perm. cbn [fst snd]. split.
  - intros (((((_ & A) & B) & C) & D) & E). intros []; auto.
  - intros H. repeat split; auto.
Qed.
Lemma name_err n s : (snd s = Ok tt \/ snd s = Err AttributeError) -> snd (rname n s) = Ok tt \/ snd (rname n s) = Err AttributeError.
Proof. destruct s as [[h cu at_ k sy pe co ct] [[]|e]]; cbn; [destruct (at_ n); cbn; auto|auto]. Qed.
Lemma allow_err p : snd (rallow p) = Ok tt \/ snd (rallow p) = Err AttributeError.
Proof.
  unfold rallow. do 4 apply name_err. assert (H : snd (rname PHI (p, Ok tt)) = Ok tt \/ snd (rname PHI (p, Ok tt)) = Err AttributeError) by (apply name_err; cbn; auto).
  revert H. generalize (rname PHI (p, Ok tt)). intros [[h cu at_ k sy pe co ct] [[]|e]]; cbn; auto.
Qed.
Lemma syn_name n s m : snd (rname n s) = Ok tt -> r_syn (fst (rname n s)) m = if pname_eqb m n then r_att (fst s) n else r_syn (fst s) m.
Proof. destruct s as [[h cu at_ k sy pe co ct] [[]|e]]; cbn; [|discriminate]. destruct (at_ n) eqn:E; cbn; [|discriminate]. intros _. unfold fset. rewrite <- ?E. now destruct (pname_eqb m n). Qed.
Lemma syn_perm s m : r_syn (fst (rperm s)) m = r_syn (fst s) m.
Proof. destruct s as [[h cu at_ k sy pe co ct] [[]|e]]; reflexivity. Qed.
Lemma allow_syn p n : snd (rallow p) = Ok tt -> r_syn (fst (rallow p)) n = r_att p n.
Proof.
  intros H. unfold rallow in *. pose proof H as H1. apply name_when in H1 as (H1 & _). pose proof H1 as H2. apply name_when in H2 as (H2 & _). pose proof H2 as H3. apply name_when in H3 as (H3 & _). pose proof H3 as H4. apply name_when in H4 as (H4 & _). pose proof H4 as H5. apply (proj1 (perm_when _)) in H5.
  rewrite (syn_name ZED _ n H), (syn_name KZ _ n H1), (syn_name KY _ n H2), (syn_name KX _ n H3), syn_perm, (syn_name PHI _ n H5). repeat rewrite ?att_name, ?att_perm. now destruct n.
Qed.
Lemma name_perm n s : r_perm (fst (rname n s)) = r_perm (fst s).
Proof. destruct s as [[h cu at_ k sy pe co ct] [[]|e]]; cbn; [destruct (at_ n)|]; reflexivity. Qed.
Lemma allow_perm p : snd (rallow p) = Ok tt -> r_perm (fst (rallow p)) = true.
Proof.
  intros H. unfold rallow in *. pose proof H as H1. apply name_when in H1 as (H1 & _). apply name_when in H1 as (H1 & _). apply name_when in H1 as (H1 & _). apply name_when in H1 as (H1 & _). apply (proj1 (perm_when _)) in H1.
  rewrite !name_perm. revert H1. generalize (rname PHI (p, Ok tt)). intros [[h cu at_ k sy pe co ct] [[]|e]]; cbn; [reflexivity|discriminate].
Qed.

(** ** What a call leaves alone *)
(** Nothing about property n was changed: the same addresses, and the arrays there. *)
Definition kept n p p' := r_cur p' n = r_cur p n /\ r_att p' n = r_att p n.
Definition names_kept p p' := (forall n, r_syn p' n = r_syn p n) /\ r_perm p' = r_perm p.
(** Addresses n keeps its array object (its contents may change). *)
Lemma prop_kept g p m v r n : (m <> n \/ r <> None) -> kept n p (fst (rset_prop g p m v r)).
Proof.
  intros H. destruct p as [h cu at_ k sy pe co ct]. unfold rset_prop. destruct r as [r|].
  - match goal with |- context [match ?x with Ok _ => _ | Err _ => _ end] => destruct x as [[a l]|e] end; split; reflexivity.
  - destruct H as [H|H]; [|congruence]. destruct (bcast _ _); [|split; reflexivity]. split; cbn; [apply fset_other; congruence|reflexivity].
Qed.
Lemma prop_names g p m v r : names_kept p (fst (rset_prop g p m v r)).
Proof.
  destruct p as [h cu at_ k sy pe co ct]. unfold rset_prop. destruct r as [r|].
  - match goal with |- context [match ?x with Ok _ => _ | Err _ => _ end] => destruct x as [[a l]|e] end; split; reflexivity.
  - destruct (bcast _ _); split; reflexivity.
Qed.
(** The attribute n is the array of __props__, and it is this one. *)
Definition at_ n a p := r_cur p n = Some a /\ r_att p n = Some a.
Lemma kept_at n a p p' : kept n p p' -> at_ n a p -> at_ n a p'.
Proof. unfold kept, at_. intuition congruence. Qed.
Lemma link_at m n a p : at_ n a p -> at_ n a (rlink m p).
Proof. destruct p as [h cu at0 k sy pe co ct]. unfold at_. cbn. intros (E1 & E2). split; [exact E1|]. unfold fset. destruct (pname_eqb_spec n m) as [<-|]; auto. Qed.
Lemma link_names m p : names_kept p (rlink m p).
Proof. destruct p. split; reflexivity. Qed.
Definition good n a (p0 : rprops F) p := at_ n a p /\ names_kept p0 p.
Lemma names_trans a b c : names_kept a b -> names_kept b c -> names_kept a c.
Proof. intros (A & B) (C & D). split; [intros n; now rewrite C|congruence]. Qed.
Lemma linked_good g m v r n a (p0 : rprops F) s : (m <> n \/ r <> None \/ v = None) -> good n a p0 (fst s) -> good n a p0 (fst (rset_linked g m v r s)).
Proof.
  intros H (A & N). destruct s as [p [[]|e]]; cbn in *; [|split; auto]. destruct v as [v|]; [|split; auto].
  assert (K : kept n p (fst (rset_prop g p m v r))) by (apply prop_kept; destruct H as [H|[H|H]]; [auto|auto|discriminate]).
  pose proof (prop_names g p m v r) as N'. destruct (rset_prop g p m v r) as [p' [[]|e]]; cbn in *.
  - split; [apply link_at; eapply kept_at; eauto|]. eapply names_trans; [exact N|]. eapply names_trans; [exact N'|apply link_names].
  - split; [eapply kept_at; eauto|eapply names_trans; eauto].
Qed.
Lemma comp_good n a (p0 : rprops F) p c : good n a p0 p -> good n a p0 (fst (rset_comp p c)).
Proof. intros (A & N). destruct p. split; [exact A|exact N]. Qed.
Lemma props_good g p kx ky kz phi z comp r n a : at_ n a p -> replaces n (RSetProps kx ky kz phi z comp r) = false -> r_cur p ZED <> None -> good n a p (fst (rset_props g p kx ky kz phi z comp r)).
Proof.
  intros A R Z. unfold rset_props.
  assert (H : forall m v, v = match m with KX => kx | KY => ky | KZ => kz | PHI => phi | ZED => z end -> m <> n \/ r <> None \/ v = None).
  { intros m v ->. destruct r; [right; left; discriminate|]. cbn in R. destruct (pname_eqb_spec m n) as [->|]; [|auto]. right. right. destruct n; match goal with |- ?x = None => destruct x; [discriminate|reflexivity] end. }
  assert (G0 : good n a p (fst (p, Ok (A := unit) tt))) by (split; [exact A|split; reflexivity]).
  apply (linked_good g KX kx r n a p _ (H KX kx eq_refl)) in G0. apply (linked_good g KY ky r n a p _ (H KY ky eq_refl)) in G0. apply (linked_good g KZ kz r n a p _ (H KZ kz eq_refl)) in G0. apply (linked_good g PHI phi r n a p _ (H PHI phi eq_refl)) in G0. apply (linked_good g ZED z r n a p _ (H ZED z eq_refl)) in G0.
  revert G0. generalize (rset_linked g ZED z r (rset_linked g PHI phi r (rset_linked g KZ kz r (rset_linked g KY ky r (rset_linked g KX kx r (p, Ok tt)))))). intros s G0.
  assert (G1 : good n a p (fst (match s, comp with (p, Ok _), Some c => rset_comp p c | _, _ => s end))).
  { destruct s as [p1 [[]|e]]; auto. destruct comp; auto. now apply comp_good. }
  revert G1. generalize (match s, comp with (p, Ok _), Some c => rset_comp p c | _, _ => s end). clear s G0. intros s G0.
  assert (G1 : good n a p (fst (match s with (p, Ok _) => match r_cur p ZED with None => rset_linked g ZED (Some (Scalar n0)) None (p, Ok tt) | Some _ => s end | _ => s end))).
  { destruct s as [p1 [[]|e]]; auto. destruct (r_cur p1 ZED) eqn:E; auto. apply linked_good; [|exact G0]. left. intros <-. destruct G0 as ((G0 & _) & _). cbn in G0. congruence. }
  revert G1. generalize (match s with (p, Ok _) => match r_cur p ZED with None => rset_linked g ZED (Some (Scalar n0)) None (p, Ok tt) | Some _ => s end | _ => s end). clear s G0. intros [p1 [[]|e]] G0; auto. destruct (r_comp p1); auto. now apply comp_good.
Qed.
Lemma step_named g p o n a : at_ n a p -> r_syn p n = Some a -> replaces n o = false -> r_cur p ZED <> None -> at_ n a (fst (rstep g p o)) /\ r_syn (fst (rstep g p o)) n = Some a.
Proof.
  intros A S R Z. destruct o as [kx ky kz phi z comp r|m v r|c|]; cbn [rstep].
  - destruct (props_good g p kx ky kz phi z comp r n a A R Z) as (A' & N & _). rewrite N. auto.
  - assert (K : kept n p (fst (rset_prop g p m v r))). { apply prop_kept. destruct r; [right; discriminate|]. cbn in R. destruct (pname_eqb_spec m n); [discriminate|auto]. }
    split; [eapply kept_at; eauto|]. rewrite (proj1 (prop_names g p m v r)). exact S.
  - destruct p. auto.
  - destruct (allow_same p) as (_ & S2 & S3 & _). split; [unfold at_; rewrite S2, S3; exact A|].
    assert (G : forall s m, r_att (fst s) n = Some a -> r_syn (fst s) n = Some a -> r_syn (fst (rname m s)) n = Some a).
    { intros s m E1 E2. destruct s as [[h cu at0 k sy pe co ct] [[]|e]]; cbn in *; auto. destruct (at0 m) eqn:Em; cbn; auto. unfold fset. destruct (pname_eqb_spec n m) as [<-|]; congruence. }
    unfold rallow. repeat (apply G; [repeat rewrite ?att_name, ?att_perm; exact (proj2 A)|]). rewrite syn_perm. apply G; [exact (proj2 A)|exact S].
Qed.
Lemma zed_stays g p o : r_cur p ZED <> None -> r_cur (fst (rstep g p o)) ZED <> None.
Proof.
  intros Z.
  assert (P : forall p m v r, r_cur p ZED <> None -> r_cur (fst (rset_prop g p m v r)) ZED <> None).
  { clear. intros p m v r Z. destruct p as [h cu at0 k sy pe co ct]. unfold rset_prop. destruct r as [r|].
    - match goal with |- context [match ?x with Ok _ => _ | Err _ => _ end] => destruct x as [[a l]|e] end; exact Z.
    - destruct (bcast _ _); [|exact Z]. cbn. unfold fset. destruct (pname_eqb ZED m); [discriminate|exact Z]. }
  assert (L : forall m v r s, r_cur (fst s) ZED <> None -> r_cur (fst (rset_linked g m v r s)) ZED <> None).
  { intros m v r [p1 [[]|e]] Z1; cbn in *; auto. destruct v as [v|]; auto. specialize (P p1 m v r Z1). destruct (rset_prop g p1 m v r) as [p2 [[]|e]]; cbn in *; auto. now destruct p2. }
  assert (C : forall p1 c, r_cur p1 ZED <> None -> r_cur (fst (rset_comp p1 c)) ZED <> None) by (intros [] c; auto).
  destruct o as [kx ky kz phi z comp r|m v r|c|]; cbn [rstep]; auto.
  - unfold rset_props. assert (Z0 : r_cur (fst (p, Ok (A := unit) tt)) ZED <> None) by exact Z.
    apply (L KX kx r) in Z0. apply (L KY ky r) in Z0. apply (L KZ kz r) in Z0. apply (L PHI phi r) in Z0. apply (L ZED z r) in Z0. revert Z0.
    generalize (rset_linked g ZED z r (rset_linked g PHI phi r (rset_linked g KZ kz r (rset_linked g KY ky r (rset_linked g KX kx r (p, Ok tt)))))). intros s Z0.
    assert (Z1 : r_cur (fst (match s, comp with (p, Ok _), Some c => rset_comp p c | _, _ => s end)) ZED <> None) by (destruct s as [p1 [[]|e]]; auto; destruct comp; auto).
    revert Z1. generalize (match s, comp with (p, Ok _), Some c => rset_comp p c | _, _ => s end). intros [p1 [[]|e]] Z1; auto. cbn in Z1. destruct (r_cur p1 ZED) eqn:E; [|congruence]. destruct (r_comp p1); [cbn; congruence|]. apply C. congruence.
  - destruct (allow_same p) as (_ & -> & _). exact Z.
Qed.
Lemma run_named g n a : forall l p, at_ n a p -> r_syn p n = Some a -> (forall o, In o l -> replaces n o = false) -> r_cur p ZED <> None -> at_ n a (fst (rrun g p l)) /\ r_syn (fst (rrun g p l)) n = Some a.
Proof.
  induction l as [|o l IH]; intros p A S R Z; [auto|]. cbn [rrun]. destruct (step_named g p o n a A S (R o (or_introl eq_refl)) Z) as (A1 & S1). pose proof (zed_stays g p o Z) as Z1. destruct (rstep g p o) as [p1 x]. cbn [fst] in *.
  specialize (IH p1 A1 S1 (fun o H => R o (or_intror H)) Z1). destruct (rrun g p1 l). exact IH.
Qed.

(** Calls for all cells change no array. *)
Definition grows (h h' : list (list F)) := exists t, h' = h ++ t.
Lemma grows_refl h : grows h h. Proof. exists []. now rewrite app_nil_r. Qed.
Lemma grows_trans a b c : grows a b -> grows b c -> grows a c. Proof. intros (t & ->) (u & ->). exists (t ++ u). now rewrite app_assoc. Qed.
Lemma prop_grows g p m v : grows (r_heap p) (r_heap (fst (rset_prop g p m v None))).
Proof. destruct p. cbn. destruct (bcast _ _); cbn; [eexists; reflexivity|apply grows_refl]. Qed.
Lemma linked_grows g m v s : grows (r_heap (fst s)) (r_heap (fst (rset_linked g m v None s))).
Proof.
  destruct s as [p [[]|e]]; [|apply grows_refl]. destruct v as [v|]; [|apply grows_refl]. cbn. pose proof (prop_grows g p m v) as G. destruct (rset_prop g p m v None) as [p' [[]|e]]; [|exact G]. destruct p'. exact G.
Qed.
Lemma step_grows g p o : whole o = true -> grows (r_heap p) (r_heap (fst (rstep g p o))).
Proof.
  destruct o as [kx ky kz phi z comp [r|]|m v [r|]|c|]; cbn [whole rstep]; try discriminate; intros _.
  - unfold rset_props.
    assert (G0 : grows (r_heap p) (r_heap (fst (rset_linked g ZED z None (rset_linked g PHI phi None (rset_linked g KZ kz None (rset_linked g KY ky None (rset_linked g KX kx None (p, Ok tt)))))))))
      by (repeat (eapply grows_trans; [|apply linked_grows]); apply grows_refl).
    revert G0. generalize (rset_linked g ZED z None (rset_linked g PHI phi None (rset_linked g KZ kz None (rset_linked g KY ky None (rset_linked g KX kx None (p, Ok tt)))))). intros s G0.
    assert (C : forall p1 c, r_heap (fst (rset_comp p1 c)) = r_heap p1) by (intros [] c; reflexivity).
    assert (G1 : grows (r_heap p) (r_heap (fst (match s, comp with (p, Ok _), Some c => rset_comp p c | _, _ => s end)))) by (destruct s as [p1 [[]|e]]; auto; destruct comp; auto; rewrite C; exact G0).
    revert G1. generalize (match s, comp with (p, Ok _), Some c => rset_comp p c | _, _ => s end). clear s G0. intros s G0.
    assert (G1 : grows (r_heap p) (r_heap (fst (match s with (p, Ok _) => match r_cur p ZED with None => rset_linked g ZED (Some (Scalar n0)) None (p, Ok tt) | Some _ => s end | _ => s end)))).
    { destruct s as [p1 [[]|e]]; auto. destruct (r_cur p1 ZED); auto. eapply grows_trans; [exact G0|apply (linked_grows g ZED (Some (Scalar n0)) (p1, Ok tt))]. }
    revert G1. generalize (match s with (p, Ok _) => match r_cur p ZED with None => rset_linked g ZED (Some (Scalar n0)) None (p, Ok tt) | Some _ => s end | _ => s end). intros [p1 [[]|e]] G1; auto. destruct (r_comp p1); auto. rewrite C. exact G1.
  - apply prop_grows.
  - destruct p. apply grows_refl.
  - destruct (allow_same p) as (-> & _). apply grows_refl.
Qed.
(** A property that is not mentioned. *)
Lemma prop_alone g q m v r n : m <> n -> pget n (fst (set_prop g q m v r)) = pget n q.
Proof.
  intros N. unfold set_prop. destruct r as [r|].
  - match goal with |- context [match ?x with Ok _ => _ | Err _ => _ end] => destruct x as [l|e] end; cbn [fst]; [|reflexivity]. rewrite pget_pput. destruct (pname_eqb_spec n m); congruence.
  - destruct (bcast _ _); cbn [fst]; [|reflexivity]. rewrite pget_pput. destruct (pname_eqb_spec n m); congruence.
Qed.
Lemma linked_alone g m v r (t : props F * res unit) n : m <> n \/ v = None -> pget n (fst (set_linked g m v r t)) = pget n (fst t).
Proof.
  intros N. destruct t as [q [[]|e]]; [|reflexivity]. destruct v as [v|]; [|reflexivity]. destruct N as [N|]; [|discriminate]. cbn. pose proof (prop_alone g q m v r n N) as E. destruct (set_prop g q m v r) as [q' [[]|e]]; cbn in *; [|exact E].
  unfold plink. rewrite pget_pput. destruct (pname_eqb_spec n m); [congruence|exact E].
Qed.
Lemma comp_alone c q n : pget n (fst (set_comp q c)) = pget n q.
Proof. destruct q, n; reflexivity. Qed.
Lemma props_alone g q kx ky kz phi z comp r n : mentions n (RSetProps kx ky kz phi z comp r) = false -> (n = ZED -> cur (p_z q) <> None) -> pget n (fst (set_props g q kx ky kz phi z comp r)) = pget n q.
Proof.
  intros M Z. unfold set_props.
  assert (H : forall m v, v = match m with KX => kx | KY => ky | KZ => kz | PHI => phi | ZED => z end -> m <> n \/ v = None).
  { intros m v ->. cbn in M. destruct (pname_eqb_spec m n) as [->|]; [|auto]. right. destruct n; match goal with |- ?x = None => destruct x; [discriminate|reflexivity] end. }
  assert (E : pget n (fst (set_linked g ZED z r (set_linked g PHI phi r (set_linked g KZ kz r (set_linked g KY ky r (set_linked g KX kx r (q, Ok tt))))))) = pget n q)
    by (rewrite (linked_alone g ZED z r _ n (H ZED z eq_refl)), (linked_alone g PHI phi r _ n (H PHI phi eq_refl)), (linked_alone g KZ kz r _ n (H KZ kz eq_refl)), (linked_alone g KY ky r _ n (H KY ky eq_refl)), (linked_alone g KX kx r _ n (H KX kx eq_refl)); reflexivity).
  revert E. generalize (set_linked g ZED z r (set_linked g PHI phi r (set_linked g KZ kz r (set_linked g KY ky r (set_linked g KX kx r (q, Ok tt)))))). intros t E.
  assert (E1 : pget n (fst (match t, comp with (p, Ok _), Some c => set_comp p c | _, _ => t end)) = pget n q) by (destruct t as [q1 [[]|e]]; auto; destruct comp; auto; rewrite comp_alone; exact E).
  revert E1. generalize (match t, comp with (p, Ok _), Some c => set_comp p c | _, _ => t end). clear t E. intros t E.
  assert (E1 : pget n (fst (match t with (p, Ok _) => match cur (p_z p) with None => set_linked g ZED (Some (Scalar n0)) None (p, Ok tt) | Some _ => t end | _ => t end)) = pget n q).
  { destruct t as [q1 [[]|e]]; auto. destruct (cur (p_z q1)) eqn:Ez; auto. rewrite linked_alone; [exact E|]. left. intros <-. cbn in E. rewrite E in Ez. now apply Z. }
  revert E1. generalize (match t with (p, Ok _) => match cur (p_z p) with None => set_linked g ZED (Some (Scalar n0)) None (p, Ok tt) | Some _ => t end | _ => t end). clear t E. intros [q1 [[]|e]] E; auto. destruct (p_comp q1); auto. rewrite comp_alone. exact E.
Qed.
Lemma step_alone g p q o n : rel p q -> mentions n o = false -> (n = ZED -> of_props p ZED <> None) -> of_props (fst (rstep g p o)) n = of_props p n /\ of_attr (fst (rstep g p o)) n = of_attr p n.
Proof.
  intros R M Z. destruct (step_rel g p q o R) as ((_ & _ & _ & V') & _). destruct R as (_ & _ & _ & V). specialize (V' n).
  assert (E : pget n (fst (pstep g q o)) = pget n q).
  { destruct o as [kx ky kz phi z comp r|m v r|c|]; cbn [pstep].
    - apply props_alone; [exact M|]. intros En. specialize (V ZED). cbn [pget] in V. rewrite V. exact (Z En).
    - apply prop_alone. cbn in M. destruct (pname_eqb_spec m n); congruence.
    - apply comp_alone.
    - reflexivity. }
  rewrite E, V in V'. unfold view in V'. injection V' as E1 E2 _. auto.
Qed.
End refs.
