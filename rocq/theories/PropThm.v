(** Property lemmas about cell properties and geometry factors. *)
From Coq Require Import String ZArith Bool Arith List Lia Reals Lra QArith.
From Verif Require Import Prelude PreludeFacts Num GridModel GridSpec GridProofs GridNeighbors
  GeoModel GeoSpec TabFacts GeoProofs PropModel PropSpec PropProofs TransProofs MatrixProofs AgreeProofs.
Import ListNotations.
Close Scope R_scope.
Close Scope Q_scope.
Open Scope nat_scope.

(** ** Concrete grid objects for the examples *)
Definition mk_obj (G : geo R) (kx ky kz : list R) (T : R) : gobj R :=
  mkGobj G (mkProps (mkProp (Some kx) (Some kx) true) (mkProp (Some ky) (Some ky) true)
             (mkProp (Some kz) (Some kz) true) prop0 prop0 None None) T.
Lemma mk_rock G x y z u dx dy dz kx ky kz T :
  geo_new x y z u dx dy dz = Ok G ->
  positive_input dx -> positive_input dy -> positive_input dz -> (0 < T)%R ->
  (forall l, In l [kx; ky; kz] -> length l = get_n (mkGrid x y z u) true /\ Forall (fun v => 0 < v)%R l) ->
  rock (mk_obj G kx ky kz T) x y z u dx dy dz.
Proof.
  intros E Px Py Pz PT H. pose proof E as E'. apply geo_new_built in E'. pose proof (b_gr _ _ _ _ _ _ _ _ E') as Eg.
  constructor; auto.
  - intros a Fa. cbn [mk_obj geom]. rewrite Eg. unfold get_cells_k, get_prop. 
    destruct a; cbn [kname rbind prs mk_obj pget p_kx p_ky p_kz cur];
    try (eexists; split; [reflexivity|]; apply H; cbn; auto; fail). unfold flows in Fa. simpl in Fa. lia.
  - intros n l El. cbn [mk_obj geom]. rewrite Eg.
    destruct n; cbn [prs mk_obj pget p_kx p_ky p_kz p_phi p_z cur prop0] in El; inversion El; subst; apply H; cbn; auto.
Qed.
Definition konst (n : nat) : list R := repeat 1%R n.
Lemma konst_ok n : length (konst n) = n /\ Forall (fun v => 0 < v)%R (konst n).
Proof. unfold konst. split; [apply repeat_length|]. apply Forall_forall. intros v Hv. apply repeat_spec in Hv. subst. lra. Qed.
Lemma a_rock x y z u : 1 <= x -> 1 <= y -> 1 <= z -> exists o, rock o x y z u (Scalar 1%R) (Scalar 1%R) (Scalar 1%R) /\
  gr (geom o) = mkGrid x y z u.
Proof.
  intros. destruct (geo_new_ok x y z u (Scalar 1%R) (Scalar 1%R) (Scalar 1%R)) as (G & E); try exact I; auto.
  set (kk := konst (get_n (mkGrid x y z u) true)).
  exists (mk_obj G kk kk kk 1%R). split.
  - apply mk_rock; auto; cbn [positive_input]; try lra. intros l [<-|[<-|[<-|[]]]]; apply konst_ok.
  - cbn [mk_obj geom]. apply geo_new_built in E. apply (b_gr _ _ _ _ _ _ _ _ E).
Qed.

(** ** C04: no geometry-factor matrix on a single cell *)
(** C04: on a grid without flow direction get_cells_G raises UnboundLocalError. *)
Lemma L_C04_factor_matrix_refuted :
  (forall (o : gobj R) b, ~ has_flow (gr (geom o)) -> get_cells_G o b = Err UnboundLocalError) /\
  exists o : gobj R, exists x y z u dx dy dz, rock o x y z u dx dy dz /\ ~ has_flow (gr (geom o)) /\
    get_cells_G o false = Err UnboundLocalError.
Proof.
  assert (A : forall (o : gobj R) b, ~ has_flow (gr (geom o)) -> get_cells_G o b = Err UnboundLocalError).
  { intros o b N. unfold get_cells_G, get_cells_G_with, ggrid. rewrite get_D_spec. unfold flow_axes, has_flow, flows in *. cbn [size] in *.
    destruct (Nat.ltb_spec 1 (nx (gr (geom o)))); [lia|]. destruct (Nat.ltb_spec 1 (ny (gr (geom o)))); [lia|].
    destruct (Nat.ltb_spec 1 (nz (gr (geom o)))); [lia|]. reflexivity. }
  split; auto. destruct (a_rock 1 1 1 true) as (o & K & Eg); auto.
  exists o. do 7 eexists. split; [exact K|].
  assert (N : ~ has_flow (gr (geom o))).
  { rewrite Eg. unfold has_flow, flows. simpl. lia. }
  split; auto.
Qed.

(** ** C17 *)
Definition same_but (n : pname) {F} (p p' : props F) : Prop :=
  forall n', n' <> n -> cur (pget n' p) <> None -> pget n' p' = pget n' p.
Lemma pget_pput_same {F} n (v : prop F) p : pget n (pput n v p) = v.
Proof. destruct p, n; reflexivity. Qed.
Lemma pget_pput_other {F} n n' (v : prop F) p : n' <> n -> pget n' (pput n v p) = pget n' p.
Proof. destruct p, n, n'; intros; try congruence; reflexivity. Qed.
Lemma pget_plink {F} n (p : props F) : pget n (plink n p) = mkProp (cur (pget n p)) (cur (pget n p)) true.
Proof. unfold plink. now rewrite pget_pput_same. Qed.
Lemma pget_plink_other {F} n n' (p : props F) : n' <> n -> pget n' (plink n p) = pget n' p.
Proof. intros. unfold plink. now rewrite pget_pput_other. Qed.
Lemma pget_set_comp {F} {NF : Num F} n (p : props F) c : pget n (fst (set_comp p c)) = pget n p.
Proof. destruct p, n; reflexivity. Qed.

(** The tail of set_props after the given properties were set. *)
Definition tail_props {F} {NF : Num F} (g : grid) (p : props F) : props F * res unit :=
  let s := match cur (p_z p) with
           | None => set_linked g ZED (Some (Scalar n0)) None (p, Ok tt)
           | Some _ => (p, Ok tt)
           end in
  match s with
  | (p, Ok _) => match p_comp p with None => set_comp p n0 | Some _ => s end
  | _ => s
  end.
Lemma set_linked_none {F} {NF : Num F} (g : grid) n r (s : props F * res unit) : set_linked g n None r s = s.
Proof. unfold set_linked. destruct s as [p [?|?]]; reflexivity. Qed.
Lemma set_one_eq {F} {NF : Num F} (g : grid) (p : props F) n v r :
  set_one g p n v r = match set_linked g n (Some v) r (p, Ok tt) with
                      | (p', Ok _) => tail_props g p'
                      | x => x
                      end.
Proof.
  unfold set_one, set_props. destruct n; cbn [only]; rewrite !set_linked_none;
  match goal with |- context [set_linked g ?m (Some v) r (p, Ok tt)] =>
    destruct (set_linked g m (Some v) r (p, Ok tt)) as [p' [[]|e]] end; reflexivity.
Qed.

Lemma tail_ok (g : grid) (p : props R) : exists p', tail_props g p = (p', Ok tt) /\
  forall n, cur (pget n p) <> None -> pget n p' = pget n p.
Proof.
  assert (C : forall q : props R, exists q', (match p_comp q with None => set_comp q n0 | Some _ => (q, Ok tt) end) = (q', Ok tt)
     /\ forall n, pget n q' = pget n q).
  { intros q. destruct (p_comp q); [eauto|]. unfold set_comp. destruct q.
    assert (E0 : comp_class (F:=R) n0 = (Some "incompressible"%string, Ok tt)).
    { unfold comp_class. cbn [neqb Num_R]. assert (H : Reqb n0 n0 = true) by now apply Reqb_true. now rewrite H. }
    rewrite E0. cbn [fst snd]. eexists. split; [reflexivity|]. intros []; reflexivity. }
  unfold tail_props. destruct (cur (p_z p)) eqn:Z.
  - destruct (C p) as (q & E & H). exists q. split; auto.
  - cbn [set_linked set_prop]. unfold bcast. cbn [rbind].
    match goal with |- context [plink ZED ?q] => destruct (C (plink ZED q)) as (q' & E & H) end.
    exists q'. split; [exact E|]. intros n Hn. rewrite H.
    assert (n <> ZED) by (intros ->; cbn [pget] in Hn; congruence).
    rewrite pget_plink_other, pget_pput_other; auto.
Qed.

(** C17: with unify=False and at most one flow direction, setting a property of
    a cell whose flow coordinate is not zero changes that cell only, and the
    attributes show it. *)
Lemma L_C17_set_one_cell_partial :
  forall (g : grid) (p : props R) n v c r l,
  wf g -> unify g = false -> at_most_1d g -> in_grid g c -> positive_coords g c ->
  cur (pget n p) = Some l -> length l = get_n g true ->
  r = ById (natural_id g c) \/ r = ByCoords c ->
  exists p' l', set_one g p n (Scalar v) (Some r) = (p', Ok tt) /\
    cur (pget n p') = Some l' /\ att (pget n p') = Some l' /\ length l' = length l /\
    nth_error l' (Z.to_nat (natural_id g c)) = Some v /\
    (forall i, i <> Z.to_nat (natural_id g c) -> nth_error l' i = nth_error l i) /\
    forall n', n' <> n -> cur (pget n' p) <> None -> pget n' p' = pget n' p.
Proof.
  intros g p n v c r l W U D1 I P El L Hr. rewrite set_one_eq.
  assert (E : exists ic, get_cell_icoords g c = Ok ic /\ exists l', flat_set l ic v = Ok l' /\ length l' = length l /\
    nth_error l' (Z.to_nat (natural_id g c)) = Some v /\
    (forall i, i <> Z.to_nat (natural_id g c) -> nth_error l' i = nth_error l i)).
  { rewrite icoords_in, U by auto. pose proof I as I0. apply in_grid_zc in I as (i & j & k & -> & Hi & Hj & Hk).
    rewrite natural_idx, Nat2Z.id in *. unfold zc. cbn [negb andb].
    pose proof (D1 AX AY) as Q1. pose proof (D1 AX AZ) as Q2. pose proof (D1 AY AZ) as Q3.
    pose proof (P AX) as P1. pose proof (P AY) as P2. pose proof (P AZ) as P3.
    pose proof (idx_lt g i j k Hi Hj Hk) as Lt. rewrite get_n_true in L by auto.
    unfold idx in *. unfold pad in *. unfold flows, zc in *. cbn [size at_axis] in *.
    rewrite get_D_spec. unfold flow_axes. destruct W as (?&?&?).
    assert (UPD : forall m, m = i \/ True -> m < length l -> exists l', pyset l (Z.of_nat m) v = Ok l' /\ length l' = length l /\
       nth_error l' m = Some v /\ forall q, q <> m -> nth_error l' q = nth_error l q).
    { intros m _ Hm. rewrite pyset_nat by auto. eexists. split; [reflexivity|]. rewrite upd_length. split; auto.
      assert (Nm : forall q, nth_error (upd l m v) q = if q =? m then Some v else nth_error l q).
      { intros q. destruct (lt_dec q (length l)) as [Hq|Hq].
        - rewrite (nth_error_nth' _ v) by (rewrite upd_length; auto). rewrite (nth_error_nth' l v Hq).
          destruct (Nat.eqb_spec q m); [subst; f_equal; now apply nth_upd_same | f_equal; apply nth_upd_other; congruence].
        - destruct (Nat.eqb_spec q m); [lia|]. rewrite !(proj2 (nth_error_None _ _)); auto; rewrite ?upd_length; lia. }
      split; [rewrite Nm, Nat.eqb_refl; auto|]. intros q Hq. rewrite Nm. apply Nat.eqb_neq in Hq. now rewrite Hq. }
    destruct (Nat.ltb_spec 1 (nx g)), (Nat.ltb_spec 1 (ny g)), (Nat.ltb_spec 1 (nz g));
      try (exfalso; first [assert (X : AX = AY) by auto; discriminate X | assert (X : AX = AZ) by auto; discriminate X | assert (X : AY = AZ) by auto; discriminate X]).
    - assert (Ej : j = 0) by lia. assert (Ek : k = 0) by lia. subst j k. rewrite Nat.mul_0_r, Nat.mul_0_r, Nat.add_0_r in *.
      destruct i; [lia|]. cbn [length app filter Z.of_nat Z.ltb Z.compare Nat.leb passert rbind Nat.eqb].
      eexists. split; [reflexivity|]. cbn [flat_set]. apply (UPD (S i)); auto. rewrite L; auto.
    - assert (Ei : i = 0) by lia. assert (Ek : k = 0) by lia. subst i k.
      replace (nx g) with 1 in * by lia. replace (0 + 1 * (j + (ny g + 2) * 0)) with j in * by lia.
      destruct j; [lia|]. cbn [length app filter Z.of_nat Z.ltb Z.compare Nat.leb passert rbind Nat.eqb].
      eexists. split; [reflexivity|]. cbn [flat_set]. apply (UPD (S j)); auto. rewrite L; auto.
    - assert (Ei : i = 0) by lia. assert (Ej : j = 0) by lia. subst i j.
      replace (nx g) with 1 in * by lia. replace (ny g) with 1 in * by lia.
      replace (0 + 1 * (0 + 1 * k)) with k in * by lia.
      destruct k; [lia|]. cbn [length app filter Z.of_nat Z.ltb Z.compare Nat.leb passert rbind Nat.eqb].
      eexists. split; [reflexivity|]. cbn [flat_set]. apply (UPD (S k)); auto. rewrite L; auto.
    - assert (i = 0) by lia. assert (j = 0) by lia. assert (k = 0) by lia. subst.
      cbn [length app filter Z.of_nat Z.ltb Z.compare Nat.leb passert rbind Nat.eqb].
      eexists. split; [reflexivity|]. cbn [flat_set].
      replace (nx g) with 1 in * by lia. replace (ny g) with 1 in * by lia. replace (nz g) with 1 in * by lia.
      destruct l as [|a [|]]; cbn in L; try lia. cbn [map]. eexists. split; [reflexivity|]. cbn. repeat split; auto.
      intros [|[|]] H'; auto; lia. }
  destruct E as (ic & Eic & l' & Ef & L' & Hv & Ho).
  assert (Es : set_linked g n (Some (Scalar v)) (Some r) (p, Ok tt) =
     (plink n (pput n (mkProp (Some l') (if linked (pget n p) then Some l' else att (pget n p)) (linked (pget n p))) p), Ok tt)).
  { unfold set_linked, set_prop.
    assert (Ec : (match r with ById id => get_cell_coords g id true | ByCoords c => Ok c end) = Ok c).
    { destruct Hr; subst r; auto. now apply cell_coords_natural. }
    rewrite Ec. cbn [rbind]. rewrite Eic. cbn [rbind]. rewrite El, Ef. reflexivity. }
  rewrite Es. destruct (tail_ok g (plink n (pput n (mkProp (Some l') (if linked (pget n p) then Some l' else att (pget n p)) (linked (pget n p))) p)))
    as (p' & E' & Hp). exists p', l'. split; auto.
  assert (En : pget n p' = mkProp (Some l') (Some l') true).
  { rewrite Hp; rewrite pget_plink, pget_pput_same; cbn [cur]; auto; discriminate. }
  rewrite En. cbn [cur att]. repeat split; auto.
  intros n' Hn Hc. rewrite Hp; rewrite pget_plink_other, pget_pput_other; auto.
Qed.
Example ex_C17_case :
  let g := mkGrid 4 1 1 false in let l := [1;2;3;4;5;6]%R in
  let p := pput KX (mkProp (Some l) (Some l) true) props0 in
  wf g /\ unify g = false /\ at_most_1d g /\ in_grid g (2, 0, 0)%Z /\ positive_coords g (2, 0, 0)%Z /\
  cur (pget KX p) = Some l /\ length l = get_n g true.
Proof.
  cbv zeta. split; [repeat split; simpl; lia|]. split; auto. split; [|split; [|split; [|split]]].
  - intros a b. unfold flows. destruct a, b; simpl; auto; lia.
  - intros a Ha. destruct a; try congruence; unfold padded; simpl; lia.
  - intros a. unfold flows. destruct a; simpl; lia.
  - reflexivity.
  - reflexivity.
Qed.

Lemma set_one_fails g (p : props R) n v r : wf g -> unify g = true \/ at_least_2d g ->
  exists e, set_one g p n v (Some r) = (p, Err e).
Proof.
  intros W H. rewrite set_one_eq.
  assert (E : exists e, set_prop g p n v (Some r) = (p, Err e)).
  { unfold set_prop.
    destruct (match r with ById id => get_cell_coords g id true | ByCoords c => Ok c end) as [c|e]; [|cbn [rbind]; eauto].
    cbn [rbind]. unfold get_cell_icoords. destruct (cells_coords_mem g true W) as (cs & -> & _). cbn [rbind].
    destruct (cmem c cs); cbn [passert rbind]; [|eauto]. destruct c as [[i j] k].
    assert (T : forall ic : list Z, 2 <= length ic -> exists e, 
      match (match cur (pget n p) with
        | None => Err TypeError
        | Some l => match v with Scalar a => flat_set l ic a | Vec _ => Err ValueError end
        end) with
      | Ok l => (pput n (mkProp (Some l) (if linked (pget n p) then Some l else att (pget n p)) (linked (pget n p))) p, Ok tt)
      | Err e => (p, Err e)
      end = (p, Err e)).
    { intros ic Hic. destruct (cur (pget n p)); [|eauto]. destruct v; [|eauto].
      destruct ic as [|a [|b ic]]; cbn [length] in Hic; try lia. cbn [flat_set]. eauto. }
    destruct (negb (unify g) && (get_D g <=? 2)) eqn:Q.
    - destruct H as [H|(a & b & Fa & Fb & Ne)]; [rewrite H in Q; discriminate|].
      assert (D : 2 <= get_D g).
      { rewrite get_D_spec. unfold flow_axes, flows in *. 
        destruct (Nat.ltb_spec 1 (nx g)), (Nat.ltb_spec 1 (ny g)), (Nat.ltb_spec 1 (nz g)); cbn; try lia;
        destruct a, b; cbn [size] in *; try lia; congruence. }
      set (ic := filter (fun x => (0 <? x)%Z) [k; j; i]).
      destruct (Nat.eqb_spec (length ic) (get_D g)); cbn [passert rbind]; [|eauto].
      apply T. lia.
    - cbn [rbind]. apply T. simpl. lia. }
  destruct E as (e & E). exists e. unfold set_linked. rewrite E. reflexivity.
Qed.
(** C17 is false with unify=True and in 2D and 3D: setting a property of one
    cell always raises, and changes nothing. *)
Lemma L_C17_rejected :
  forall (g : grid) (p : props R) n v r,
  wf g -> unify g = true \/ at_least_2d g ->
  exists e, set_one g p n v (Some r) = (p, Err e).
Proof. intros g p n v r. apply set_one_fails. Qed.
Lemma L_C17_set_one_cell_refuted :
  exists (g : grid) (p : props R) l c,
  wf g /\ cur (pget KX p) = Some l /\ length l = get_n g true /\ interior g c /\
  forall v r, r = ById (natural_id g c) \/ r = ByCoords c ->
    exists e, set_one g p KX (Scalar v) (Some r) = (p, Err e).
Proof.
  exists (mkGrid 2 1 1 true).
  exists (pput KX (mkProp (Some [1;1;1;1]%R) (Some [1;1;1;1]%R) true) props0), [1;1;1;1]%R, (1, 0, 0)%Z.
  assert (W : wf (mkGrid 2 1 1 true)) by (repeat split; simpl; lia).
  split; auto. split; [reflexivity|]. split; [reflexivity|]. split.
  - intros a Ha. unfold flows. destruct a; try congruence; simpl; [left|right|right]; lia.
  - intros v r _. apply set_one_fails; auto.
Qed.
Example ex_C17_rejected_case : wf (mkGrid 2 2 1 false) /\ at_least_2d (mkGrid 2 2 1 false).
Proof. split; [repeat split; simpl; lia|]. exists AX, AY. unfold flows. simpl. repeat split; try lia. congruence. Qed.

(** ** C80 *)
Definition good {F} (q : prop F) : Prop := att q = cur q /\ (cur q <> None -> linked q = true).
Lemma good_set_linked {F} {NF : Num F} g n v r (s : props F * res unit) :
  (forall m, good (pget m (fst s))) -> forall m, good (pget m (fst (set_linked g n v r s))).
Proof.
  intros H m. unfold set_linked. destruct s as [p [?|?]]; auto. destruct v as [v|]; auto.
  cbn [fst] in H.
  assert (Q : (exists e, set_prop g p n v r = (p, Err e)) \/
     exists q, cur q <> None /\ set_prop g p n v r = (pput n q p, Ok tt)).
  { unfold set_prop. destruct r as [r|].
    - match goal with |- context [match ?x with Ok l => (pput n _ p, _) | Err e => (p, Err e) end] => destruct x end; [right|left]; eauto.
      eexists. split; [|reflexivity]. discriminate.
    - destruct (bcast _ v); [right|left]; eauto. eexists. split; [|reflexivity]. discriminate. }
  destruct Q as [(e & ->)|(q & Hq & ->)]; cbn [fst]; auto.
  assert (D : m = n \/ m <> n) by (destruct m, n; first [left; reflexivity | right; discriminate]).
  destruct D as [->|D].
  - rewrite pget_plink, pget_pput_same. split; auto.
  - rewrite pget_plink_other, pget_pput_other; auto.
Qed.
Lemma good_set_comp {F} {NF : Num F} (p : props F) c : (forall m, good (pget m p)) -> forall m, good (pget m (fst (set_comp p c))).
Proof. intros H m. rewrite pget_set_comp. auto. Qed.
Lemma good_set_props {F} {NF : Num F} g (p : props F) kx ky kz phi z c r : (forall m, good (pget m p)) ->
  forall m, good (pget m (fst (set_props g p kx ky kz phi z c r))).
Proof.
  intros H. unfold set_props.
  assert (H5 := good_set_linked g ZED z r _ (good_set_linked g PHI phi r _ (good_set_linked g KZ kz r _
    (good_set_linked g KY ky r _ (good_set_linked g KX kx r (p, Ok tt) H))))).
  destruct (set_linked g ZED z r _) as [p5 [[]|e]]; cbn [fst] in H5; [|exact H5].
  assert (H6 : forall m, good (pget m (fst (match c with Some c => set_comp p5 c | None => (p5, Ok tt) end)))).
  { destruct c; auto using good_set_comp. }
  destruct c as [c|].
  - destruct (set_comp p5 c) as [p6 [[]|e]]; cbn [fst] in H6; [|exact H6].
    assert (H7 : forall m, good (pget m (fst (match cur (p_z p6) with None => set_linked g ZED (Some (Scalar n0)) None (p6, Ok tt) | Some _ => (p6, Ok tt) end)))).
    { destruct (cur (p_z p6)); auto. apply good_set_linked. auto. }
    destruct (match cur (p_z p6) with None => _ | Some _ => _ end) as [p7 [[]|e]]; cbn [fst] in H7; auto.
    destruct (p_comp p7); auto using good_set_comp.
  - assert (H7 : forall m, good (pget m (fst (match cur (p_z p5) with None => set_linked g ZED (Some (Scalar n0)) None (p5, Ok tt) | Some _ => (p5, Ok tt) end)))).
    { destruct (cur (p_z p5)); auto. apply good_set_linked. auto. }
    destruct (match cur (p_z p5) with None => _ | Some _ => _ end) as [p7 [[]|e]]; cbn [fst] in H7; auto.
    destruct (p_comp p7); auto using good_set_comp.
Qed.
(** C80: after any sequence of set_props calls, successful or raising, on a new
    grid, every attribute (kx, ky, kz, phi, z) shows the current property. *)
Lemma L_C80_attributes_current :
  forall F (NF : Num F) (g : grid) (calls : list (pcall F)) n,
  att (pget n (run_sets g props0 calls)) = cur (pget n (run_sets g props0 calls)).
Proof.
  intros F NF g calls n.
  assert (H : forall p : props F, (forall m, good (pget m p)) -> forall m, good (pget m (run_sets g p calls))).
  { unfold run_sets. induction calls as [|c cs IH]; intros p Hp; auto. cbn [fold_left].
    apply IH. now apply good_set_props. }
  apply H. intros []; cbn; split; auto; congruence.
Qed.
Example ex_C80_case :
  let calls := [mkPcall (Some (Scalar (2#1)%Q)) None None None None None None;
                mkPcall (Some (Scalar (3#1)%Q)) None None (Some (Vec [1%Q; 1%Q])) None (Some 1%Q) None] in
  att (pget KX (run_sets (mkGrid 2 1 1 true) props0 calls)) = Some [3#1; 3#1; 3#1; 3#1]%Q /\
  att (pget PHI (run_sets (mkGrid 2 1 1 true) props0 calls)) = None.
Proof. split; reflexivity. Qed.
(** C80: set_prop called directly leaves the attributes stale. *)
Lemma L_C80_set_prop_refuted :
  exists (g : grid) (p p' : props R) l l',
  p = run_sets g props0 [mkPcall (Some (Scalar 2%R)) None None None None None None] /\
  set_prop g p KX (Scalar 3%R) None = (p', Ok tt) /\
  cur (pget KX p') = Some l' /\ att (pget KX p') = Some l /\ l <> l'.
Proof.
  exists (mkGrid 2 1 1 true). do 4 eexists. split; [reflexivity|]. split; [reflexivity|].
  split; [reflexivity|]. split; [reflexivity|]. intros E. inversion E. lra.
Qed.

(** ** Geometry factors *)
Lemma ok_interior o x y z u dx dy dz c b L : rock o x y z u dx dy dz -> has_flow (gr (geom o)) -> in_grid (gr (geom o)) c ->
  get_cell_G o (natural_id (gr (geom o)) c) b = Ok L -> b = true -> interior (gr (geom o)) c.
Proof.
  intros K HF I E ->. pose proof (rk_wf _ _ _ _ _ _ _ _ K) as W. unfold get_cell_G, ggrid in E.
  rewrite neighbors_id_canon in E by auto. apply interiorb_true.
  destruct (interiorb (gr (geom o)) c); auto. discriminate.
Qed.
Lemma factor_pos o x y z u dx dy dz iso a c c' : rock o x y z u dx dy dz -> flows (gr (geom o)) a ->
  in_grid (gr (geom o)) c -> in_grid (gr (geom o)) c' -> (0 < Gf o dx dy dz iso a c c')%R.
Proof.
  intros K Fa I I'. set (g := gr (geom o)) in *.
  assert (Ex : nx g = x /\ ny g = y /\ nz g = z).
  { pose proof (rk_gr _ _ _ _ _ _ _ _ K) as Eg. fold g in Eg. rewrite Eg. auto. }
  destruct Ex as (Ex & Ey & Ez).
  apply in_grid_zc in I as (i & j & k & -> & Hi & Hj & Hk). apply in_grid_zc in I' as (i' & j' & k' & -> & Hi' & Hj' & Hk').
  rewrite Ex, Ey, Ez in *. unfold Gf, pos, zc. cbn [at_axis]. rewrite !Nat2Z.id.
  destruct (pos_all _ _ _ _ _ _ _ _ K a i j k Fa Hi Hj Hk) as (? & ? & ?).
  destruct (pos_all _ _ _ _ _ _ _ _ K a i' j' k' Fa Hi' Hj' Hk') as (? & ? & ?).
  pose proof (rk_T _ _ _ _ _ _ _ _ K). destruct iso; [now apply G_arith_pos|now apply series_pos].
Qed.
Lemma face_adj_dec g c c' : has_flow g -> {exists a, flows g a /\ face_adjacent a c c'} + {~ exists a, flows g a /\ face_adjacent a c c'}.
Proof.
  intros _.
  assert (D : forall a, {flows g a /\ face_adjacent a c c'} + {~ (flows g a /\ face_adjacent a c c')}).
  { intros a. unfold flows. destruct (lt_dec 1 (size g a)) as [F|F]; [|right; tauto].
    destruct (axis_eqb a ADash) eqn:Ed.
    { right. destruct a; try discriminate. simpl in F. lia. }
    assert (Q : forall d d' : coord, {d = d'} + {d <> d'}) by (repeat decide equality; apply Z.eq_dec).
    destruct (Q c' (shift a (-1) c)) as [E|N1]; [left; split; auto; apply face_shift; split; auto; destruct a; simpl in Ed; congruence|].
    destruct (Q c' (shift a 1 c)) as [E|N2]; [left; split; auto; apply face_shift; split; auto; destruct a; simpl in Ed; congruence|].
    right. intros (_ & A). apply face_shift in A as (_ & [E|E]); congruence. }
  destruct (D AX); [left; eauto|]. destruct (D AY); [left; eauto|]. destruct (D AZ); [left; eauto|].
  right. intros (a & H). destruct a; try tauto. destruct H as (H & _). unfold flows in H. simpl in H. lia.
Qed.
Lemma face_adj_sym a c c' : face_adjacent a c c' -> face_adjacent a c' c.
Proof. unfold face_adjacent. tauto. Qed.

(** C20: a reported factor is positive; the factors reported by two cells for
    each other are equal; between interior cells both or none report one. *)
Lemma L_C20_symmetric_positive :
  forall o x y z u dx dy dz, rock o x y z u dx dy dz -> has_flow (gr (geom o)) ->
  forall c c' b b' L L', in_grid (gr (geom o)) c -> in_grid (gr (geom o)) c' ->
  let id := natural_id (gr (geom o)) c in let id' := natural_id (gr (geom o)) c' in
  get_cell_G o id b = Ok L -> get_cell_G o id' b' = Ok L' ->
  (forall v, dget id' L = Some v -> 0 < v)%R /\
  (forall v v', dget id' L = Some v -> dget id L' = Some v' -> v = v') /\
  (interior (gr (geom o)) c -> interior (gr (geom o)) c' ->
   (dget id' L <> None <-> dget id L' <> None) /\
   (dget id' L <> None <-> exists a, flows (gr (geom o)) a /\ face_adjacent a c c')).
Proof.
  intros o x y z u dx dy dz K HF c c' b b' L L' I I' id id' E E'.
  pose proof (ok_interior _ _ _ _ _ _ _ _ _ _ _ K HF I E) as Hb.
  pose proof (ok_interior _ _ _ _ _ _ _ _ _ _ _ K HF I' E') as Hb'.
  destruct (cell_G_spec _ _ _ _ _ _ _ _ K c b HF I Hb) as (iso & L1 & Ei & E1 & S & N).
  destruct (cell_G_spec _ _ _ _ _ _ _ _ K c' b' HF I' Hb') as (iso' & L2 & Ei' & E2 & S' & N').
  assert (L1 = L) by (unfold id in E; congruence). assert (L2 = L') by (unfold id' in E'; congruence).
  assert (iso' = iso) by congruence. subst L1 L2 iso'. clear E1 E2 Ei'.
  set (g := gr (geom o)) in *.
  assert (V : forall v, dget id' L = Some v -> exists a, flows g a /\ face_adjacent a c c' /\ v = Gf o dx dy dz iso a c c').
  { intros v Ev. destruct (face_adj_dec g c c' HF) as [(a & Fa & A)|Na].
    - exists a. split; auto. split; auto.
      assert (Hi : b = false -> interior g c').
      { intros Eb. destruct (interior_dec g c') as [?|Ni]; auto. exfalso.
        unfold id' in Ev. rewrite N in Ev; auto; [discriminate|]. intros (a' & _ & _ & Q). auto. }
      unfold id' in Ev. rewrite (S a c' Fa A Hi) in Ev. congruence.
    - exfalso. unfold id' in Ev. rewrite N in Ev; auto; [discriminate|]. intros (a' & ? & ? & _). eauto. }
  assert (V' : forall v, dget id L' = Some v -> exists a, flows g a /\ face_adjacent a c' c /\ v = Gf o dx dy dz iso a c' c).
  { intros v Ev. destruct (face_adj_dec g c' c HF) as [(a & Fa & A)|Na].
    - exists a. split; auto. split; auto.
      assert (Hi : b' = false -> interior g c).
      { intros Eb. destruct (interior_dec g c) as [?|Ni]; auto. exfalso.
        unfold id in Ev. rewrite N' in Ev; auto; [discriminate|]. intros (a' & _ & _ & Q). auto. }
      unfold id in Ev. rewrite (S' a c Fa A Hi) in Ev. congruence.
    - exfalso. unfold id in Ev. rewrite N' in Ev; auto; [discriminate|]. intros (a' & ? & ? & _). eauto. }
  split; [|split].
  - intros v Ev. destruct (V v Ev) as (a & Fa & _ & ->). eapply factor_pos; eauto.
  - intros v v' Ev Ev'. destruct (V v Ev) as (a & Fa & A & ->). destruct (V' v' Ev') as (a' & Fa' & A' & ->).
    assert (a' = a).
    { apply face_adj_sym in A'. apply face_shift in A as (Na & A). apply face_shift in A' as (Na' & A').
      destruct A as [A|A], A' as [A'|A']; rewrite A in A'; apply shift_inj in A' as (? & _); auto; lia. }
    subst a'. apply Gf_comm.
  - intros Ic Ic'.
    assert (X : dget id' L <> None <-> exists a, flows g a /\ face_adjacent a c c').
    { split.
      - intros Hn. destruct (dget id' L) eqn:Ed; [|congruence]. destruct (V r eq_refl) as (a & ? & ? & _). eauto.
      - intros (a & Fa & A). unfold id'. rewrite (S a c' Fa A) by auto. discriminate. }
    assert (X' : dget id L' <> None <-> exists a, flows g a /\ face_adjacent a c' c).
    { split.
      - intros Hn. destruct (dget id L') eqn:Ed; [|congruence]. destruct (V' r eq_refl) as (a & ? & ? & _). eauto.
      - intros (a & Fa & A). unfold id. rewrite (S' a c Fa A) by auto. discriminate. }
    split; auto. rewrite X, X'. split; intros (a & ? & ?); exists a; split; auto; now apply face_adj_sym.
Qed.
Example ex_C20_case :
  exists o, rock o 3 2 1 true (Scalar 1%R) (Scalar 1%R) (Scalar 1%R) /\ has_flow (gr (geom o)) /\
  in_grid (gr (geom o)) (1, 1, 0)%Z /\ in_grid (gr (geom o)) (2, 1, 0)%Z /\
  exists L L' v, get_cell_G o (natural_id (gr (geom o)) (1, 1, 0)%Z) false = Ok L /\
     get_cell_G o (natural_id (gr (geom o)) (2, 1, 0)%Z) false = Ok L' /\
     dget (natural_id (gr (geom o)) (2, 1, 0)%Z) L = Some v.
Proof.
  destruct (a_rock 3 2 1 true) as (o & K & Eg); auto. exists o. split; auto.
  assert (HF : has_flow (gr (geom o))) by (rewrite Eg; left; unfold flows; simpl; lia).
  assert (I1 : in_grid (gr (geom o)) (1, 1, 0)%Z).
  { rewrite Eg. intros a Ha. destruct a; try congruence; unfold padded; simpl; lia. }
  assert (I2 : in_grid (gr (geom o)) (2, 1, 0)%Z).
  { rewrite Eg. intros a Ha. destruct a; try congruence; unfold padded; simpl; lia. }
  split; auto. split; auto. split; auto.
  destruct (cell_G_spec _ _ _ _ _ _ _ _ K _ false HF I1 ltac:(discriminate)) as (iso & L & _ & E1 & S & _).
  destruct (cell_G_spec _ _ _ _ _ _ _ _ K _ false HF I2 ltac:(discriminate)) as (_ & L' & _ & E2 & _ & _).
  exists L, L'. eexists. split; [exact E1|]. split; [exact E2|]. apply (S AX).
  - rewrite Eg. unfold flows; simpl; lia.
  - left. split; [congruence|]. split; [reflexivity|]. intros [] ?; try congruence; reflexivity.
  - intros _. rewrite Eg. intros a Ha. unfold flows. destruct a; try congruence; simpl; [left|left|right]; lia.
Qed.

(** C21: between neighbouring cells of equal permeability, and between any two
    neighbouring cells of a grid not found isotropic, the reported factor is the
    series coupling of the two cells, whatever the spacings; in particular
    between any two neighbouring interior cells. *)
Lemma L_C21_series_coupling :
  forall o x y z u dx dy dz, rock o x y z u dx dy dz -> has_flow (gr (geom o)) ->
  forall a c c' b, flows (gr (geom o)) a -> in_grid (gr (geom o)) c -> in_grid (gr (geom o)) c' ->
  (b = true -> interior (gr (geom o)) c) -> (b = false -> interior (gr (geom o)) c') ->
  face_adjacent a c c' ->
  let r := ById (natural_id (gr (geom o)) c) in let r' := ById (natural_id (gr (geom o)) c') in
  exists L v k A d k' A' d',
  get_cell_G o (natural_id (gr (geom o)) c) b = Ok L /\ dget (natural_id (gr (geom o)) c') L = Some v /\
  get_cell_k o a r = Ok k /\ get_cell_A (geom o) a r = Ok A /\ get_cell_d (geom o) a r = Ok d /\
  get_cell_k o a r' = Ok k' /\ get_cell_A (geom o) a r' = Ok A' /\ get_cell_d (geom o) a r' = Ok d' /\
  A = A' /\
  (k = k' \/ is_isotropic o = Ok false \/ (interior (gr (geom o)) c /\ interior (gr (geom o)) c') ->
   v = series (tfac o) k A d k' A' d').
Proof.
  intros o x y z u dx dy dz K HF a c c' b Fa I I' Hb Hb' Adj r r'.
  destruct (cell_G_spec _ _ _ _ _ _ _ _ K c b HF I Hb) as (iso & L & Ei & E & S & _).
  pose proof (cell_kAd_canon _ _ _ _ _ _ _ _ K a c Fa I) as E1.
  pose proof (cell_kAd_canon _ _ _ _ _ _ _ _ K a c' Fa I') as E2.
  assert (SP : forall c k A d, cell_kAd o a c = Ok (k, A, d) ->
    get_cell_k o a c = Ok k /\ get_cell_A (geom o) a c = Ok A /\ get_cell_d (geom o) a c = Ok d).
  { intros c0 k A d. unfold cell_kAd. destruct (get_cell_d _ _ _); [|discriminate].
    destruct (get_cell_A _ _ _); [|discriminate]. destruct (get_cell_k _ _ _); [|discriminate].
    cbn [rbind]. intros Q. inversion Q. auto. }
  unfold cv in E1, E2. apply SP in E1 as (E1 & E2' & E3), E2 as (E4 & E5 & E6).
  exists L. do 7 eexists. split; [exact E|]. split; [apply (S a c' Fa Adj Hb')|].
  split; [exact E1|]. split; [exact E2'|]. split; [exact E3|]. split; [exact E4|]. split; [exact E5|]. split; [exact E6|].
  set (g := gr (geom o)) in *.
  assert (Ex : nx g = x /\ ny g = y /\ nz g = z).
  { pose proof (rk_gr _ _ _ _ _ _ _ _ K) as Eg. fold g in Eg. rewrite Eg. auto. }
  destruct Ex as (Ex & Ey & Ez).
  pose proof I as J. pose proof I' as J'. 
  apply in_grid_zc in J as (i & j & k & Ec & Hi & Hj & Hk). apply in_grid_zc in J' as (i' & j' & k' & Ec' & Hi' & Hj' & Hk').
  assert (Ar : Aval dx dy dz a (pos AX c) (pos AY c) (pos AZ c) = Aval dx dy dz a (pos AX c') (pos AY c') (pos AZ c')).
  { apply face_shift in Adj as (Na & [Q|Q]); rewrite Q; destruct c as [[? ?] ?], a; try congruence; reflexivity. }
  split; auto. unfold Gf. rewrite <- Ar. unfold cv. rewrite <- Ar.
  intros H. destruct iso; [|reflexivity].
  rewrite Ex, Ey, Ez in *.
  assert (Kk : kval o a (pos AX c) (pos AY c) (pos AZ c) = kval o a (pos AX c') (pos AY c') (pos AZ c')).
  { destruct H as [H|[H|(Hc & Hc')]]; auto; [congruence|].
    destruct (isotropic_ok _ _ _ _ _ _ _ _ K) as (iso' & Ei' & HI). rewrite Ei in Ei'. inversion Ei'; subst iso'.
    pose proof (rk_wf _ _ _ _ _ _ _ _ K) as W.
    destruct (interior_zp o c W Hc) as (p & q & s & Ib & Q). destruct (interior_zp o c' W Hc') as (p' & q' & s' & Ib' & Q').
    pose proof (proj1 (ib_count o _ _ _) Ib) as (B1&B2&B3). pose proof (proj1 (ib_count o _ _ _) Ib') as (B4&B5&B6).
    rewrite Q, Q'. unfold zp, zc, pos. cbn [at_axis]. rewrite !Nat2Z.id. fold g. fold g in B1, B2, B3, B4, B5, B6. rewrite Ex, Ey, Ez in *. apply HI; auto. }
  rewrite <- Kk.
  assert (P : (0 < kval o a (pos AX c) (pos AY c) (pos AZ c) /\ 0 < Aval dx dy dz a (pos AX c) (pos AY c) (pos AZ c) /\
              0 < dval dx dy dz a (pos AX c) (pos AY c) (pos AZ c) /\ 0 < dval dx dy dz a (pos AX c') (pos AY c') (pos AZ c'))%R).
  { rewrite Ec, Ec'. unfold zc, pos. cbn [at_axis]. rewrite !Nat2Z.id.
    destruct (pos_all _ _ _ _ _ _ _ _ K a i j k Fa Hi Hj Hk) as (? & ? & ?).
    destruct (pos_all _ _ _ _ _ _ _ _ K a i' j' k' Fa Hi' Hj' Hk') as (? & ? & ?). auto. }
  destruct P as (? & ? & ? & ?). apply G_arith_series; auto.
Qed.
Example ex_C21_case :
  exists G, geo_new 2 1 1 true (Vec [1;2;3;4]%R) (Scalar 1%R) (Scalar 1%R) = Ok G /\
  rock (mk_obj G (konst 4) (konst 4) (konst 4) 1%R) 2 1 1 true (Vec [1;2;3;4]%R) (Scalar 1%R) (Scalar 1%R) /\
  interior (gr G) (1,0,0)%Z /\ interior (gr G) (2,0,0)%Z /\ face_adjacent AX (1,0,0)%Z (2,0,0)%Z.
Proof.
  destruct (geo_new_ok 2 1 1 true (Vec [1;2;3;4]%R) (Scalar 1%R) (Scalar 1%R)) as (G & E); try exact I; try reflexivity; try lia.
  exists G. split; auto. split; [|split; [|split]].
  - apply mk_rock; auto; cbn [positive_input]; try lra.
    + repeat constructor; lra.
    + intros l [<-|[<-|[<-|[]]]]; apply (konst_ok 4).
  - apply geo_new_built in E. rewrite (b_gr _ _ _ _ _ _ _ _ E). intros a Ha. unfold flows.
    destruct a; try congruence; simpl; [left|right|right]; lia.
  - apply geo_new_built in E. rewrite (b_gr _ _ _ _ _ _ _ _ E). intros a Ha. unfold flows.
    destruct a; try congruence; simpl; [left|right|right]; lia.
  - left. split; [congruence|]. split; [reflexivity|]. intros [] ?; try congruence; reflexivity.
Qed.

(** C21 fails for boundary cells: a grid is found isotropic by its interior
    alone, and then the factor towards a boundary cell of another permeability is
    an arithmetic mean (here 2), not the series coupling (here 3/2). *)
Lemma L_C21_boundary_mean_refuted :
  exists o x y z u dx dy dz c c' L v k A d k' A' d', rock o x y z u dx dy dz /\
  interior (gr (geom o)) c /\ boundary_cell (gr (geom o)) c' /\ face_adjacent AX c c' /\
  let r := ById (natural_id (gr (geom o)) c) in let r' := ById (natural_id (gr (geom o)) c') in
  get_cell_G o (natural_id (gr (geom o)) c) true = Ok L /\ dget (natural_id (gr (geom o)) c') L = Some v /\
  get_cell_k o AX r = Ok k /\ get_cell_A (geom o) AX r = Ok A /\ get_cell_d (geom o) AX r = Ok d /\
  get_cell_k o AX r' = Ok k' /\ get_cell_A (geom o) AX r' = Ok A' /\ get_cell_d (geom o) AX r' = Ok d' /\
  v <> series (tfac o) k A d k' A' d'.
Proof.
  destruct (geo_new_ok 2 1 1 true (Scalar 1%R) (Scalar 1%R) (Scalar 1%R)) as (G & E); try exact I; try lia.
  set (o := mk_obj G [3;1;1;1]%R (konst 4) (konst 4) 1%R).
  assert (K : rock o 2 1 1 true (Scalar 1%R) (Scalar 1%R) (Scalar 1%R)).
  { apply mk_rock; auto; cbn [positive_input]; try lra. intros l [<-|[<-|[<-|[]]]]; try apply (konst_ok 4).
    split; [reflexivity|]. repeat constructor; lra. }
  pose proof E as E'. apply geo_new_built in E'. pose proof (b_gr _ _ _ _ _ _ _ _ E') as Eg.
  assert (Ic : interior (gr (geom o)) (1,0,0)%Z).
  { cbn [o mk_obj geom]. rewrite Eg. intros a Ha. unfold flows. destruct a; try congruence; simpl; [left|right|right]; lia. }
  assert (Ib : boundary_cell (gr (geom o)) (0,0,0)%Z).
  { cbn [o mk_obj geom]. rewrite Eg. split.
    - intros a Ha. destruct a; try congruence; unfold padded; simpl; lia.
    - intros N. specialize (N AX ltac:(congruence)). unfold flows in N. simpl in N. lia. }
  assert (HF : has_flow (gr (geom o))) by (cbn [o mk_obj geom]; rewrite Eg; left; unfold flows; simpl; lia).
  assert (Fx : flows (gr (geom o)) AX) by (cbn [o mk_obj geom]; rewrite Eg; unfold flows; simpl; lia).
  assert (Adj : face_adjacent AX (1,0,0)%Z (0,0,0)%Z).
  { right. split; [congruence|]. split; [reflexivity|]. intros [] ?; try congruence; reflexivity. }
  assert (W : wf (gr (geom o))) by apply (rk_wf _ _ _ _ _ _ _ _ K).
  pose proof (interior_in_grid _ _ W Ic) as Ig. pose proof (proj1 Ib) as Ig'.
  destruct (cell_G_spec _ _ _ _ _ _ _ _ K (1,0,0)%Z true HF Ig (fun _ => Ic)) as (iso & L & Ei & EL & S & _).
  assert (Eiso : is_isotropic o = Ok true).
  { unfold is_isotropic, defined, get_prop. cbn [o mk_obj prs pget p_kx p_ky p_kz cur filter map]. unfold ggrid. cbn [o mk_obj geom]. rewrite Eg.
    assert (A1 : forall l : list R, length l = 4 -> at_cells_id (mkGrid 2 1 1 true) l = Ok [nth 1 l 0; nth 2 l 0]%R).
    { intros l Hl. destruct l as [|? [|? [|? [|? [|]]]]]; try discriminate. reflexivity. }
    rewrite !A1 by reflexivity. cbn. assert (H : Reqb 1 1 = true) by now apply Reqb_true. rewrite H. reflexivity. }
  assert (iso = true) by congruence. subst iso.
  pose proof (cell_kAd_canon _ _ _ _ _ _ _ _ K AX _ Fx Ig) as E1.
  pose proof (cell_kAd_canon _ _ _ _ _ _ _ _ K AX _ Fx Ig') as E2.
  assert (SP : forall c k A d, cell_kAd o AX c = Ok (k, A, d) ->
    get_cell_k o AX c = Ok k /\ get_cell_A (geom o) AX c = Ok A /\ get_cell_d (geom o) AX c = Ok d).
  { intros c0 k A d. unfold cell_kAd. destruct (get_cell_d _ _ _); [|discriminate].
    destruct (get_cell_A _ _ _); [|discriminate]. destruct (get_cell_k _ _ _); [|discriminate].
    cbn [rbind]. intros Q. inversion Q. auto. }
  unfold cv in E1, E2. apply SP in E1 as (E1 & E2' & E3), E2 as (E4 & E5 & E6).
  exists o, 2, 1, 1, true, (Scalar 1%R), (Scalar 1%R), (Scalar 1%R), (1,0,0)%Z, (0,0,0)%Z, L. do 7 eexists.
  split; auto. split; auto. split; auto. split; auto. cbv zeta. split; [exact EL|]. split; [apply (S AX); auto; discriminate|].
  split; [exact E1|]. split; [exact E2'|]. split; [exact E3|]. split; [exact E4|]. split; [exact E5|]. split; [exact E6|].
  assert (K1 : kval o AX 1 0 0 = 1%R). { unfold kval. cbn [o mk_obj geom]. rewrite Eg. reflexivity. }
  assert (K0 : kval o AX 0 0 0 = 3%R). { unfold kval. cbn [o mk_obj geom]. rewrite Eg. reflexivity. }
  unfold Gf, cv, pos. cbn [at_axis Z.to_nat]. change (Pos.to_nat 1) with 1. rewrite K1, K0.
  unfold G_arith, series, Aval, dval, sp. cbn [tfac o mk_obj nadd nmul ndiv Num_R]. change (@n2 R Num_R) with 2%R. lra.
Qed.

Lemma pos_of_id o p id : let g := gr (geom o) in wf g ->
  nth_error (per_in g false (fun i j k => Z.of_nat (idx g i j k))) p = Some id ->
  exists i j k, inb o false i j k /\ p = at3 g false i j k /\ id = natural_id g (zp o i j k) /\ interior g (zp o i j k).
Proof.
  intros g W Hp.
  assert (Lp : p < get_n g false).
  { rewrite <- (per_in_length g false (fun i j k => Z.of_nat (idx g i j k)) W). apply nth_error_Some. congruence. }
  destruct (at3_surj g false p W Lp) as (i & j & k & Hi & Hj & Hk & ->).
  assert (I : inb o false i j k) by (repeat split; auto).
  exists i, j, k. split; auto. split; auto.
  apply (nth_error_nth _ _ 0%Z) in Hp. rewrite nth_per_in in Hp by auto. cbn [first_cell] in Hp.
  rewrite <- natural_idx in Hp. split; [symmetry; exact Hp|]. now apply zp_interior.
Qed.
Lemma vect_ok o x y z u dx dy dz : rock o x y z u dx dy dz ->
  exists iso f, is_isotropic o = Ok iso /\ G_vect o = Ok f.
Proof.
  intros K. destruct (isotropic_ok _ _ _ _ _ _ _ _ K) as (iso & Ei & _).
  destruct (regular_ok _ _ _ _ _ _ _ _ K) as (rg & Er). exists iso.
  unfold G_vect, G_vect_with. rewrite Ei. cbn [rbind]. destruct iso; [rewrite Er|]; cbn [rbind]; eauto.
Qed.

(** C22: in one and two dimensions the matrix entry of the p-th and q-th
    interior cells is the factor reported by get_cell_G, and 0 if none is. *)
Lemma L_C22_matrix_agrees :
  forall o x y z u dx dy dz, rock o x y z u dx dy dz ->
  has_flow (gr (geom o)) -> ~ three_d (gr (geom o)) ->
  exists M ids, get_cells_G o false = Ok M /\ get_cells_id (gr (geom o)) false = Ok ids /\
  msize M = length ids /\
  forall p q id id', nth_error ids p = Some id -> nth_error ids q = Some id' ->
  exists L, get_cell_G o id false = Ok L /\
    ment M p q = match dget id' L with Some v => v | None => 0%R end.
Proof.
  intros o x y z u dx dy dz K HF N3. pose proof (rk_wf _ _ _ _ _ _ _ _ K) as W. set (g := gr (geom o)) in *.
  destruct (vect_ok _ _ _ _ _ _ _ _ K) as (iso & f & Ei & Ef).
  destruct (mat_canon _ _ _ _ _ _ _ _ K false f Ef HF) as (M & EM & SM & _).
  exists M. eexists. split; auto. split; [now apply ids_per_in|]. split; [now rewrite per_in_length|].
  intros p q id id' Hp Hq.
  apply (pos_of_id o) in Hp as (i & j & k & I & -> & -> & Ic); auto.
  apply (pos_of_id o) in Hq as (i' & j' & k' & I' & -> & -> & Ic'); auto.
  destruct (cell_G_spec _ _ _ _ _ _ _ _ K (zp o i j k) false HF (interior_in_grid _ _ W Ic) ltac:(discriminate))
    as (_ & L & _ & EL & _). exists L. split; auto.
  eapply agree_entry; eauto. intros (T & _). apply N3. exact T.
Qed.
Example ex_C22_case :
  exists o, rock o 3 2 1 true (Scalar 1%R) (Scalar 1%R) (Scalar 1%R) /\ has_flow (gr (geom o)) /\ ~ three_d (gr (geom o)).
Proof.
  destruct (a_rock 3 2 1 true) as (o & K & Eg); auto. exists o. split; auto. rewrite Eg. split.
  - left; unfold flows; simpl; lia.
  - intros (_ & _ & H). unfold flows in H; simpl in H; lia.
Qed.


(** C23 restricted: in three dimensions the entries agree for all pairs of
    interior cells except those wrapping around the end of a layer; missing are
    exactly the wrapping pairs, for which see the next theorem. *)
Lemma L_C23_matrix_agrees_partial :
  forall o x y z u dx dy dz, rock o x y z u dx dy dz -> three_d (gr (geom o)) ->
  exists M ids, get_cells_G o false = Ok M /\ get_cells_id (gr (geom o)) false = Ok ids /\
  msize M = length ids /\
  forall p q c c', interior (gr (geom o)) c -> interior (gr (geom o)) c' ->
  nth_error ids p = Some (natural_id (gr (geom o)) c) -> nth_error ids q = Some (natural_id (gr (geom o)) c') ->
  ~ wraps (gr (geom o)) c c' -> ~ wraps (gr (geom o)) c' c ->
  exists L, get_cell_G o (natural_id (gr (geom o)) c) false = Ok L /\
    ment M p q = match dget (natural_id (gr (geom o)) c') L with Some v => v | None => 0%R end.
Proof.
  intros o x y z u dx dy dz K T. pose proof (rk_wf _ _ _ _ _ _ _ _ K) as W. set (g := gr (geom o)) in *.
  assert (HF : has_flow g) by (left; apply T).
  destruct (vect_ok _ _ _ _ _ _ _ _ K) as (iso & f & Ei & Ef).
  destruct (mat_canon _ _ _ _ _ _ _ _ K false f Ef HF) as (M & EM & SM & _).
  exists M. eexists. split; auto. split; [now apply ids_per_in|]. split; [now rewrite per_in_length|].
  intros p q c c' Ic Ic' Hp Hq NW NW'.
  apply (pos_of_id o) in Hp as (i & j & k & I & -> & Ep & Iz); auto.
  apply (pos_of_id o) in Hq as (i' & j' & k' & I' & -> & Eq & Iz'); auto.
  apply natural_id_inj in Ep, Eq; auto using interior_in_grid. subst c c'. fold g in NW, NW'.
  destruct (cell_G_spec _ _ _ _ _ _ _ _ K (zp o i j k) false HF (interior_in_grid _ _ W Iz) ltac:(discriminate))
    as (_ & L & _ & EL & _). exists L. split; auto.
  eapply agree_entry; eauto.
  assert (Q : forall i j k i' j' k', wrapsP o i j k i' j' k' -> wraps g (zp o i j k) (zp o i' j' k')).
  { intros i0 j0 k0 i1 j1 k1 (-> & E1 & -> & ->). destruct T as (Fx & Fy & Fz). unfold wraps, zp, zc. cbn [at_axis].
    fold g. unfold cnt, count in E1. cbn [size] in E1. fold g in E1. unfold flows in Fy. cbn [size] in Fy. unfold first_inner.
    destruct (Nat.ltb_spec 1 (ny g)); lia. }
  intros (_ & [H|H]); [apply NW|apply NW']; now apply Q.
Qed.
Example ex_C23_case :
  exists o, rock o 2 3 2 true (Scalar 1%R) (Scalar 1%R) (Scalar 1%R) /\ three_d (gr (geom o)) /\
  interior (gr (geom o)) (1,1,1)%Z /\ interior (gr (geom o)) (1,2,1)%Z /\
  ~ wraps (gr (geom o)) (1,1,1)%Z (1,2,1)%Z /\ ~ wraps (gr (geom o)) (1,2,1)%Z (1,1,1)%Z.
Proof.
  destruct (a_rock 2 3 2 true) as (o & K & Eg); auto. exists o. split; auto. rewrite Eg.
  split; [repeat split; unfold flows; simpl; lia|].
  split; [|split]; [| |unfold wraps; simpl; lia];
  intros a Ha; unfold flows; destruct a; try congruence; simpl; left; lia.
Qed.

(** C23 is false: in every three-dimensional grid each pair of cells wrapping
    around the end of a layer is coupled by a positive entry in both directions,
    except the pair in the first column of the first layer, although get_cell_G
    reports nothing between them. *)
Lemma L_C23_spurious_couplings :
  forall o x y z u dx dy dz, rock o x y z u dx dy dz -> three_d (gr (geom o)) ->
  exists M ids, get_cells_G o false = Ok M /\ get_cells_id (gr (geom o)) false = Ok ids /\
  forall p q c c', interior (gr (geom o)) c -> interior (gr (geom o)) c' ->
  nth_error ids p = Some (natural_id (gr (geom o)) c) -> nth_error ids q = Some (natural_id (gr (geom o)) c') ->
  wraps (gr (geom o)) c c' ->
  exists L L', get_cell_G o (natural_id (gr (geom o)) c) false = Ok L /\
    dget (natural_id (gr (geom o)) c') L = None /\
    get_cell_G o (natural_id (gr (geom o)) c') false = Ok L' /\
    dget (natural_id (gr (geom o)) c) L' = None /\
    (if (at_axis AX c =? 1)%Z && (at_axis AZ c =? 1)%Z then ment M p q = 0%R /\ ment M q p = 0%R
     else (0 < ment M p q)%R /\ (0 < ment M q p)%R).
Proof.
  intros o x y z u dx dy dz K T. pose proof (rk_wf _ _ _ _ _ _ _ _ K) as W. set (g := gr (geom o)) in *.
  assert (HF : has_flow g) by (left; apply T).
  destruct (vect_ok _ _ _ _ _ _ _ _ K) as (iso & f & Ei & Ef).
  destruct (mat_canon _ _ _ _ _ _ _ _ K false f Ef HF) as (M & EM & SM & _).
  exists M. eexists. split; auto. split; [now apply ids_per_in|].
  intros p q c c' Ic Ic' Hp Hq Wr.
  apply (pos_of_id o) in Hp as (i & j & k & I & -> & Ep & Iz); auto.
  apply (pos_of_id o) in Hq as (i' & j' & k' & I' & -> & Eq & Iz'); auto.
  apply natural_id_inj in Ep, Eq; auto using interior_in_grid. subst c c'. fold g in Wr.
  destruct (cell_G_spec _ _ _ _ _ _ _ _ K (zp o i j k) false HF (interior_in_grid _ _ W Iz) ltac:(discriminate))
    as (_ & L & _ & EL & _ & N). exists L.
  destruct (cell_G_spec _ _ _ _ _ _ _ _ K (zp o i' j' k') false HF (interior_in_grid _ _ W Iz') ltac:(discriminate))
    as (_ & L' & _ & EL' & _ & N'). exists L'.
  pose proof T as (Fx & Fy & Fz). unfold flows in Fx, Fy, Fz. cbn [size] in Fx, Fy, Fz.
  assert (NA : forall a, ~ face_adjacent a (zp o i j k) (zp o i' j' k')).
  { intros a A. destruct Wr as (W1 & W2 & W3 & W4).
    apply face_shift in A as (Na & A). destruct A as [A|A]; rewrite A in *;
    destruct (zp o i j k) as [[? ?] ?], a; try congruence; cbn [shift at_axis] in *; lia. }
  split; auto. split; [|split; [|split]]; auto.
  { apply N; auto using interior_in_grid. intros (a & _ & A & _). now apply (NA a). }
  { apply N'; auto using interior_in_grid. intros (a & _ & A & _). apply face_adj_sym in A. now apply (NA a). }
  assert (WP : wrapsP o i j k i' j' k').
  { destruct Wr as (W1 & W2 & W3 & W4). unfold zp, zc in W1, W2, W3, W4. cbn [at_axis] in *. fold g in W1, W2, W3, W4.
    unfold wrapsP, wrapped, cnt, count. cbn [size]. fold g. unfold first_inner in *.
    destruct (Nat.ltb_spec 1 (ny g)); [|lia]. repeat split; lia. }
  destruct (wrapped_entry _ _ _ _ _ _ _ _ K f M i j k i' j' k' W T Ef EM I I' WP) as (Sy & Pp & Zz).
  fold g in Sy, Pp, Zz. fold g. rewrite <- Sy.
  unfold zp, zc. cbn [at_axis]. fold g. unfold first_inner.
  destruct (Nat.ltb_spec 1 (nx g)); [|lia]. destruct (Nat.ltb_spec 1 (nz g)); [|lia].
  destruct (Z.eqb_spec (Z.of_nat (1 + i)) 1), (Z.eqb_spec (Z.of_nat (1 + k)) 1); cbn [andb];
    split; first [apply Zz; lia | apply Pp; lia].
Qed.
(** C23: a witness, the 2x2x2 grid with unit spacing and permeability. *)
Lemma L_C23_matrix_refuted :
  exists o x y z u dx dy dz M ids p q id id' L, rock o x y z u dx dy dz /\
  get_cells_G o false = Ok M /\ get_cells_id (gr (geom o)) false = Ok ids /\
  nth_error ids p = Some id /\ nth_error ids q = Some id' /\
  get_cell_G o id false = Ok L /\ dget id' L = None /\ (0 < ment M p q)%R.
Proof.
  destruct (a_rock 2 2 2 true) as (o & K & Eg); auto.
  assert (T : three_d (gr (geom o))) by (rewrite Eg; repeat split; unfold flows; simpl; lia).
  destruct (L_C23_spurious_couplings _ _ _ _ _ _ _ _ K T) as (M & ids & EM & Eids & H).
  assert (W : wf (gr (geom o))) by apply (rk_wf _ _ _ _ _ _ _ _ K).
  assert (I1 : interior (gr (geom o)) (2,2,1)%Z).
  { rewrite Eg. intros a Ha; unfold flows; destruct a; try congruence; simpl; left; lia. }
  assert (I2 : interior (gr (geom o)) (2,1,2)%Z).
  { rewrite Eg. intros a Ha; unfold flows; destruct a; try congruence; simpl; left; lia. }
  assert (Eids' : ids = [21; 22; 25; 26; 37; 38; 41; 42]%Z).
  { rewrite Eg in Eids. vm_compute in Eids. congruence. }
  assert (N1 : nth_error ids 3 = Some (natural_id (gr (geom o)) (2,2,1)%Z)) by (rewrite Eids', Eg; reflexivity).
  assert (N2 : nth_error ids 5 = Some (natural_id (gr (geom o)) (2,1,2)%Z)) by (rewrite Eids', Eg; reflexivity).
  destruct (H 3 5 _ _ I1 I2 N1 N2) as (L & _ & EL & Nn & _ & _ & P & _).
  { rewrite Eg. unfold wraps. cbn. lia. }
  exists o. do 7 eexists. exists M, ids, 3, 5. do 2 eexists. exists L. split; [exact K|]. split; auto. split; auto. split; [exact N1|].
  split; [exact N2|]. auto.
Qed.

(** C24: the matrix, with or without boundary cells, is symmetric with empty diagonal. *)
Lemma L_C24_matrix_symmetric :
  forall o x y z u dx dy dz b, rock o x y z u dx dy dz -> has_flow (gr (geom o)) ->
  exists M, get_cells_G o b = Ok M /\ msize M = get_n (gr (geom o)) b /\
  forall p q, p < msize M -> q < msize M -> ment M p q = ment M q p /\ ment M p p = 0%R.
Proof.
  intros o x y z u dx dy dz b K HF. pose proof (rk_wf _ _ _ _ _ _ _ _ K) as W. set (g := gr (geom o)) in *.
  destruct (vect_ok _ _ _ _ _ _ _ _ K) as (iso & f & Ei & Ef).
  destruct (mat_canon _ _ _ _ _ _ _ _ K b f Ef HF) as (M & EM & SM & H). fold g in SM, H.
  exists M. split; auto. split; auto. rewrite SM. intros p q Hp Hq. rewrite !H by auto. split.
  - f_equal. apply map_ext. intros a. unfold sent. apply Rplus_comm.
  - apply sumR_zero. intros a Ia. unfold sent, band.
    assert (S : 1 <= strd o b a).
    { pose proof (cnt_pos o b AX W ltac:(congruence)) as Px. pose proof (cnt_pos o b AY W ltac:(congruence)) as Py.
      unfold cnt in *. cbn [size] in *. unfold strd. fold g in Px, Py |- *. destruct a; nia. }
    destruct (Nat.eqb_spec p (p + strd o b a)); [lia|]. lra.
Qed.
Example ex_C24_case :
  exists o, rock o 2 3 2 true (Scalar 1%R) (Scalar 1%R) (Scalar 1%R) /\ has_flow (gr (geom o)).
Proof.
  destruct (a_rock 2 3 2 true) as (o & K & Eg); auto. exists o. split; auto. rewrite Eg. left; unfold flows; simpl; lia.
Qed.
