(** Facts behind the comparison of two simulations. *)
From Coq Require Import String ZArith Bool Arith List Lia Reals Lra.
From Verif Require Import Prelude PreludeFacts Num GridModel GridSpec GeoModel GeoSpec PropModel PropSpec
  GeoProofs TransProofs UnitsModel BlackOilModel FdmModel MonadFacts HistSpec InvFacts SumFacts ModelSpec ModelFacts VectFacts AsmFacts SolverSpec SolveSpec StepSpec StepFacts WellStepFacts
  MatrixProofs BalanceSpec FdmSpec CanonFacts NbrFacts SymbFacts BalFacts FormFacts StepBal SetupFacts LocalSpec LocalThm ChangeSpec ChangeFacts TotalHist TotalSpec ClosedSpec CompareSpec.
Import ListNotations.
Close Scope R_scope.
Open Scope nat_scope.

(** ** All interior cells are connected by the dictionaries too *)
Section sconnected.
Context {m : bo R} {x y z : nat} {u : bool} {dx dy dz : dinput R} (K : model m x y z u dx dy dz).
Notation g := (gr (geom (b_grid m))).
Notation N := (length (b_ids m)).
Notation nid := (natural_id g).
Definition one_if (n : nat) : Z := if 1 <? n then 1%Z else 0%Z.
Definition base : coord := (one_if (nx g), one_if (ny g), one_if (nz g)).
Lemma coord_dec (c c' : coord) : {c = c'} + {c <> c'}.
Proof. unfold coord in *. repeat decide equality. Defined.
Lemma interior_parts i j k : interior g (i, j, k) <->
  ((1 < nx g /\ (1 <= i <= Z.of_nat (nx g))%Z \/ ~ 1 < nx g /\ i = 0%Z) /\ (1 < ny g /\ (1 <= j <= Z.of_nat (ny g))%Z \/ ~ 1 < ny g /\ j = 0%Z) /\
   (1 < nz g /\ (1 <= k <= Z.of_nat (nz g))%Z \/ ~ 1 < nz g /\ k = 0%Z)).
Proof.
  unfold interior, flows. split.
  - intros H. split; [|split]; [apply (H AX)|apply (H AY)|apply (H AZ)]; discriminate.
  - intros (A & B & C) a Na. destruct a; auto; congruence.
Qed.
Lemma base_cell c : interior g c -> c <> base -> exists a c', flows g a /\ interior g c' /\ step a c' c.
Proof.
  destruct c as [[i j] k]. intros I Nb. apply interior_parts in I as (A & B & C).
  assert (D : (1 < nx g /\ i <> 1%Z) \/ (1 < ny g /\ j <> 1%Z) \/ (1 < nz g /\ k <> 1%Z)).
  { destruct (Z.eq_dec i 1), (Z.eq_dec j 1), (Z.eq_dec k 1), (lt_dec 1 (nx g)), (lt_dec 1 (ny g)), (lt_dec 1 (nz g)); try tauto; exfalso; apply Nb; unfold base, one_if;
      destruct (Nat.ltb_spec 1 (nx g)), (Nat.ltb_spec 1 (ny g)), (Nat.ltb_spec 1 (nz g)); repeat apply f_equal2; try lia. }
  destruct D as [(F & D)|[(F & D)|(F & D)]].
  - exists AX, (i - 1, j, k)%Z. split; [exact F|]. split; [apply interior_parts; lia|]. split; [discriminate|]. split; [cbn; lia|]. intros b Nn. destruct b; cbn; congruence.
  - exists AY, (i, j - 1, k)%Z. split; [exact F|]. split; [apply interior_parts; lia|]. split; [discriminate|]. split; [cbn; lia|]. intros b Nn. destruct b; cbn; congruence.
  - exists AZ, (i, j, k - 1)%Z. split; [exact F|]. split; [apply interior_parts; lia|]. split; [discriminate|]. split; [cbn; lia|]. intros b Nn. destruct b; cbn; congruence.
Qed.
Definition level_of (c : coord) : Z := match c with (i, j, k) => (i + j + k)%Z end.
Lemma level_step a c c' : step a c' c -> level_of c = (level_of c' + 1)%Z.
Proof.
  destruct c as [[i j] k], c' as [[i' j'] k']. intros (Na & E & H). pose proof (H AX) as HX. pose proof (H AY) as HY. pose proof (H AZ) as HZ.
  destruct a; cbn in *; try congruence; (specialize (HX ltac:(discriminate)) || clear HX); (specialize (HY ltac:(discriminate)) || clear HY); (specialize (HZ ltac:(discriminate)) || clear HZ); lia.
Qed.
Lemma scoup_pos c c' p q : interior g c -> interior g c' -> linked g c c' -> nth_error (b_ids m) p = Some (nid c) -> nth_error (b_ids m) q = Some (nid c') -> (0 < scoup m p q)%R.
Proof.
  intros I I' L E E'. unfold scoup. rewrite E, E'. assert (M : zmem (nid c') (nbs m (nid c)) = true) by (apply zmem_In, (in_nbs K); eauto).
  rewrite M. now destruct (tr_link K c c' I L) as (_ & _ & _ & P & _).
Qed.
Lemma sconnected (S : nat -> Prop) : (exists p, p < N /\ S p) ->
  (forall p q, p < N -> q < N -> S p -> (0 < scoup m p q)%R -> S q) -> forall p, p < N -> S p.
Proof.
  intros (p0 & H0 & S0) Cl.
  set (at_ := fun c => exists p, p < N /\ nth_error (b_ids m) p = Some (nid c) /\ S p).
  assert (Mv : forall c c', interior g c -> interior g c' -> linked g c c' -> at_ c -> at_ c').
  { intros c c' I I' L (p & Hp & E & Sp). pose proof (id_of K c' I') as J. apply In_nth_error in J as (q & E'). assert (Hq : q < N) by (apply nth_error_Some; congruence).
    exists q. do 2 (split; auto). apply (Cl p q); auto. now apply (scoup_pos c c'). }
  assert (Org : forall n c, interior g c -> (level_of c < Z.of_nat n)%Z -> (at_ c <-> at_ base)).
  { induction n as [|n IH]; intros c I Ln.
    - exfalso. destruct c as [[i j] k]. apply interior_parts in I. cbn in Ln. lia.
    - destruct (coord_dec c base) as [->|Nb]; [tauto|]. destruct (base_cell c I Nb) as (a & c' & Fa & I' & St). pose proof (level_step _ _ _ St) as Lv.
      rewrite <- (IH c' I') by lia. split; apply Mv; auto; exists a; (split; [exact Fa|]); [right|left]; exact St. }
  assert (All : forall c, interior g c -> (at_ c <-> at_ base)) by (intros c I; apply (Org (Z.to_nat (level_of c + 1)) c I); lia).
  destruct (nth_id p0 H0) as (id0 & E0 & I0). apply (cell_of K) in I0 as (c0 & I0 & ->).
  intros p Hp. destruct (nth_id p Hp) as (id & E & Ii). apply (cell_of K) in Ii as (c & Ic & ->).
  assert (A : at_ c) by (apply (All c Ic), (All c0 I0); exists p0; auto).
  destruct A as (q & Hq & E' & Sq). assert (q = p) as <- by (eapply NoDup_nth_error; [apply (proj1 (ids_facts K))|exact Hq|congruence]). exact Sq.
Qed.
End sconnected.

(** ** The discrete comparison principle *)
Section principle.
Variables (n : nat) (T : nat -> nat -> R).
Hypothesis (Tn : forall p q, p < n -> q < n -> (0 <= T p q)%R).
Lemma flux_min (y : nat -> R) p : p < n -> (forall q, q < n -> (y p <= y q)%R) -> (0 <= flux n T y p)%R.
Proof. intros Hp Hm. unfold flux. apply rsum_nonneg. intros q Hq. apply Rmult_le_pos; [apply Tn; lia|]. specialize (Hm q ltac:(lia)). lra. Qed.
Lemma argmin (y : nat -> R) : 0 < n -> exists p, p < n /\ forall q, q < n -> (y p <= y q)%R.
Proof. intros H. destruct (argmax (fun q => - y q)%R n H) as (p & Hp & Hm). exists p. split; auto. intros q Hq. specialize (Hm q Hq). cbv beta in Hm. lra. Qed.
Lemma compare_acc (u old a h : nat -> R) : (forall p, p < n -> (0 < a p)%R) -> (forall p, p < n -> (0 <= old p)%R) ->
  (forall p, p < n -> (u p < 0)%R -> (0 <= h p)%R) ->
  (forall p, p < n -> (flux n T u p + h p = a p * (u p - old p))%R) -> forall p, p < n -> (0 <= u p)%R.
Proof.
  intros Ha Ho Hh E p Hp. destruct (argmin u) as (p0 & H0 & Hm); [lia|]. specialize (Hm p Hp) as Hmp.
  destruct (Rle_dec 0 (u p0)); [lra|]. exfalso. pose proof (flux_min u p0 H0 Hm) as F. specialize (Hh p0 H0 ltac:(lra)). specialize (E p0 H0). specialize (Ha p0 H0). specialize (Ho p0 H0).
  assert (0 < a p0 * (old p0 - u p0))%R by (apply Rmult_lt_0_compat; lra). lra.
Qed.
Hypothesis (conn : forall S : nat -> Prop, (exists p, p < n /\ S p) ->
  (forall p q, p < n -> q < n -> S p -> (0 < T p q)%R -> S q) -> forall p, p < n -> S p).
Lemma compare_tied (u h : nat -> R) p0 : p0 < n -> ((u p0 < 0)%R -> (0 < h p0)%R) ->
  (forall p, p < n -> (u p < 0)%R -> (0 <= h p)%R) ->
  (forall p, p < n -> (flux n T u p + h p = 0)%R) -> forall p, p < n -> (0 <= u p)%R.
Proof.
  intros H0 Hs Hh E p Hp. destruct (argmin u) as (pm & Hpm & Hm); [lia|].
  destruct (Rle_dec 0 (u pm)) as [L|L]; [specialize (Hm p Hp); lra|]. exfalso.
  assert (A : forall q, q < n -> u q = u pm).
  { apply (conn (fun q => u q = u pm)); [eauto|]. intros q r Hq Hr Eq Tp.
    pose proof (Hh q Hq ltac:(rewrite Eq; lra)) as Z. specialize (E q Hq).
    pose proof (rsum_nonneg_zero (fun r => T q r * (u r - u q))%R 0 n) as Hz. cbv beta in Hz.
    assert (Q : (T q r * (u r - u q) = 0)%R).
    { apply Hz; try lia; auto. intros i Hi. apply Rmult_le_pos; [apply Tn; lia|]. specialize (Hm i ltac:(lia)). lra.
      unfold flux in E. lra. }
    apply Rmult_integral in Q as [Q|Q]; lra. }
  assert (F0 : flux n T u p0 = 0%R) by (apply rsum_zero; intros i Hi; rewrite (A i), (A p0) by lia; lra).
  specialize (E p0 H0). rewrite F0 in E. specialize (Hs ltac:(rewrite (A p0 H0); lra)). lra.
Qed.
End principle.
Lemma flux_diff n T (y1 y2 w : nat -> R) c p : (flux n T (fun q => y2 q - w q) p - flux n T (fun q => y1 q - w q) p = flux n T (fun q => y2 q - y1 q - c) p)%R.
Proof.
  unfold flux. generalize 0 as lo. induction n as [|k IH]; intros lo; cbn [rsum]; [lra|]. specialize (IH (S lo)).
  lra.
Qed.

(** ** The equation of a cell with its recorded rates *)
Definition rv (row : list (fl R)) (id : Z) : R := match value row id with Some v => v | None => 0%R end.
Section cell.
Context {m : bo R} {x y z : nat} {u : bool} {dx dy dz : dinput R} (K : model m x y z u dx dy dz).
Notation g := (gr (geom (b_grid m))).
Notation N := (length (b_ids m)).
Context (s : fs R) (RD : ready (m := m) s).
Lemma cell_rates mx o prow rrow : step_rows m mx o s prow rrow ->
  exists yy Cp wt, (if o_vect o then Cp = coupling m /\ wt = (fun _ => 0%R) else Cp = scoup m /\ wt = weight (m := m)) /\
  (forall p id, nth_error (b_ids m) p = Some id -> value prow id = Some (nth p yy 0%R)) /\
  (b_cmp m = true -> forall p id, nth_error (b_ids m) p = Some id -> value (last (s_p s) []) id = Some (oldp (m := m) s p)) /\
  forall p id, nth_error (b_ids m) p = Some id ->
    (flux N Cp (fun q => nth q yy 0 - wt q) p + (rv rrow id + sumR (map (rv rrow) (bns m id))) = acc m p * (nth p yy 0 - oldp (m := m) s p))%R.
Proof.
  intros (_ & yy & Cp & wt & Ly & Cpw & Yv & Wv & Bv & Ov & Old & Eqs). exists yy, Cp, wt. do 3 (split; auto).
  intros p id E. assert (Hp : p < N) by (apply nth_error_Some; congruence). assert (I : In id (b_ids m)) by (eapply nth_error_In; eauto).
  specialize (Eqs p Hp). rewrite (wells_at K s RD p id _ E), (bounds_at K s RD p id _ E) in Eqs. rewrite <- Eqs.
  pose proof (r_bf _ RD) as Bf. pose proof (r_wi _ RD) as Wi.
  pose proof (proj1 (proj2 (ids_facts K)) id I) as Pid.
  assert (S2 : rv rrow id = if zmem id (dkeys (b_wells m)) then hw (m := m) yy id else 0%R).
  { unfold rv. destruct (zmem id (dkeys (b_wells m))) eqn:M.
    - apply zmem_In in M. destruct (Wv id M) as (w' & _ & W & _). now rewrite W.
    - apply zmem_false in M. rewrite Ov; auto; try lia. intros J. apply in_map_iff in J as (e & Ee & Ie). apply (face_facts K _ (Bf e Ie)). now rewrite Ee. }
  assert (S3 : sumR (map (rv rrow) (bns m id)) = sumR (map (fun j => match dget j (b_bdict m) with Some cv => hb (m := m) s yy (j, cv) | None => 0%R end) (bns m id))).
  { apply sumR_ext. intros j J. unfold rv. pose proof (bns_face K id j I J) as Fj. pose proof (face_facts K j Fj) as (Pj & Nj). destruct (dget j (b_bdict m)) as [cv|] eqn:Ed.
    - pose proof (Bv (j, cv) (dget_In _ _ _ Ed)) as Q. cbn [fst] in Q. now rewrite Q.
    - rewrite (Ov j); [reflexivity|lia|lia|intros Q; apply Nj; now apply Wi|]. intros Q. apply dget_keys in Q. congruence. }
  rewrite S2, S3. lra.
Qed.
End cell.

(** ** Ordered controls give ordered rates where the pressures are not ordered *)
Section rates.
Context (m1 m2 : bo R) (x y z : nat) (u : bool) (dx dy dz : dinput R) (K : model m1 x y z u dx dy dz) (C12 : core m1 = core m2).
Context (n1 n2 r1 r2 : list (fl R)) (F1 : follows_controls m1 n1 r1) (F2 : follows_controls m2 n2 r2) (c : R).
Lemma gradient_unique idb v r r' : face_id m1 idb -> gradient_rate m1 idb v r -> gradient_rate m1 idb v r' -> r = r'.
Proof.
  intros Fb (id & T & a & nb & d & H1 & H2 & H3 & H4 & ->) (id' & T' & a' & nb1 & d' & H1' & H2' & H3' & H4' & ->). rewrite H1 in H1'. injection H1' as <- <-. rewrite H2 in H2'. injection H2' as <-.
  destruct (edge_face K idb Fb) as (_ & _ & _ & nb' & En & Ed). change (gr (geom (b_grid m1))) with (bgrid m1) in En. rewrite H2 in En. injection En as <-.
  assert (a = a') as <-.
  { destruct nb as [l1' l2' l3']. cbn in Ed. destruct l1' as [|q1 [|? ?]], l2' as [|q2 [|? ?]], l3' as [|q3 [|? ?]]; cbn in Ed; try discriminate; destruct a, a'; cbn in H3, H3'; tauto. }
  rewrite H4 in H4'. now injection H4' as ->.
Qed.
Lemma given_rate (m : bo R) n r idb e q : core m = core m1 -> follows_controls m n r -> dget idb (b_bdict m) = Some e -> face_id m1 idb -> rate_given m idb e q -> rv r idb = q.
Proof.
  intros C (_ & _ & Fr & Fg & _) E Fb. destruct e as [cond v]. apply dget_In in E. intros [(R & ->)|(Gd & Gr)]; cbn [fst snd] in *; unfold rv.
  - now rewrite (Fr _ _ _ E R).
  - destruct (Fg _ _ _ E Gd) as (q' & Gr' & ->). unfold gradient_rate in Gr, Gr'. rewrite (core_trans _ _ _ _ C) in Gr, Gr'. destruct (core_fields _ _ C) as (Cg & _). unfold bgrid, gd in Gr, Gr'. rewrite Cg in Gr, Gr'.
    exact (gradient_unique idb v q' q Fb Gr' Gr).
Qed.
Lemma no_rate (m : bo R) n r id : core m = core m1 -> follows_controls m n r -> (0 <= id < Z.of_nat (get_n (gr (geom (b_grid m1))) true))%Z -> dget id (b_wells m) = None -> dget id (b_bdict m) = None -> rv r id = 0%R.
Proof.
  intros C (_ & _ & _ & _ & F) P Ew Eb. unfold rv. rewrite F; auto. destruct (core_fields _ _ C) as (Cg & _). unfold bgrid. now rewrite Cg.
Qed.
(** A well. *)
Lemma well_order id v1 v2 : wells_below c m1 m2 -> In id (b_ids m1) -> dget id (b_bdict m1) = None -> dget id (b_bdict m2) = None ->
  value n1 id = Some v1 -> value n2 id = Some v2 -> (v2 - v1 - c < 0)%R ->
  (rv r1 id <= rv r2 id)%R /\ (forall w G p, dget id (b_wells m1) = Some w -> at_bhp w G p -> (0 < G)%R -> (rv r1 id < rv r2 id)%R).
Proof.
  intros W I B1 B2 V1 V2 L. specialize (W id). pose proof (proj1 (proj2 (ids_facts K)) id I) as Pid.
  pose proof (proj1 F1 id) as O1. pose proof (proj1 F2 id) as O2. rewrite V1 in O1. rewrite V2 in O2. destruct (core_fields _ _ C12) as (_ & _ & Cm & CB & _).
  pose proof (md_mu _ _ _ _ _ _ _ _ K) as Hmu. pose proof (md_B _ _ _ _ _ _ _ _ K) as HB.
  destruct (dget id (b_wells m1)) as [w1|] eqn:E1, (dget id (b_wells m2)) as [w2|] eqn:E2.
  - specialize (O1 w1 eq_refl). specialize (O2 w2 eq_refl). unfold at_rate, at_bhp, rv in *.
    destruct W as [(q1 & q2 & (A1 & A2) & (A3 & A4) & Le)|(G & p1 & p2 & (A1 & A2 & A3) & (A4 & A5 & A6) & Gp & Le)].
    + destruct O1 as [(_ & q & Q1 & ->)|(Q & _)]; [|congruence]. destruct O2 as [(_ & q' & Q2 & ->)|(Q & _)]; [|congruence].
      split; [congruence|]. intros w G p [= <-] (Q & _). congruence.
      (* rates *)
    + destruct O1 as [(Q & _)|(_ & G1 & pw1 & pp1 & Q1 & Q2 & Q3 & ->)]; [congruence|]. destruct O2 as [(Q & _)|(_ & G2 & pw2 & pp2 & Q4 & Q5 & Q6 & ->)]; [congruence|].
      assert (G1 = G) by congruence. assert (G2 = G) by congruence. assert (pw1 = p1) by congruence. assert (pw2 = p2) by congruence. assert (pp1 = v1) by congruence. assert (pp2 = v2) by congruence. subst.
      rewrite <- CB, <- Cm. assert (HP : (0 < / (b_B m1 * b_mu m1))%R) by (apply Rinv_0_lt_compat, Rmult_lt_0_compat; auto).
      set (k := (G / (b_B m1 * b_mu m1))%R). split.
      * assert (0 <= k)%R by (apply Rmult_le_pos; lra). assert (0 <= k * ((p2 - p1 - c) - (v2 - v1 - c)))%R by (apply Rmult_le_pos; lra). lra.
      * intros w G' p [= <-] (_ & _ & Q) G0. assert (G' = G) by congruence. subst G'. assert (0 < k)%R by (apply Rmult_lt_0_compat; lra).
        assert (0 < k * ((p2 - p1 - c) - (v2 - v1 - c)))%R by (apply Rmult_lt_0_compat; lra). lra.
  - specialize (O1 w1 eq_refl). rewrite (no_rate m2 n2 r2 id (eq_sym C12) F2 Pid E2 B2). destruct W as (q1 & (A1 & A2) & Le). unfold rv.
    destruct O1 as [(_ & q & Q1 & ->)|(Q & _)]; [|congruence]. split; [assert (q = q1) by congruence; lra|]. intros w G p [= <-] (Q & _). congruence.
  - specialize (O2 w2 eq_refl). rewrite (no_rate m1 n1 r1 id eq_refl F1 Pid E1 B1). destruct W as (q2 & (A1 & A2) & Le). unfold rv.
    destruct O2 as [(_ & q & Q1 & ->)|(Q & _)]; [|congruence]. split; [assert (q = q2) by congruence; lra|]. discriminate.
  - rewrite (no_rate m2 n2 r2 id (eq_sym C12) F2 Pid E2 B2), (no_rate m1 n1 r1 id eq_refl F1 Pid E1 B1). split; [lra|discriminate].
Qed.
(** A boundary cell. *)
Lemma cond_order id idb v1 v2 : conditions_below c m1 m2 -> In id (b_ids m1) -> In idb (bns m1 id) -> dget idb (b_wells m1) = None -> dget idb (b_wells m2) = None ->
  value n1 id = Some v1 -> value n2 id = Some v2 -> (v2 - v1 - c < 0)%R ->
  (rv r1 idb <= rv r2 idb)%R /\ (forall v, In (idb, ("pressure"%string, v)) (b_bdict m1) -> NoDup (dkeys (b_bdict m1)) -> (rv r1 idb < rv r2 idb)%R).
Proof.
  intros W I J B1 B2 V1 V2 L. specialize (W idb). pose proof (bns_face K id idb I J) as Fb. pose proof (face_facts K idb Fb) as (Pj & _).
  destruct (edge_bns K idb id Fb I) as (Q1 & _). apply Q1 in J as Ee. destruct (edge_face K idb Fb) as (E0 & Tp & _).
  assert (HT : get_cell_trans m1 idb false = Ok [(id, snd (edge (m := m1) idb))]).
  { destruct (get_cell_trans m1 idb false) as [T|] eqn:ET; cbn [rbind] in E0; [|discriminate]. destruct T as [|e0 [|? ?]]; try discriminate. cbn [the_only] in E0. injection E0 as E0. rewrite E0. rewrite <- Ee. now destruct (edge (m := m1) idb). }
  set (T := snd (edge (m := m1) idb)) in *. destruct (core_fields _ _ C12) as (_ & _ & _ & _ & Cg & _).
  assert (NQ : forall e q, rate_given m1 idb e q -> fst e <> "pressure"%string) by (intros e q [(H & _)|(H & _)] Q; rewrite Q in H; discriminate).
  destruct (dget idb (b_bdict m1)) as [e1|] eqn:E1, (dget idb (b_bdict m2)) as [e2|] eqn:E2.
  - destruct W as [(A1 & A2 & Le)|(q1 & q2 & A1 & A2 & Le)].
    + destruct e1 as [c1 w1], e2 as [c2 w2]. cbn [fst snd] in *. subst c1 c2. apply dget_In in E1. apply dget_In in E2.
      destruct (proj1 (proj2 F1) _ _ E1) as (i1 & T1 & zs1 & H1 & H2 & H3 & H4). destruct (proj1 (proj2 F2) _ _ E2) as (i2 & T2 & zs2 & H5 & H6 & H7 & H8).
      rewrite <- (core_trans _ _ _ _ C12) in H5. rewrite HT in H1, H5. injection H1 as <- <-. injection H5 as <- <-.
      rewrite <- (core_z _ _ C12), H2 in H6. injection H6 as <-. rewrite <- Cg in H7. rewrite V1 in H3. rewrite V2 in H7. unfold rv. rewrite H3, H7. rewrite H3 in H4.
      destruct (fsub (entry_of zs1 idb) (entry_of zs1 id)) as [d|]; [|now exfalso; apply H4]. cbn [fmul fsub lift2 nmul nsub Num_R].
      assert (0 < 2 * T * ((w2 - w1 - c) - (v2 - v1 - c)))%R by (apply Rmult_lt_0_compat; lra). split; [|intros _ _ _]; lra.
    + rewrite (given_rate m1 n1 r1 idb e1 q1 eq_refl F1 E1 Fb A1), (given_rate m2 n2 r2 idb e2 q2 (eq_sym C12) F2 E2 Fb A2). split; auto.
      intros v H Nd. rewrite (dget_In_nodup _ _ _ Nd H) in E1. injection E1 as <-. exfalso. now apply (NQ _ _ A1).
  - destruct W as (q1 & A1 & Le). rewrite (given_rate m1 n1 r1 idb e1 q1 eq_refl F1 E1 Fb A1), (no_rate m2 n2 r2 idb (eq_sym C12) F2 Pj B2 E2). split; auto.
    intros v H Nd. rewrite (dget_In_nodup _ _ _ Nd H) in E1. injection E1 as <-. exfalso. now apply (NQ _ _ A1).
  - destruct W as (q2 & A2 & Le). rewrite (given_rate m2 n2 r2 idb e2 q2 (eq_sym C12) F2 E2 Fb A2), (no_rate m1 n1 r1 idb eq_refl F1 Pj B1 E1). split; auto.
    intros v H Nd. rewrite (dget_In_nodup _ _ _ Nd H) in E1. discriminate.
  - rewrite (no_rate m1 n1 r1 idb eq_refl F1 Pj B1 E1), (no_rate m2 n2 r2 idb (eq_sym C12) F2 Pj B2 E2). split; [lra|].
    intros v H Nd. rewrite (dget_In_nodup _ _ _ Nd H) in E1. discriminate.
Qed.
End rates.
Lemma sumR_le {A} (f h : A -> R) l : (forall a, In a l -> (f a <= h a)%R) -> (sumR (map f l) <= sumR (map h l))%R.
Proof. induction l as [|a l IH]; intros H; cbn [map sumR]; [lra|]. pose proof (H a (or_introl eq_refl)). specialize (IH (fun b Hb => H b (or_intror Hb))). lra. Qed.
Lemma sumR_lt {A} (f h : A -> R) l a : (forall a, In a l -> (f a <= h a)%R) -> In a l -> (f a < h a)%R -> (sumR (map f l) < sumR (map h l))%R.
Proof.
  induction l as [|b l IH]; intros H I L; [destruct I|]; cbn [map sumR]. pose proof (H b (or_introl eq_refl)) as Hb.
  pose proof (sumR_le f h l (fun b Hb => H b (or_intror Hb))) as S. destruct I as [->|I]; [lra|]. specialize (IH (fun b Hb => H b (or_intror Hb)) I L). lra.
Qed.

(** ** One step of each *)
Lemma bns_core (m m' : bo R) id : core m = core m' -> bns m id = bns m' id.
Proof. intros C. destruct (core_fields _ _ C) as (Cg & _). unfold bns, bgrid. now rewrite Cg. Qed.
Lemma nbs_core (m m' : bo R) id : core m = core m' -> nbs m id = nbs m' id.
Proof. intros C. destruct (core_fields _ _ C) as (Cg & _). unfold nbs, bgrid. now rewrite Cg. Qed.
Lemma scoup_core (m m' : bo R) p q : core m = core m' -> scoup m p q = scoup m' p q.
Proof.
  intros C. destruct (core_fields _ _ C) as (_ & Ci & _). unfold scoup. rewrite Ci. destruct (nth_error (b_ids m') p); auto. destruct (nth_error (b_ids m') q); auto.
  rewrite (nbs_core m m' _ C). unfold tr. now rewrite (core_trans m m' _ _ C).
Qed.
Lemma weight_core (m m' : bo R) p : core m = core m' -> weight (m := m) p = weight (m := m') p.
Proof. intros C. destruct (core_fields _ _ C) as (_ & Ci & _ & _ & Cg & _). unfold weight, height. now rewrite Ci, Cg, (core_z _ _ C). Qed.
Lemma flux_ext n T T' (y y' : nat -> R) p : (forall q, q < n -> T p q = T' p q) -> (forall q, q < n -> y q = y' q) -> p < n -> flux n T y p = flux n T' y' p.
Proof. intros H1 H2 Hp. unfold flux. apply rsum_ext. intros q Hq. rewrite H1, H2, (H2 p) by lia. reflexivity. Qed.

(** A step of a simulation on the reservoir [m0]. *)
Record stepped (m0 : bo R) (v : bool) (ma mb : bo R) (sa sb : fs R) (prow rrow : list (fl R)) : Prop := {
  sp_ca : core ma = core m0; sp_cb : core mb = core m0; sp_bd : b_bdict mb = b_bdict ma; sp_ra : ready (m := ma) sa; sp_rb : ready (m := mb) sb;
  sp_p : s_p sb = (s_p sa ++ [prow])%list; sp_r : s_r sb = (s_r sa ++ [rrow])%list;
  sp_rows : exists o, o_vect o = v /\ step_rows ma mb o sa prow rrow }.
Section step.
Context (m0 : bo R) (x y z : nat) (u : bool) (dx dy dz : dinput R) (K : model m0 x y z u dx dy dz).
Notation g := (gr (geom (b_grid m0))).
Notation N := (length (b_ids m0)).
Definition Cp (v : bool) : nat -> nat -> R := if v then coupling m0 else scoup m0.
Definition wt (v : bool) : nat -> R := if v then (fun _ => 0%R) else weight (m := m0).
(** The equations of a step, read on [m0]. *)
Lemma stepped_eq v ma mb sa sb prow rrow : stepped m0 v ma mb sa sb prow rrow -> follows_controls mb prow rrow /\
  exists yy old,
  (forall p id, nth_error (b_ids m0) p = Some id -> value prow id = Some (yy p)) /\
  (b_cmp m0 = true -> forall p id, nth_error (b_ids m0) p = Some id -> value (last (s_p sa) []) id = Some (old p)) /\
  forall p id, nth_error (b_ids m0) p = Some id ->
    (flux N (Cp v) (fun q => yy q - wt v q) p + (rv rrow id + sumR (map (rv rrow) (bns m0 id))) = acc m0 p * (yy p - old p))%R.
Proof.
  intros [Ca Cb Eb Ra Rb P1 P2 (o & Ev & SR)]. split; [exact (rows_follow m0 _ _ _ _ _ _ _ ma mb sa sb o prow rrow K Ca Cb Eb Ra Rb P2 SR)|].
  pose proof (model_core _ _ _ _ _ _ _ _ _ (eq_sym Ca) K) as Ka. destruct (cell_rates Ka sa Ra mb o prow rrow SR) as (yl & Cp' & wt' & Cw & Yv & Old & Eq).
  destruct (core_fields _ _ Ca) as (Cg & Ci & _ & _ & _ & _ & _ & _ & _ & Cc & _). rewrite Ci, Cc in *. exists (fun p => nth p yl 0%R), (oldp (m := ma) sa). do 2 (split; auto).
  intros p id E. assert (Hp : p < N) by (apply nth_error_Some; congruence). rewrite <- (bns_core ma m0 id Ca), <- (acc_core ma m0 p Ca), <- (Eq p id E). f_equal.
  subst v. unfold Cp, wt. destruct (o_vect o); destruct Cw as (-> & ->); apply flux_ext; auto; intros q Hq; rewrite ?(coupling_core ma m0), ?(scoup_core ma m0), ?(weight_core ma m0); auto.
Qed.
Lemma Cp_nonneg v p q : p < N -> q < N -> (0 <= Cp v p q)%R.
Proof. intros Hp Hq. destruct v; cbn; [apply (cp_nonneg K); auto|apply (scoup_sym K p q Hp Hq)]. Qed.
Lemma Cp_connected v : forall S : nat -> Prop, (exists p, p < N /\ S p) ->
  (forall p q, p < N -> q < N -> S p -> (0 < Cp v p q)%R -> S q) -> forall p, p < N -> S p.
Proof.
  intros S Ex Cl. destruct v; [exact (connected K S Ex Cl)|exact (sconnected K S Ex Cl)].
Qed.
Lemma ids_nth p : p < N -> exists id, nth_error (b_ids m0) p = Some id /\ In id (b_ids m0).
Proof. intros Hp. destruct (nth_error (b_ids m0) p) as [id|] eqn:E; [|apply nth_error_None in E; lia]. exists id. split; auto. eapply nth_error_In; eauto. Qed.
Lemma compare_step c v ma1 mb1 sa1 sb1 n1 r1 ma2 mb2 sa2 sb2 n2 r2 :
  stepped m0 v ma1 mb1 sa1 sb1 n1 r1 -> stepped m0 v ma2 mb2 sa2 sb2 n2 r2 -> controls_below c mb1 mb2 ->
  (b_cmp m0 = true /\ below m0 c (last (s_p sa1) []) (last (s_p sa2) []) \/ b_cmp m0 = false /\ anchored mb1) ->
  below m0 c n1 n2.
Proof.
  intros S1 S2 (Cw & Cc) Hc.
  destruct (stepped_eq _ _ _ _ _ _ _ S1) as (F1 & y1 & o1 & Y1 & O1 & E1). destruct (stepped_eq _ _ _ _ _ _ _ S2) as (F2 & y2 & o2 & Y2 & O2 & E2).
  assert (C1 := sp_cb _ _ _ _ _ _ _ _ S1). assert (C2 := sp_cb _ _ _ _ _ _ _ _ S2). assert (C12 : core mb1 = core mb2) by congruence.
  assert (R1 := sp_rb _ _ _ _ _ _ _ _ S1). assert (R2 := sp_rb _ _ _ _ _ _ _ _ S2).
  pose proof (model_core _ _ _ _ _ _ _ _ _ (eq_sym C1) K) as K1. destruct (core_fields _ _ C1) as (Cg1 & Ci1 & _). destruct (core_fields _ _ C2) as (Cg2 & Ci2 & _).
  pose proof (model_core _ _ _ _ _ _ _ _ _ (eq_sym C2) K) as K2.
  set (uu := fun p => (y2 p - y1 p - c)%R).
  set (cell := fun p => nth p (b_ids m0) 0%Z).
  set (h := fun p => ((rv r2 (cell p) + sumR (map (rv r2) (bns m0 (cell p)))) - (rv r1 (cell p) + sumR (map (rv r1) (bns m0 (cell p)))))%R).
  assert (Nbd : forall m s id, ready (m := m) s -> model m x y z u dx dy dz -> In id (b_ids m) -> dget id (b_bdict m) = None).
  { intros m s id Rm Km I. destruct (dget id (b_bdict m)) as [e|] eqn:Q; auto. exfalso. apply dget_In in Q. now apply (face_facts Km _ (r_bf _ Rm _ Q)). }
  assert (Nwl : forall m s idb, ready (m := m) s -> model m x y z u dx dy dz -> face_id m idb -> dget idb (b_wells m) = None).
  { intros m s idb Rm Km Fb. destruct (dget idb (b_wells m)) as [w|] eqn:Q; auto. exfalso. apply (face_facts Km idb Fb). apply (r_wi _ Rm). apply dget_keys. congruence. }
  assert (Fd : forall idb, face_id mb1 idb -> face_id mb2 idb) by (intros idb; unfold face_id; now rewrite Cg1, Cg2).
  assert (Hw : forall p id, nth_error (b_ids m0) p = Some id -> (uu p < 0)%R ->
     (rv r1 id <= rv r2 id)%R /\ (forall w G pw, dget id (b_wells mb1) = Some w -> at_bhp w G pw -> (0 < G)%R -> (rv r1 id < rv r2 id)%R)).
  { intros p id E L. assert (I : In id (b_ids m0)) by (eapply nth_error_In; eauto). apply (well_order mb1 mb2 x y z u dx dy dz K1 C12 n1 n2 r1 r2 F1 F2 c id (y1 p) (y2 p)); auto; try (rewrite Ci1; auto; fail).
    - apply (Nbd mb1 sb1); auto. now rewrite Ci1.
    - apply (Nbd mb2 sb2); auto. now rewrite Ci2. }
  assert (Hb : forall p id j, nth_error (b_ids m0) p = Some id -> In j (bns m0 id) -> (uu p < 0)%R ->
     (rv r1 j <= rv r2 j)%R /\ (forall v, In (j, ("pressure"%string, v)) (b_bdict mb1) -> NoDup (dkeys (b_bdict mb1)) -> (rv r1 j < rv r2 j)%R)).
  { intros p id j E J L. assert (I : In id (b_ids mb1)) by (rewrite Ci1; eapply nth_error_In; eauto). rewrite <- (bns_core mb1 m0 id C1) in J. pose proof (bns_face K1 id j I J) as Fj.
    apply (cond_order mb1 mb2 x y z u dx dy dz K1 C12 n1 n2 r1 r2 F1 F2 c id j (y1 p) (y2 p)); auto; [apply (Nwl mb1 sb1)|apply (Nwl mb2 sb2)]; auto. }
  assert (H0 : forall p, p < N -> (uu p < 0)%R -> (0 <= h p)%R).
  { intros p Hp L. destruct (ids_nth p Hp) as (id & E & I). unfold h, cell. rewrite (nth_error_nth _ _ _ E). pose proof (proj1 (Hw p id E L)).
    pose proof (sumR_le (rv r1) (rv r2) (bns m0 id) (fun j J => proj1 (Hb p id j E J L))). lra. }
  assert (Eq : forall p, p < N -> (flux N (Cp v) uu p + h p = acc m0 p * (uu p - (o2 p - o1 p - c)))%R).
  { intros p Hp. destruct (ids_nth p Hp) as (id & E & I). specialize (E1 p id E). specialize (E2 p id E). unfold h, cell. rewrite (nth_error_nth _ _ _ E).
    pose proof (flux_diff N (Cp v) y1 y2 (wt v) c p) as Fd'. fold uu in Fd'. unfold uu at 2. lra. }
  assert (Up : forall p, p < N -> (0 <= uu p)%R).
  { destruct Hc as [(Cm & Bl)|(Cm & An)].
    - apply (compare_acc N (Cp v) (Cp_nonneg v) uu (fun p => o2 p - o1 p - c)%R (acc m0) h); auto.
      + intros p Hp. pose proof (acc_sign K p Hp) as Q. now rewrite Cm in Q.
      + intros p Hp. destruct (ids_nth p Hp) as (id & E & I). destruct (Bl id I) as (a & b & A1 & A2 & Le). rewrite (O1 Cm p id E) in A1. rewrite (O2 Cm p id E) in A2. injection A1 as <-. injection A2 as <-. lra.
    - assert (Z : forall p, p < N -> acc m0 p = 0%R) by (intros p Hp; pose proof (acc_sign K p Hp) as Q; now rewrite Cm in Q).
      assert (Pz : exists p0, p0 < N /\ ((uu p0 < 0)%R -> (0 < h p0)%R)).
      { destruct An as [(id & w & G & pw & Ew & At & Gp)|(idb & w & Ib)].
        - assert (I : In id (b_ids m0)). { rewrite <- Ci1. apply (r_wi _ R1), dget_keys. congruence. }
          destruct (In_nth_error _ _ I) as (p & E). assert (Hp : p < N) by (apply nth_error_Some; congruence). exists p. split; auto. intros L. unfold h, cell. rewrite (nth_error_nth _ _ _ E).
          pose proof (proj2 (Hw p id E L) w G pw Ew At Gp). pose proof (sumR_le (rv r1) (rv r2) (bns m0 id) (fun j J => proj1 (Hb p id j E J L))). lra.
        - pose proof (r_bf _ R1 _ Ib) as Fb. cbn [fst] in Fb. destruct (edge_face K1 idb Fb) as (_ & _ & Ie & _). set (id := fst (edge (m := mb1) idb)) in *.
          pose proof (proj2 (proj1 (edge_bns K1 idb id Fb Ie)) eq_refl) as J. rewrite (bns_core mb1 m0 id C1) in J. rewrite Ci1 in Ie.
          destruct (In_nth_error _ _ Ie) as (p & E). assert (Hp : p < N) by (apply nth_error_Some; congruence). exists p. split; auto. intros L. unfold h, cell. rewrite (nth_error_nth _ _ _ E).
          pose proof (proj1 (Hw p id E L)). pose proof (sumR_lt (rv r1) (rv r2) (bns m0 id) idb (fun j J => proj1 (Hb p id j E J L)) J (proj2 (Hb p id idb E J L) w Ib (r_bk _ R1))). lra. }
      destruct Pz as (p0 & Hp0 & Ps). apply (compare_tied N (Cp v) (Cp_nonneg v) (Cp_connected v) uu h p0); auto. intros p Hp. rewrite (Eq p Hp), (Z p Hp). lra. }
  intros id I. destruct (In_nth_error _ _ I) as (p & E). assert (Hp : p < N) by (apply nth_error_Some; congruence). exists (y1 p), (y2 p). split; [auto|]. split; [auto|]. specialize (Up p Hp). unfold uu in Up. lra.
Qed.
End step.

(** ** Steps of a history *)
Lemma core_new (g : gobj R) f unit pi1 pi2 dt m1 m2 : bo_new g f unit pi1 dt = Ok m1 -> bo_new g f unit pi2 dt = Ok m2 -> core m1 = core m2.
Proof.
  unfold bo_new. destruct (set_units uobj0 unit) as [u' [[]|e]] eqn:Eu; [|discriminate]. destruct (factor u' "transmissibility conversion"); cbn [rbind]; [|discriminate]. destruct (factor u' "volume conversion"); cbn [rbind]; [|discriminate].
  destruct (get_cells_id (ggrid g) false); cbn [rbind]; [|discriminate].
  intros H1 H2. match type of H1 with rbind ?t _ = _ => destruct t; cbn [rbind] in H1; [|discriminate] end. match type of H2 with rbind ?t _ = _ => destruct t; cbn [rbind] in H2; [|discriminate] end.
  destruct (calc_comp g f); cbn [rbind] in *; [|discriminate]. destruct (attrE (f_mu f)); cbn [rbind] in *; [|discriminate]. destruct (attrE (f_B f)); cbn [rbind] in *; [|discriminate]. destruct (attrE (f_g f)); cbn [rbind] in *; [|discriminate].
  match type of H1 with rbind ?t _ = _ => destruct t; cbn [rbind] in *; [|discriminate] end. injection H1 as <-. injection H2 as <-. reflexivity.
Qed.
Section history.
Context (m0 : bo R) (x y z : nat) (u : bool) (dx dy dz : dinput R) (K : model m0 x y z u dx dy dz).
Lemma solve_stepped c m s : core m = core m0 -> ready (m := m) s -> snd (exec c (m, Some s)) = Ok tt -> balanced_step (m, Some s) c ->
  exists slv sc fuel sparse o m' s' prow rrow, c = Solve slv sc fuel sparse o /\ fst (exec c (m, Some s)) = (m', Some s') /\ stepped m0 (o_vect o) m m' s s' prow rrow /\ same_controls m m'.
Proof.
  intros C Rd A L. destruct c; try contradiction. destruct L as (Ex & U & Pr & Vp & L1). specialize (L1 s).
  remember (exec (Solve slv sc fuel sparse o) (m, Some s)) as Y eqn:EY. cbn [exec] in EY. unfold of_solution in EY. cbn [fst snd] in EY.
  pose proof (fx_solve slv sc (fixm (b_wells m)) fuel sparse o (m, s) eq_refl) as Fx.
  destruct (solve slv sc fuel sparse o (m, s)) as [[m1 s1] r] eqn:Es. cbn [fst snd] in EY. subst Y. cbn [fst snd] in *. subst r.
  specialize (L1 s1 eq_refl eq_refl) as (One & SM).
  destruct (step_ok (model_core _ _ _ _ _ _ _ _ _ (eq_sym C) K) slv sc fuel sparse o s (m1, s1) Rd Ex U Pr Vp Es One SM) as ((C1 & C2 & T1) & Rd1 & prow & rrow & P1 & P2 & P3 & P4). cbn [fst snd] in *.
  exists slv, sc, fuel, sparse, o, m1, s1, prow, rrow. split; [reflexivity|]. split; [reflexivity|]. split; [constructor; auto; [congruence|exists o; auto]|].
  split; auto. unfold fx in Fx. cbn [fst] in Fx. split.
  - intros id H. destruct (dget id (b_wells m1)) eqn:Q; auto. destruct (fixm_get _ _ _ _ Fx Q) as (? & Q1 & _). congruence.
  - intros id w Ew. destruct (fixm_get _ _ _ _ (eq_sym Fx) Ew) as (w' & E1 & E2). exists w'. split; auto. rewrite (SM id w w' Ew E1). unfold fixedw in E2. injection E2 as -> -> _ _ _ ->. reflexivity.
Qed.
End history.
(** Controls kept. *)
Lemma controls_get (m m' : bo R) id : same_controls m m' -> match dget id (b_wells m), dget id (b_wells m') with
  | Some w, Some w' => (forall q, at_rate w q <-> at_rate w' q) /\ (forall G p, at_bhp w G p <-> at_bhp w' G p) | None, None => True | _, _ => False end.
Proof.
  intros (_ & H1 & H2). destruct (dget id (b_wells m)) as [w|] eqn:E; [|now rewrite (H1 id E)].
  destruct (H2 id w E) as (w' & -> & Q). injection Q as Q1 Q2 Q3 Q4. unfold at_rate, at_bhp. rewrite Q1, Q2, Q3, Q4. split; intros; tauto.
Qed.
Lemma rate_given_core (m m' : bo R) idb e r : core m = core m' -> rate_given m idb e r <-> rate_given m' idb e r.
Proof. intros C. unfold rate_given, gradient_rate. rewrite (core_trans _ _ _ _ C). destruct (core_fields _ _ C) as (Cg & _). unfold bgrid, gd. rewrite Cg. tauto. Qed.
Lemma below_kept c m1 m2 m1' m2' : core m1' = core m1 -> core m2' = core m2 -> same_controls m1 m1' -> same_controls m2 m2' -> controls_below c m1 m2 -> controls_below c m1' m2'.
Proof.
  intros C1 C2 S1 S2 (W & B). split.
  - intros id. specialize (W id). pose proof (controls_get m1 m1' id S1) as G1. pose proof (controls_get m2 m2' id S2) as G2.
    destruct (dget id (b_wells m1)) as [w1|], (dget id (b_wells m1')) as [w1'|]; try contradiction; destruct (dget id (b_wells m2)) as [w2|], (dget id (b_wells m2')) as [w2'|]; try contradiction; auto.
    + destruct G1 as (A1 & A2), G2 as (A3 & A4). destruct W as [(q1 & q2 & B1 & B2 & L)|(G & p1 & p2 & B1 & B2 & Gp & L)]; [left; exists q1, q2; split; [now apply A1|split; [now apply A3|auto]]|right; exists G, p1, p2; split; [now apply A2|split; [now apply A4|auto]]].
    + destruct G1 as (A1 & _). destruct W as (q & B1 & L). exists q. split; auto. now apply A1.
    + destruct G2 as (A1 & _). destruct W as (q & B1 & L). exists q. split; auto. now apply A1.
  - intros idb. specialize (B idb). destruct S1 as (-> & _), S2 as (-> & _). destruct (dget idb (b_bdict m1)), (dget idb (b_bdict m2)); auto.
    + destruct B as [B|(r1 & r2 & A1 & A2 & L)]; [left; auto|right]. exists r1, r2. split; [now apply (rate_given_core m1' m1)|]. split; [now apply (rate_given_core m2' m2)|auto].
    + destruct B as (r & A1 & L). exists r. split; auto. now apply (rate_given_core m1' m1).
    + destruct B as (r & A1 & L). exists r. split; auto. now apply (rate_given_core m2' m2).
Qed.
Lemma anchored_kept m m' : same_controls m m' -> anchored m -> anchored m'.
Proof.
  intros S [(id & w & G & p & E & A & L)|(idb & v & I)]; [left|right].
  - pose proof (controls_get m m' id S) as Q. rewrite E in Q. destruct (dget id (b_wells m')) as [w'|] eqn:E'; [|contradiction]. exists id, w', G, p. split; auto. split; auto. now apply Q.
  - exists idb, v. destruct S as (-> & _). auto.
Qed.
Section histories.
Context (m0 : bo R) (x y z : nat) (u : bool) (dx dy dz : dinput R) (K : model m0 x y z u dx dy dz).
Notation g := (gr (geom (b_grid m0))).
Notation N := (length (b_ids m0)).
Lemma compare_history c : forall st1 st2, Forall2 same_path st1 st2 -> forall ma1 sa1 ma2 sa2 mb1 sb1 mb2 sb2,
  core ma1 = core m0 -> core ma2 = core m0 -> ready (m := ma1) sa1 -> ready (m := ma2) sa2 -> controls_below c ma1 ma2 ->
  (b_cmp m0 = true /\ below m0 c (last (s_p sa1) []) (last (s_p sa2) []) \/ b_cmp m0 = false /\ anchored ma1) ->
  all_ok (ma1, Some sa1) st1 -> all_ok (ma2, Some sa2) st2 -> along balanced_step (ma1, Some sa1) st1 -> along balanced_step (ma2, Some sa2) st2 ->
  after (ma1, Some sa1) st1 = (mb1, Some sb1) -> after (ma2, Some sa2) st2 = (mb2, Some sb2) ->
  exists P1 P2, s_p sb1 = (s_p sa1 ++ P1)%list /\ s_p sb2 = (s_p sa2 ++ P2)%list /\ Forall2 (below m0 c) P1 P2.
Proof.
  induction 1 as [|c1 c2 st1 st2 Sp Sps IH]; intros ma1 sa1 ma2 sa2 mb1 sb1 mb2 sb2 C1 C2 R1 R2 Cb Hc A1 A2 L1 L2 E1 E2.
  - injection E1 as <- <-. injection E2 as <- <-. exists [], []. rewrite !app_nil_r. auto.
  - cbn [all_ok along after fold_left] in *. destruct A1 as (A1 & A1'), A2 as (A2 & A2'), L1 as (L1 & L1'), L2 as (L2 & L2').
    destruct (solve_stepped m0 x y z u dx dy dz K c1 ma1 sa1 C1 R1 A1 L1) as (slv1 & sc1 & fu1 & spr1 & o1 & mc1 & sc1' & n1 & r1 & Ec1 & F1 & S1 & SC1).
    destruct (solve_stepped m0 x y z u dx dy dz K c2 ma2 sa2 C2 R2 A2 L2) as (slv2 & sc2 & fu2 & spr2 & o2 & mc2 & sc2' & n2 & r2 & Ec2 & F2 & S2 & SC2).
    rewrite F1 in *. rewrite F2 in *. subst c1 c2. cbn [same_path] in Sp. rewrite <- Sp in S2.
    assert (D1 := sp_cb _ _ _ _ _ _ _ _ S1). assert (D2 := sp_cb _ _ _ _ _ _ _ _ S2).
    assert (Cb' : controls_below c mc1 mc2) by (apply (below_kept c ma1 ma2); auto; congruence).
    assert (Bl : below m0 c n1 n2).
    { apply (compare_step m0 x y z u dx dy dz K c (o_vect o1) ma1 mc1 sa1 sc1' n1 r1 ma2 mc2 sa2 sc2' n2 r2); auto.
      destruct Hc as [Hc|(Cm & An)]; [left; auto|right]. split; auto. now apply (anchored_kept ma1). }
    destruct (IH mc1 sc1' mc2 sc2' mb1 sb1 mb2 sb2) as (P1 & P2 & Q1 & Q2 & Q3); auto; [apply S1|apply S2| |].
    + destruct Hc as [(Cm & Hc)|(Cm & An)]; [left|right]; split; auto.
      * rewrite (sp_p _ _ _ _ _ _ _ _ S1), (sp_p _ _ _ _ _ _ _ _ S2), !last_last. exact Bl.
      * now apply (anchored_kept ma1).
    + exists (n1 :: P1), (n2 :: P2). rewrite Q1, Q2, (sp_p _ _ _ _ _ _ _ _ S1), (sp_p _ _ _ _ _ _ _ _ S2), <- !app_assoc. auto.
Qed.
(** ** A bound: the sign [sg] is 1 for an upper one, -1 for a lower one *)
Definition bounded (sg M : R) (m : bo R) : Prop :=
  (forall id w, dget id (b_wells m) = Some w -> (exists q, at_rate w q /\ (sg * q <= 0)%R) \/ (exists G p, at_bhp w G p /\ (0 <= G)%R /\ (sg * p <= sg * M)%R)) /\
  (forall idb e, In (idb, e) (b_bdict m) -> (fst e = "pressure"%string /\ (sg * snd e <= sg * M)%R) \/ exists r, rate_given m idb e r /\ (sg * r <= 0)%R).
Definition on_side (sg M : R) (r : list (fl R)) : Prop := forall id, In id (b_ids m0) -> exists v, value r id = Some v /\ (sg * v <= sg * M)%R.
Lemma bounded_kept sg M m m' : core m' = core m -> same_controls m m' -> bounded sg M m -> bounded sg M m'.
Proof.
  intros C S (H1 & H2). split.
  - intros id w' E. pose proof (controls_get m m' id S) as Q. rewrite E in Q. destruct (dget id (b_wells m)) as [w|] eqn:Ew; [|contradiction]. destruct Q as (Q1 & Q2).
    destruct (H1 id w Ew) as [(q & A & L)|(G & p & A & L)]; [left; exists q; split; auto; now apply Q1|right; exists G, p; split; auto; now apply Q2].
  - intros idb e I. destruct S as (E & _). rewrite E in I. destruct (H2 idb e I) as [A|(r & A & L)]; [left; auto|right; exists r; split; auto; now apply (rate_given_core m' m)].
Qed.
Lemma bound_step sg M v ma mb sa sb prow rrow : (sg = 1 \/ sg = -1)%R ->
  stepped m0 v ma mb sa sb prow rrow -> bounded sg M mb -> flat m0 ->
  (b_cmp m0 = true /\ on_side sg M (last (s_p sa) []) \/ b_cmp m0 = false /\ anchored mb) -> on_side sg M prow.
Proof.
  intros Sg S (Bw & Bc) (zs & ht & Ez & Fz) Hc. destruct (stepped_eq m0 x y z u dx dy dz K _ _ _ _ _ _ _ S) as (Fl & yy & old & Yv & Ov & Eq).
  assert (Cb := sp_cb _ _ _ _ _ _ _ _ S). assert (Rb := sp_rb _ _ _ _ _ _ _ _ S). pose proof (model_core _ _ _ _ _ _ _ _ _ (eq_sym Cb) K) as Kb.
  destruct (core_fields _ _ Cb) as (Cg & Ci & Cm & CB & CG & _). pose proof (md_mu _ _ _ _ _ _ _ _ K) as Hmu. pose proof (md_B _ _ _ _ _ _ _ _ K) as HB.
  assert (HP : (0 < / (b_B m0 * b_mu m0))%R) by (apply Rinv_0_lt_compat, Rmult_lt_0_compat; auto).
  set (uu := fun p => (sg * (M - yy p))%R). set (cell := fun p => nth p (b_ids m0) 0%Z).
  set (h := fun p => (- (sg * (rv rrow (cell p) + sumR (map (rv rrow) (bns m0 (cell p))))))%R).
  assert (Hz : forall j, (0 <= j < Z.of_nat (get_n g true))%Z -> entry_of zs j = Some ht).
  { intros j Pj. destruct (md_z _ _ _ _ _ _ _ _ K) as (zs' & Ez' & Lz). rewrite Ez in Ez'. injection Ez' as <-. unfold entry_of. rewrite <- (Z2Nat.id j) by lia. rewrite (pyget_nth zs (Z.to_nat j) 0%R) by lia.
    rewrite Forall_forall in Fz. f_equal. apply Fz, nth_In. lia. }
  assert (Nbd : forall id, In id (b_ids m0) -> dget id (b_bdict mb) = None).
  { intros id I. destruct (dget id (b_bdict mb)) as [e|] eqn:Q; auto. exfalso. apply dget_In in Q. apply (face_facts Kb _ (r_bf _ Rb _ Q)). now rewrite Ci. }
  assert (Nwl : forall idb, face_id mb idb -> dget idb (b_wells mb) = None).
  { intros idb Fb. destruct (dget idb (b_wells mb)) as [w|] eqn:Q; auto. exfalso. apply (face_facts Kb idb Fb). apply (r_wi _ Rb). apply dget_keys. congruence. }
  assert (Hw : forall p id, nth_error (b_ids m0) p = Some id -> (uu p < 0)%R ->
     (sg * rv rrow id <= 0)%R /\ (forall w G pw, dget id (b_wells mb) = Some w -> at_bhp w G pw -> (0 < G)%R -> (sg * rv rrow id < 0)%R)).
  { intros p id E L. assert (I : In id (b_ids m0)) by (eapply nth_error_In; eauto). pose proof (proj1 (proj2 (ids_facts Kb)) id ltac:(now rewrite Ci)) as Pid.
    destruct (dget id (b_wells mb)) as [w|] eqn:Ew.
    - pose proof (proj1 Fl id w Ew) as O. rewrite (Yv p id E) in O. unfold rv. destruct (Bw id w Ew) as [(q & (A1 & A2) & Le)|(G & pw & (A1 & A2 & A3) & Gp & Le)].
      + destruct O as [(_ & q' & Q1 & ->)|(Q & _)]; [|congruence]. assert (q' = q) by congruence. subst q'. split; auto. intros w' G p' [= <-] (Q & _). congruence.
      + destruct O as [(Q & _)|(_ & G' & pw' & pp & Q1 & Q2 & Q3 & ->)]; [congruence|]. assert (G' = G) by congruence. assert (pw' = pw) by congruence. assert (pp = yy p) by congruence. subst G' pw' pp.
        rewrite CB, Cm. set (k := (G / (b_B m0 * b_mu m0))%R). unfold uu in L. split.
        * assert (0 <= k)%R by (apply Rmult_le_pos; lra). assert (0 <= k * (sg * yy p - sg * pw))%R by (apply Rmult_le_pos; lra). lra.
        * intros w' G' p' [= <-] (_ & _ & Q) G0. assert (G' = G) by congruence. subst G'. assert (0 < k)%R by (apply Rmult_lt_0_compat; lra). assert (0 < k * (sg * yy p - sg * pw))%R by (apply Rmult_lt_0_compat; lra). lra.
    - rewrite (no_rate mb mb prow rrow id eq_refl Fl Pid Ew (Nbd id I)). split; [lra|discriminate]. }
  assert (Hb : forall p id j, nth_error (b_ids m0) p = Some id -> In j (bns m0 id) -> (uu p < 0)%R ->
     (sg * rv rrow j <= 0)%R /\ (forall w, In (j, ("pressure"%string, w)) (b_bdict mb) -> (sg * rv rrow j < 0)%R)).
  { intros p id j E J L. assert (I : In id (b_ids mb)) by (rewrite Ci; eapply nth_error_In; eauto). rewrite <- (bns_core mb m0 id Cb) in J. pose proof (bns_face Kb id j I J) as Fj. pose proof (face_facts Kb j Fj) as (Pj & _).
    assert (Pr : forall w, In (j, ("pressure"%string, w)) (b_bdict mb) -> (sg * w <= sg * M)%R -> (sg * rv rrow j < 0)%R).
    { intros w Iw Le. destruct (proj1 (proj2 Fl) _ _ Iw) as (i1 & T1 & zs1 & H1 & H2 & H3 & H4).
      destruct (edge_bns Kb j id Fj I) as (Q1 & _). apply Q1 in J as Ee. destruct (edge_face Kb j Fj) as (E0 & Tp & _). rewrite H1 in E0. cbn [rbind the_only] in E0. injection E0 as E0. rewrite <- E0 in Ee, Tp. cbn [fst snd] in Ee, Tp. subst i1.
      rewrite (core_z _ _ Cb), Ez in H2. injection H2 as <-. assert (Pi := proj1 (proj2 (ids_facts Kb)) id I). rewrite Cg in Pi, Pj. rewrite (Yv p id E), (Hz j Pj), (Hz id Pi) in H3. unfold rv. rewrite H3. cbn [fmul fsub lift2 nmul nsub Num_R].
      unfold uu in L. assert (0 < 2 * T1 * (sg * yy p - sg * w))%R by (apply Rmult_lt_0_compat; lra). lra. }
    destruct (dget j (b_bdict mb)) as [e|] eqn:Ed.
    - pose proof (dget_In _ _ _ Ed) as Ie. destruct (Bc j e Ie) as [(A1 & Le)|(r & A & Le)].
      + destruct e as [cd w]. cbn [fst snd] in *. subst cd. pose proof (Pr w Ie Le). split; [lra|]. auto.
      + rewrite (given_rate mb x y z u dx dy dz Kb mb prow rrow j e r eq_refl Fl Ed Fj A). split; auto. intros w Iw. rewrite (dget_In_nodup _ _ _ (r_bk _ Rb) Iw) in Ed. injection Ed as <-. exfalso. destruct A as [(Q & _)|(Q & _)]; discriminate.
    - rewrite (no_rate mb mb prow rrow j eq_refl Fl Pj (Nwl j Fj) Ed). split; [lra|]. intros w Iw. rewrite (dget_In_nodup _ _ _ (r_bk _ Rb) Iw) in Ed. discriminate. }
  assert (Sc : forall l, (sg * sumR (map (rv rrow) l) = sumR (map (fun j => sg * rv rrow j) l))%R).
  { induction l as [|a l IH]; cbn [map sumR]; [lra|]. rewrite <- IH. lra. }
  assert (Z0 : forall l : list Z, sumR (map (fun _ => 0%R) l) = 0%R) by (induction l as [|a l IH]; cbn [map sumR]; [reflexivity|rewrite IH; lra]).
  assert (H0 : forall p, p < N -> (uu p < 0)%R -> (0 <= h p)%R).
  { intros p Hp L. destruct (ids_nth m0 p Hp) as (id & E & I). unfold h, cell. rewrite (nth_error_nth _ _ _ E). pose proof (proj1 (Hw p id E L)).
    pose proof (sumR_le (fun j => sg * rv rrow j)%R (fun _ => 0%R) (bns m0 id) (fun j J => proj1 (Hb p id j E J L))) as Q. rewrite <- Sc, Z0 in Q. lra. }
  assert (Wf : forall p q, p < N -> q < N -> wt m0 v p = wt m0 v q).
  { intros p q Hp Hq. destruct v; cbn; auto. unfold weight, height. f_equal. destruct (ids_nth m0 p Hp) as (i & E & I). destruct (ids_nth m0 q Hq) as (j & E' & J).
    rewrite (nth_error_nth _ _ _ E), (nth_error_nth _ _ _ E'). pose proof (Hz i (proj1 (proj2 (ids_facts K)) i I)) as P1. pose proof (Hz j (proj1 (proj2 (ids_facts K)) j J)) as P2. unfold entry_of in P1, P2. rewrite Ez.
    destruct (pyget zs i); [|discriminate]. destruct (pyget zs j); [|discriminate]. congruence. }
  assert (Eq' : forall p, p < N -> (flux N (Cp m0 v) uu p + h p = acc m0 p * (uu p - sg * (M - old p)))%R).
  { intros p Hp. destruct (ids_nth m0 p Hp) as (id & E & I). specialize (Eq p id E). unfold h, cell. rewrite (nth_error_nth _ _ _ E).
    assert (F : (flux N (Cp m0 v) uu p = - sg * flux N (Cp m0 v) (fun q => yy q - wt m0 v q) p)%R).
    { unfold flux. rewrite <- rsum_scal. apply rsum_ext. intros q Hq. rewrite (Wf q p) by lia. unfold uu. ring. }
    rewrite F. unfold uu. replace (acc m0 p * (sg * (M - yy p) - sg * (M - old p)))%R with (- sg * (acc m0 p * (yy p - old p)))%R by ring. rewrite <- Eq. ring. }
  assert (Up : forall p, p < N -> (0 <= uu p)%R).
  { destruct Hc as [(Cmp & Bl)|(Cmp & An)].
    - apply (compare_acc N (Cp m0 v) (Cp_nonneg m0 x y z u dx dy dz K v) uu (fun p => sg * (M - old p))%R (acc m0) h); auto.
      + intros p Hp. pose proof (acc_sign K p Hp) as Q. now rewrite Cmp in Q.
      + intros p Hp. destruct (ids_nth m0 p Hp) as (id & E & I). destruct (Bl id I) as (a & A1 & Le). rewrite (Ov Cmp p id E) in A1. injection A1 as <-. lra.
    - assert (Pz : exists p0, p0 < N /\ ((uu p0 < 0)%R -> (0 < h p0)%R)).
      { destruct An as [(id & w & G & pw & Ew & At & Gp)|(idb & w & Ib)].
        - assert (I : In id (b_ids m0)). { rewrite <- Ci. apply (r_wi _ Rb), dget_keys. congruence. }
          destruct (In_nth_error _ _ I) as (p & E). assert (Hp : p < N) by (apply nth_error_Some; congruence). exists p. split; auto. intros L. unfold h, cell. rewrite (nth_error_nth _ _ _ E).
          pose proof (proj2 (Hw p id E L) w G pw Ew At Gp). pose proof (sumR_le (fun j => sg * rv rrow j)%R (fun _ => 0%R) (bns m0 id) (fun j J => proj1 (Hb p id j E J L))) as Q. rewrite <- Sc, Z0 in Q. lra.
        - pose proof (r_bf _ Rb _ Ib) as Fb. cbn [fst] in Fb. destruct (edge_face Kb idb Fb) as (_ & _ & Ie & _). set (id := fst (edge (m := mb) idb)) in *.
          pose proof (proj2 (proj1 (edge_bns Kb idb id Fb Ie)) eq_refl) as J. rewrite (bns_core mb m0 id Cb) in J. rewrite Ci in Ie.
          destruct (In_nth_error _ _ Ie) as (p & E). assert (Hp : p < N) by (apply nth_error_Some; congruence). exists p. split; auto. intros L. unfold h, cell. rewrite (nth_error_nth _ _ _ E).
          pose proof (proj1 (Hw p id E L)). pose proof (sumR_lt (fun j => sg * rv rrow j)%R (fun _ => 0%R) (bns m0 id) idb (fun j J => proj1 (Hb p id j E J L)) J (proj2 (Hb p id idb E J L) w Ib)) as Q. rewrite <- Sc, Z0 in Q. lra. }
      destruct Pz as (p0 & Hp0 & Ps). apply (compare_tied N (Cp m0 v) (Cp_nonneg m0 x y z u dx dy dz K v) (Cp_connected m0 x y z u dx dy dz K v) uu h p0); auto.
      intros p Hp. rewrite (Eq' p Hp). pose proof (acc_sign K p Hp) as Q. rewrite Cmp in Q. rewrite Q. lra. }
  intros id I. destruct (In_nth_error _ _ I) as (p & E). assert (Hp : p < N) by (apply nth_error_Some; congruence). exists (yy p). split; [auto|]. specialize (Up p Hp). unfold uu in Up. lra.
Qed.
Lemma bound_history sg M : (sg = 1 \/ sg = -1)%R -> flat m0 -> forall st ma sa mb sb,
  core ma = core m0 -> ready (m := ma) sa -> bounded sg M ma ->
  (b_cmp m0 = true /\ on_side sg M (last (s_p sa) []) \/ b_cmp m0 = false /\ anchored ma) ->
  all_ok (ma, Some sa) st -> along balanced_step (ma, Some sa) st -> after (ma, Some sa) st = (mb, Some sb) ->
  exists P, s_p sb = (s_p sa ++ P)%list /\ Forall (on_side sg M) P.
Proof.
  intros Sg Ft. induction st as [|c st IH]; intros ma sa mb sb C R B Hc A L E.
  - injection E as <- <-. exists []. rewrite app_nil_r. auto.
  - cbn [all_ok along after fold_left] in *. destruct A as (A & A'), L as (L & L').
    destruct (solve_stepped m0 x y z u dx dy dz K c ma sa C R A L) as (slv & sc & fu & spr & o & mc & sc' & n & r & Ec & F & S & SC). rewrite F in *. subst c.
    assert (D := sp_cb _ _ _ _ _ _ _ _ S). assert (B' : bounded sg M mc) by (apply (bounded_kept sg M ma); auto; congruence).
    assert (Bl : on_side sg M n).
    { apply (bound_step sg M (o_vect o) ma mc sa sc' n r); auto. destruct Hc as [Hc|(Cm & An)]; [left; auto|right]. split; auto. now apply (anchored_kept ma). }
    destruct (IH mc sc' mb sb) as (P & Q1 & Q2); auto; [apply S| |].
    + destruct Hc as [(Cm & Hc)|(Cm & An)]; [left|right]; split; auto.
      * rewrite (sp_p _ _ _ _ _ _ _ _ S), last_last. exact Bl.
      * now apply (anchored_kept ma).
    + exists (n :: P). rewrite Q1, (sp_p _ _ _ _ _ _ _ _ S), <- !app_assoc. auto.
Qed.
End histories.
