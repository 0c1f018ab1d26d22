(** The analytical solution: property lemmas. *)
From Coq Require Import String ZArith QArith Bool Arith List Lia Reals Lra.
From Verif Require Import Prelude PreludeFacts TabFacts Num GridModel GridSpec GridProofs GeoModel GeoSpec GeoProofs PropModel PropSpec PropProofs ScalerModel
  UnitsModel BlackOilModel FdmModel HistSpec Samples SampleFacts SampleWell FrameModel FrameFacts FrameThm AnalyticModel AnalyticSpec AnalyticFacts.
Import ListNotations.
Close Scope Q_scope.
Close Scope R_scope.
Open Scope nat_scope.

Lemma rmapM_cons_ok {A B} (f : A -> res B) v l w ws : f v = Ok w -> rmapM f l = Ok ws -> rmapM f (v :: l) = Ok (w :: ws).
Proof. intros H1 H2. cbn [rmapM]. rewrite H1. cbn [rbind]. rewrite H2. reflexivity. Qed.
Lemma flat_length {A B} k (f : A -> list B) l : (forall v, length (f v) = k) -> length (flat_map f l) = length l * k.
Proof. intros H. induction l as [|v l IH]; [reflexivity|]. cbn [flat_map length Nat.mul]. now rewrite app_length, IH, H. Qed.
Section run.
Variables (m : bo R) (x y z : nat) (u : bool) (dx dy dz : dinput R) (a : axis) (kx phi : list R).
Hypothesis A : analytic m x y z u dx dy dz a kx phi.
Notation g := (ggrid (b_grid m)).
Notation n := (get_n g true).
Notation d := (arg dx dy dz a).
Notation c := (centre d).
Notation L := (c (n - 1) - c 0)%R.
Lemma an_wf : wf g.
Proof. exact (b_wf _ _ _ _ _ _ _ _ (geo_new_built _ _ _ _ _ _ _ _ (an_geo _ _ _ _ _ _ _ _ _ _ _ A))). Qed.
Lemma an_n : n = pad (size g a) /\ 4 <= n.
Proof.
  pose proof (an_one _ _ _ _ _ _ _ _ _ _ _ A) as O.
  destruct (one_way_line g a (fun i j k => 0) (fun _ => 0) an_wf O) as (_ & E).
  { intros i _. now destruct a. }
  split; auto. rewrite E. destruct O as (O & _). unfold flows in O. unfold pad. destruct (Nat.ltb_spec 1 (size g a)); lia.
Qed.
Lemma an_space i : i < n -> (0 < rspacing d i)%R.
Proof.
  intros H. pose proof (geo_new_built _ _ _ _ _ _ _ _ (an_geo _ _ _ _ _ _ _ _ _ _ _ A)) as B.
  assert (O : spacing_ok (size g a) d).
  { unfold ggrid. rewrite (b_gr _ _ _ _ _ _ _ _ B). pose proof (an_one _ _ _ _ _ _ _ _ _ _ _ A) as (O & _). unfold flows in O.
    destruct a; cbn [size] in O; try lia; apply B. }
  pose proof (an_d _ _ _ _ _ _ _ _ _ _ _ A) as P. destruct d as [v|l]; cbn [spacing_ok positive_input rspacing] in *; auto.
  rewrite Forall_forall in P. apply P. apply nth_In. destruct an_n as (E & _). rewrite <- pad_padded in O. lia.
Qed.
Lemma an_inc i : S i < n -> (c i < c (S i))%R.
Proof.
  intros H. unfold centre, left_face.
  assert (E : forall f k lo, rsum f lo (S k) = (rsum f lo k + f (lo + k)%nat)%R).
  { intros f k. induction k as [|k IH]; intros lo; [cbn; rewrite Nat.add_0_r; ring|]. change (rsum f lo (S (S k))) with (f lo + rsum f (S lo) (S k))%R. rewrite IH. cbn [rsum]. rewrite Nat.add_succ_comm. ring. }
  rewrite E. cbn [Nat.add]. pose proof (an_space i ltac:(lia)). pose proof (an_space (S i) H). lra.
Qed.
Lemma an_L : (0 < L)%R.
Proof.
  destruct an_n as (_ & N). assert (c 0 < c 1)%R by (apply an_inc; lia).
  assert (c 1 <= c (n - 1))%R by (apply (inc_le c n); try lia; apply an_inc). lra.
Qed.
Lemma an_centers : get_centers m true = Ok (map (fun i => [c i]) (seq 0 n), [a]).
Proof.
  pose proof (an_geo _ _ _ _ _ _ _ _ _ _ _ A) as Eg. pose proof (geo_new_built _ _ _ _ _ _ _ _ Eg) as B.
  unfold get_centers. rewrite (centers_canon _ _ _ _ _ _ _ _ B). cbn [rbind].
  change (bgrid m) with g. rewrite (one_way_fdir g a an_wf (an_one _ _ _ _ _ _ _ _ _ _ _ A)).
  set (h := fun i => match a with AX => (centre dx i, centre dy 0, centre dz 0) | AY => (centre dx 0, centre dy i, centre dz 0) | _ => (centre dx 0, centre dy 0, centre dz i) end).
  destruct (one_way_line g a (fun i j k => (left_face dx i + rspacing dx i / 2, left_face dy j + rspacing dy j / 2, left_face dz k + rspacing dz k / 2)%R) h an_wf (an_one _ _ _ _ _ _ _ _ _ _ _ A)) as (E & _).
  { intros i _. unfold h, centre. now destruct a. }
  change (gr (geom (b_grid m))) with g. rewrite E.
  assert (K : forall l, rmapM (fun p => rmapM (fun b => col_of b p) [a]) (map h l) = Ok (map (fun i => [c i]) l)).
  { assert (C : forall i, rmapM (fun b => col_of b (h i)) [a] = Ok [c i]).
    { intros i. unfold h. pose proof (an_one _ _ _ _ _ _ _ _ _ _ _ A) as (O & _). unfold flows in O. destruct a; cbn in O |- *; try reflexivity; lia. }
    induction l as [|i l IH]; [reflexivity|]. exact (rmapM_cons_ok (fun p => rmapM (fun b => col_of b p) [a]) (h i) _ _ _ (C i) IH). }
  rewrite K. reflexivity.
Qed.
Lemma an_alpha : get_alpha m = Ok (map2 (fun k f => Some (diffusivity m k f)) kx phi).
Proof.
  unfold get_alpha. rewrite (an_k _ _ _ _ _ _ _ _ _ _ _ A), (an_phi _ _ _ _ _ _ _ _ _ _ _ A). cbn [attrE rbind]. f_equal. unfold map2. apply map_ext_in.
  intros [k f] I. cbn [fst snd]. apply in_combine_r in I. pose proof (an_pos _ _ _ _ _ _ _ _ _ _ _ A) as P. rewrite Forall_forall in P. specialize (P f I).
  pose proof (an_mu _ _ _ _ _ _ _ _ _ _ _ A). pose proof (an_B _ _ _ _ _ _ _ _ _ _ _ A). pose proof (an_v _ _ _ _ _ _ _ _ _ _ _ A). pose proof (an_c _ _ _ _ _ _ _ _ _ _ _ A).
  cbn [nmul Num_R]. rewrite !fdiv_some; [reflexivity|..].
  - unfold Rdiv. apply Rmult_integral_contrapositive_currified; [now apply Rmult_integral_contrapositive_currified|].
    apply Rinv_neq_0_compat. now apply Rmult_integral_contrapositive_currified.
  - now apply Rmult_integral_contrapositive_currified.
  - now apply Rmult_integral_contrapositive_currified.
Qed.
Variables (N nsteps : nat) (pi : R) (s : soln R).
Lemma run_gen lo hi row f l : fit_all nmin (concat (so_p s)) = Ok lo -> fit_all nmax (concat (so_p s)) = Ok hi ->
  pyget (so_p s) 0 = Ok row -> pyget row 0 = Ok f -> pyget row (-1) = Ok l ->
  d1p1_run N (Some pi) m nsteps s =
  (mkSoln (flat_map (fun k => map (fun al => map (fun i => of_unit lo hi (clip (profile_fl N (unit_of lo hi (Some pi)) (unit_of lo hi f) (unit_of lo hi l)
             (Some ((c i - c 0) / L)%R) (Some (al * (INR k * b_dt m) / (L * L))%R)))) (seq 0 n)) (map2 (diffusivity m) kx phi)) (seq 0 (S nsteps)))
          (so_r s) (nsteps + 1) nsteps, Ok tt).
Proof.
  intros F1 F2 F3 F4 F5. unfold d1p1_run. cbn [so_p so_r].
  destruct an_n as (_ & N4). pose proof an_L as PL. pose proof (an_dt _ _ _ _ _ _ _ _ _ _ _ A) as Dt.
  match goal with |- _ = (mkSoln ?r _ _ _, _) => assert (E : d1p1_pressures N (Some pi) m (mkSoln (so_p s) (so_r s) (nsteps + 1) nsteps) = Ok r); [|now rewrite E] end.
  unfold d1p1_pressures, get_domain, get_time. cbn [frame_tstep so_tstep so_p so_nsteps]. rewrite time_vector_R by lra. cbn [rbind].
  rewrite an_centers. cbn [rbind fst snd].
  assert (Cx : concat (map (fun i => [c i]) (seq 0 n)) = map c (seq 0 n)).
  { generalize (seq 0 n). induction l0 as [|i l0 IH]; [reflexivity|]. cbn. now rewrite IH. }
  rewrite Cx. rewrite inc_min by (try apply an_inc; lia). cbn [rbind]. rewrite inc_max by (try apply an_inc; lia). cbn [rbind nsub nmul Num_R].
  rewrite an_alpha. cbn [rbind]. rewrite F1. cbn [rbind]. rewrite F2. cbn [rbind]. rewrite F3. cbn [rbind]. rewrite F4. cbn [rbind]. rewrite F5. cbn [rbind].
  rewrite !map_length, !seq_length, Nat.add_1_r, Nat.eqb_refl. f_equal.
  rewrite flat_map_concat_map, !concat_map, !map_map. rewrite flat_map_concat_map. f_equal. apply map_ext. intros k.
  unfold map2. rewrite !map_map. apply map_ext. intros [k' f']. cbn [fst snd]. rewrite !map_map. apply map_ext. intros i.
  change (fmul (Some (diffusivity m k' f')) (Some (INR k * b_dt m)%R)) with (Some (diffusivity m k' f' * (INR k * b_dt m))%R).
  rewrite !fdiv_some by nra. reflexivity.
Qed.
Variables (p : list R) (ps : list (list R)) (lo hi : R).
Hypotheses (Sp : so_p s = map (map Some) (p :: ps)) (Lp : length p = n) (Lo : least (concat (p :: ps)) lo) (Hi : greatest (concat (p :: ps)) hi) (H : (lo < hi)%R).
Notation sc v := ((v - lo) / (hi - lo))%R.
Notation p0 := (nth 0 p 0%R).
Notation pn := (nth (n - 1) p 0%R).
(** The value of cell i at time t with diffusivity al. *)
Definition value (t al : R) (i : nat) : R :=
  (lo + (hi - lo) * limited (profile N (sc pi) (sc p0) (sc pn) ((c i - c 0) / L) (al * t / (L * L))))%R.
Lemma run_ok : d1p1_run N (Some pi) m nsteps s =
  (mkSoln (flat_map (fun k => map (fun al => map (fun i => Some (value (INR k * b_dt m) al i)) (seq 0 n)) (map2 (diffusivity m) kx phi)) (seq 0 (S nsteps)))
          (so_r s) (nsteps + 1) nsteps, Ok tt).
Proof.
  destruct an_n as (_ & N4).
  assert (G0 : pyget (map Some p) 0 = Ok (Some p0)).
  { unfold pyget. cbn [Z.ltb Z.compare Z.leb Z.to_nat]. destruct p as [|v l]; [cbn [length] in Lp; lia|reflexivity]. }
  assert (G1 : pyget (map Some p) (-1) = Ok (Some pn)).
  { unfold pyget. rewrite map_length, Lp. change (-1 <? 0)%Z with true. cbv iota. destruct (Z.leb_spec 0 (-1 + Z.of_nat n)); [|lia].
    replace (Z.to_nat (-1 + Z.of_nat n)) with (n - 1) by lia. rewrite nth_error_map, (nth_error_nth' p 0%R) by lia. reflexivity. }
  rewrite (run_gen (Some lo) (Some hi) (map Some p) (Some p0) (Some pn)); auto.
  - f_equal. f_equal. rewrite !flat_map_concat_map. f_equal. apply map_ext. intros k. apply map_ext. intros al. apply map_ext. intros i.
    rewrite !unit_some by auto. cbn [profile_fl]. rewrite clip_some, of_unit_some. reflexivity.
  - rewrite Sp, <- concat_map. now apply fit_lo.
  - rewrite Sp, <- concat_map. now apply fit_hi.
  - now rewrite Sp.
Qed.
Lemma p0_in : In p0 (concat (p :: ps)) /\ In pn (concat (p :: ps)).
Proof. destruct an_n as (_ & N4). cbn [concat]. split; apply in_app_iff; left; apply nth_In; lia. Qed.
Lemma sc_range v : In v (concat (p :: ps)) -> (0 <= sc v <= 1)%R.
Proof.
  intros I. destruct Lo as (_ & L1), Hi as (_ & H1). specialize (L1 v I). specialize (H1 v I). assert (P : (0 < hi - lo)%R) by lra. split.
  - apply Rmult_le_pos; [lra|]. left. now apply Rinv_0_lt_compat.
  - apply Rmult_le_reg_r with (hi - lo)%R; auto. unfold Rdiv. rewrite Rmult_assoc, Rinv_l by lra. lra.
Qed.
Lemma sc_back v : (lo + (hi - lo) * sc v = v)%R.
Proof. field. lra. Qed.
Lemma value_first t al : value t al 0 = p0.
Proof.
  unfold value. replace ((c 0%nat - c 0%nat) / L)%R with 0%R by (unfold Rdiv; ring). rewrite profile_0, limited_id by (apply sc_range, p0_in). apply sc_back.
Qed.
Lemma value_last t al : value t al (n - 1) = pn.
Proof.
  unfold value. pose proof an_L. replace (L / L)%R with 1%R by (field; lra). rewrite profile_1, limited_id by (apply sc_range, p0_in). apply sc_back.
Qed.
Lemma value_between t al i : (lo <= value t al i <= hi)%R.
Proof.
  unfold value. match goal with |- context [limited ?v] => pose proof (limited_range v) as (B1 & B2); set (w := limited v) in * end. split; nra.
Qed.
End run.

(** C75, what holds: run keeps tstep, nsteps and the rates as documented; the rows
    of pressures are one profile for each step k and each cell j, computed with the
    time of step k and the diffusivity of cell j. *)
Lemma L_C75_rows_partial :
  forall N pi (m : bo R) x y z u dx dy dz a kx phi s nsteps p ps lo hi,
  analytic m x y z u dx dy dz a kx phi ->
  let n := get_n (ggrid (b_grid m)) true in
  so_p s = map (map Some) (p :: ps) -> length p = n -> least (concat (p :: ps)) lo -> greatest (concat (p :: ps)) hi -> (lo < hi)%R ->
  exists s', d1p1_run N (Some pi) m nsteps s = (s', Ok tt) /\ so_tstep s' = nsteps /\ so_nsteps s' = nsteps + 1 /\ so_r s' = so_r s /\
  length (so_p s') = (nsteps + 1) * n /\
  forall k j i, k <= nsteps -> j < n -> i < n ->
  let c := centre (arg dx dy dz a) in
  let L := (c (n - 1)%nat - c 0%nat)%R in
  let sc v := ((v - lo) / (hi - lo))%R in
  exists row, nth_error (so_p s') (k * n + j) = Some row /\ length row = n /\
  nth_error row i = Some (Some (lo + (hi - lo) * limited (profile N (sc pi) (sc (nth 0 p 0)) (sc (nth (n - 1) p 0))
    ((c i - c 0%nat) / L) (diffusivity m (nth j kx 0) (nth j phi 0) * (INR k * b_dt m) / (L * L)))))%R.
Proof.
  intros N pi m x y z u dx dy dz a kx phi s nsteps p ps lo hi A n Sp Lp Lo Hi H.
  eexists. split; [eapply run_ok; eauto|]. cbn [so_tstep so_nsteps so_r so_p]. split; [reflexivity|]. split; [reflexivity|]. split; [reflexivity|]. split.
  - assert (Q : length (map2 (diffusivity m) kx phi) = n).
    { unfold map2. rewrite map_length, combine_length, (an_kn _ _ _ _ _ _ _ _ _ _ _ A), (an_phin _ _ _ _ _ _ _ _ _ _ _ A). apply Nat.min_id. }
    rewrite (flat_length n); [now rewrite seq_length, Nat.add_1_r|]. intros k. now rewrite map_length.
  - intros k j i Hk Hj Hi'.
    assert (Q : length (map2 (diffusivity m) kx phi) = n).
    { unfold map2. rewrite map_length, combine_length, (an_kn _ _ _ _ _ _ _ _ _ _ _ A), (an_phin _ _ _ _ _ _ _ _ _ _ _ A). apply Nat.min_id. }
    exists (map (fun i => Some (value m dx dy dz a N pi p lo hi (INR k * b_dt m) (diffusivity m (nth j kx 0%R) (nth j phi 0%R)) i)) (seq 0 n)).
    split; [|split; [now rewrite map_length, seq_length|]].
    + rewrite flat_map_concat_map.
      rewrite (nth_error_concat n).
      * assert (Dv : (k * n + j) / n = k) by (rewrite Nat.div_add_l, Nat.div_small; lia). assert (Md : (k * n + j) mod n = j) by (rewrite Nat.add_comm, Nat.mod_add, Nat.mod_small; lia).
        rewrite Dv, Md. rewrite nth_error_map, (nth_error_nth' _ 0) by (rewrite seq_length; lia). rewrite seq_nth by lia. cbn [option_map Nat.add].
        rewrite nth_error_map. unfold map2. rewrite nth_error_map.
        rewrite (nth_error_nth' (combine kx phi) (0, 0)%R) by (rewrite combine_length, (an_kn _ _ _ _ _ _ _ _ _ _ _ A), (an_phin _ _ _ _ _ _ _ _ _ _ _ A); fold n; lia).
        rewrite combine_nth by (rewrite (an_kn _ _ _ _ _ _ _ _ _ _ _ A), (an_phin _ _ _ _ _ _ _ _ _ _ _ A); reflexivity). reflexivity.
      * lia.
      * apply Forall_forall. intros v I. apply in_map_iff in I as (k' & <- & _). now rewrite map_length.
    + rewrite nth_error_map, (nth_error_nth' _ 0) by (now rewrite seq_length). rewrite seq_nth by auto. reflexivity.
Qed.

(** A model with a line of three cells, initial pressure 10 and pressures 20 and 0 at
    its ends. *)
Definition ends (l : list (option R)) : bo R := set_ip l (line3 (1 + 0) true (Some 10%R)).
Lemma ends_analytic l : analytic (ends l) 3 1 1 true (Scalar 1%R) (Scalar 1%R) (Scalar 1%R) AX [1; 1; 1; 1; 1]%R [1; 1; 1; 1; 1]%R.
Proof.
  split; try reflexivity; try (cbn; lra).
  - split; [unfold flows; cbn; lia|]. intros b. unfold flows. destruct b; cbn; auto; lia.
  - repeat constructor; lra.
Qed.
Lemma ends_run : exists m0 : bo R, build 3 1 1 None 1%R (Some 10%R) None = Ok m0 /\
  after (m0, None) [Set_boundary 0%Z "pressure" 20%R; Set_boundary 4%Z "p" 0%R] = (ends (map Some [20; 10; 10; 10; 0]%R), None).
Proof.
  eexists. split; [apply line3_pos; lra|].
  assert (H : all_ok (line3 (1 + 0) true (Some 10%R), None) [Set_boundary 0%Z "pressure" 20%R; Set_boundary 4%Z "p" 0%R] /\
    after (line3 (1 + 0) true (Some 10%R), None) [Set_boundary 0%Z "pressure" 20%R; Set_boundary 4%Z "p" 0%R] = (ends (map Some [20; 10; 10; 10; 0]%R), None)); [|apply H].
  hrun.
Qed.
Example ex_C75_case : exists (m0 m : bo R) p lo hi, build 3 1 1 None 1%R (Some 10%R) None = Ok m0 /\
  fst (after (m0, None) [Set_boundary 0%Z "pressure" 20%R; Set_boundary 4%Z "p" 0%R]) = m /\
  analytic m 3 1 1 true (Scalar 1%R) (Scalar 1%R) (Scalar 1%R) AX [1; 1; 1; 1; 1]%R [1; 1; 1; 1; 1]%R /\
  so_p (d1p1_new m) = map (map Some) [p] /\ length p = get_n (ggrid (b_grid m)) true /\ least (concat [p]) lo /\ greatest (concat [p]) hi /\ (lo < hi)%R.
Proof.
  destruct ends_run as (m0 & E & H). exists m0, (ends (map Some [20; 10; 10; 10; 0]%R)), [20; 10; 10; 10; 0]%R, 0%R, 20%R.
  split; auto. rewrite H. split; [reflexivity|]. split; [apply ends_analytic|]. split; [reflexivity|]. split; [reflexivity|].
  split; [|split; [|lra]]; (split; [cbn; tauto|]); intros w I; cbn in I; repeat destruct I as [<-|I]; try lra; destruct I.
Qed.
(** C75 is false: after one step on three cells there are ten rows. *)
Lemma L_C75_rows_refuted :
  exists (m : bo R) s nsteps, (exists m0, build 3 1 1 None 1%R (Some 10%R) None = Ok m0 /\
    fst (after (m0, None) [Set_boundary 0%Z "pressure" 20%R; Set_boundary 4%Z "p" 0%R]) = m) /\
  d1p1_run 1000 (Some 10%R) m nsteps (d1p1_new m) = (s, Ok tt) /\ length (so_p s) <> nsteps + 1 /\ length (so_p s) = 10 /\ length (so_r s) = 1.
Proof.
  destruct ex_C75_case as (m0 & m & p & lo & hi & E & Em & A & Sp & Lp & Lo & Hi & H).
  destruct (L_C75_rows_partial 1000 10%R m _ _ _ _ _ _ _ _ _ _ (d1p1_new m) 1 p [] lo hi A Sp Lp Lo Hi H) as (s & R1 & _ & _ & R2 & R3 & _).
  exists m, s, 1. split; [now exists m0|]. split; [exact R1|].
  assert (N : get_n (ggrid (b_grid m)) true = 5).
  { destruct ends_run as (m1 & E1 & E2). rewrite E in E1. injection E1 as <-. rewrite E2 in Em. rewrite <- Em. reflexivity. }
  rewrite N in R3. rewrite R3, R2. repeat split. discriminate.
Qed.

(** C73: in every computed row the first and the last cell have their initial
    pressures, and no pressure lies outside the range of the given ones. *)
Lemma L_C73_boundaries :
  forall N pi (m : bo R) x y z u dx dy dz a kx phi s nsteps p ps lo hi,
  analytic m x y z u dx dy dz a kx phi ->
  so_p s = map (map Some) (p :: ps) -> length p = get_n (ggrid (b_grid m)) true ->
  least (concat (p :: ps)) lo -> greatest (concat (p :: ps)) hi -> (lo < hi)%R ->
  exists s', d1p1_run N (Some pi) m nsteps s = (s', Ok tt) /\ so_p s' <> [] /\
  forall row, In row (so_p s') ->
  nth_error row 0 = Some (nth_error p 0) /\ nth_error row (length p - 1) = Some (nth_error p (length p - 1)) /\ length row = length p /\
  forall v, In v row -> exists w, v = Some w /\ (lo <= w <= hi)%R.
Proof.
  intros N pi m x y z u dx dy dz a kx phi s nsteps p ps lo hi A Sp Lp Lo Hi H.
  destruct (an_n _ _ _ _ _ _ _ _ _ _ _ A) as (_ & N4). rewrite Lp.
  eexists. split; [eapply run_ok; eauto|]. cbn [so_p]. split.
  - pose proof (an_kn _ _ _ _ _ _ _ _ _ _ _ A) as L1. pose proof (an_phin _ _ _ _ _ _ _ _ _ _ _ A) as L2. destruct kx, phi; cbn [length] in *; try lia. discriminate.
  - intros row I. apply in_flat_map in I as (k & _ & I). apply in_map_iff in I as (al & <- & _).
    assert (G : forall i, i < get_n (ggrid (b_grid m)) true -> nth_error (map (fun i => Some (value m dx dy dz a N pi p lo hi (INR k * b_dt m) al i)) (seq 0 (get_n (ggrid (b_grid m)) true))) i =
      Some (Some (value m dx dy dz a N pi p lo hi (INR k * b_dt m) al i))).
    { intros i Hi'. rewrite nth_error_map, (nth_error_nth' _ 0) by (now rewrite seq_length). now rewrite seq_nth by auto. }
    split; [|split; [|split; [now rewrite map_length, seq_length|]]].
    + rewrite G by lia. rewrite (nth_error_nth' p 0%R) by lia. do 2 f_equal. eapply value_first; eauto.
    + rewrite G by lia. rewrite (nth_error_nth' p 0%R) by lia. do 2 f_equal. eapply value_last; eauto.
    + intros v Iv. apply in_map_iff in Iv as (i & <- & _). eexists. split; [reflexivity|]. eapply value_between; eauto.
Qed.
Example ex_C73_case : exists (m0 m : bo R) p lo hi, build 3 1 1 None 1%R (Some 10%R) None = Ok m0 /\
  fst (after (m0, None) [Set_boundary 0%Z "pressure" 20%R; Set_boundary 4%Z "p" 0%R]) = m /\
  analytic m 3 1 1 true (Scalar 1%R) (Scalar 1%R) (Scalar 1%R) AX [1; 1; 1; 1; 1]%R [1; 1; 1; 1; 1]%R /\
  so_p (d1p1_new m) = map (map Some) [p] /\ length p = get_n (ggrid (b_grid m)) true /\ least (concat [p]) lo /\ greatest (concat [p]) hi /\ (lo < hi)%R.
Proof. exact ex_C75_case. Qed.
(** C74: before clipping every partial sum solves the heat equation in the
    dimensionless variables, with the given values at both ends. *)
Lemma L_C74_heat :
  forall N i a b, heat (fun x t => profile N i a b x t) /\ forall t, profile N i a b 0%R t = a /\ profile N i a b 1%R t = b.
Proof. intros N i a b. split; [apply profile_heat|]. intros t. split; [apply profile_0|apply profile_1]. Qed.
(** C86: with time every partial sum tends to the straight line between the values at
    the ends. *)
Lemma L_C86_steady :
  forall N i a b eps, (0 < eps)%R -> exists T, forall x t, (T <= t)%R -> (Rabs (profile N i a b x t - (a + (b - a) * x)) < eps)%R.
Proof.
  intros N i a b eps He. set (C := (2 / PI * psum (fun n => Rabs (coef i a b n)) N)%R).
  assert (C0 : (0 <= C)%R).
  { unfold C. apply Rmult_le_pos; [left; apply Rdiv_lt_0_compat; [lra|apply PI_RGT_0]|]. eapply Rle_trans; [|apply psum_abs]. apply Rabs_pos. }
  exists ((C + 1) / eps)%R. intros x t Ht. assert (T0 : (0 < (C + 1) / eps)%R) by (apply Rdiv_lt_0_compat; lra).
  eapply Rle_lt_trans; [apply profile_decay; lra|]. fold C.
  (* exp (- PI^2 t) <= 1 / (1 + PI^2 t) < eps / (C + 1) *)
  assert (P1 : (1 <= PI * PI)%R) by (pose proof PI_4; pose proof PI2_1; nra).
  assert (E1 : (1 + PI * PI * t <= exp (PI * PI * t))%R) by (left; apply exp_ineq1; nra).
  assert (Q : (C + 1 < eps * exp (PI * PI * t))%R).
  { apply Rle_lt_trans with (eps * t)%R.
    - replace (C + 1)%R with (eps * ((C + 1) / eps))%R by (field; lra). apply Rmult_le_compat_l; lra.
    - apply Rmult_lt_compat_l; auto. nra. }
  replace (- (PI * PI) * t)%R with (- (PI * PI * t))%R by ring. rewrite exp_Ropp. pose proof (exp_pos (PI * PI * t)).
  apply Rmult_lt_reg_r with (exp (PI * PI * t)); auto. rewrite Rmult_assoc, Rinv_l by lra. lra.
Qed.

(** ** Missing pressures *)
Lemma fit_none f (l : list (option R)) : In None l -> fit_all f l = Ok None.
Proof.
  destruct l as [|v l]; [intros []|]. intros I. cbn [fit_all]. f_equal. revert v I. induction l as [|w l IH]; intros v I; cbn [fold_left].
  - now destruct I as [->|[]].
  - apply IH. destruct I as [->|[->|I]]; [left; reflexivity|left; now destruct v|now right].
Qed.
(** C87, what happens: if any stored pressure is missing, run succeeds and every
    computed pressure is missing. *)
Lemma L_C87_all_missing :
  forall N pi (m : bo R) x y z u dx dy dz a kx phi s nsteps p ps,
  analytic m x y z u dx dy dz a kx phi -> so_p s = p :: ps -> p <> [] -> In None (concat (p :: ps)) ->
  exists s', d1p1_run N (Some pi) m nsteps s = (s', Ok tt) /\ so_p s' <> [] /\ Forall (Forall (eq None)) (so_p s').
Proof.
  intros N pi m x y z u dx dy dz a kx phi s nsteps p ps A Sp Np I.
  assert (G : exists f l, pyget p 0 = Ok f /\ pyget p (-1) = Ok l).
  { assert (L : 0 < length p) by (destruct p; [congruence|cbn; lia]).
    exists (nth 0 p None), (nth (length p - 1) p None). split.
    - apply (pyget_nth p 0 None L).
    - unfold pyget. change (-1 <? 0)%Z with true. cbv iota. destruct (Z.leb_spec 0 (-1 + Z.of_nat (length p))); [|lia].
      replace (Z.to_nat (-1 + Z.of_nat (length p))) with (length p - 1) by lia. now rewrite (nth_error_nth' p None) by lia. }
  destruct G as (f & l & G0 & G1). rewrite <- Sp in I. 
  eexists. split; [eapply (run_gen _ _ _ _ _ _ _ _ _ _ _ A N nsteps pi s None None p f l); auto using fit_none; now rewrite Sp|]. cbn [so_p]. split.
  - pose proof (an_kn _ _ _ _ _ _ _ _ _ _ _ A) as L1. pose proof (an_phin _ _ _ _ _ _ _ _ _ _ _ A) as L2. destruct (an_n _ _ _ _ _ _ _ _ _ _ _ A) as (_ & N4).
    destruct kx, phi; cbn [length] in *; try lia. discriminate.
  - apply Forall_forall. intros row Ir. apply in_flat_map in Ir as (k & _ & Ir). apply in_map_iff in Ir as (al & <- & _).
    apply Forall_forall. intros v Iv. apply in_map_iff in Iv as (i & <- & _). reflexivity.
Qed.
Lemma one_end : exists m0 : bo R, build 3 1 1 None 1%R (Some 10%R) None = Ok m0 /\
  after (m0, None) [Set_boundary 0%Z "pressure" 20%R] = (ends [Some 20; Some 10; Some 10; Some 10; None]%R, None).
Proof.
  eexists. split; [apply line3_pos; lra|].
  assert (H : all_ok (line3 (1 + 0) true (Some 10%R), None) [Set_boundary 0%Z "pressure" 20%R] /\
    after (line3 (1 + 0) true (Some 10%R), None) [Set_boundary 0%Z "pressure" 20%R] = (ends [Some 20; Some 10; Some 10; Some 10; None]%R, None)); [|apply H].
  hrun.
Qed.
(** C87 is false: a model with a pressure at one end only is accepted. *)
Lemma L_C87_rejected_refuted :
  exists (m0 : bo R) s, build 3 1 1 None 1%R (Some 10%R) None = Ok m0 /\
  let m := fst (after (m0, None) [Set_boundary 0%Z "pressure" 20%R]) in
  d1p1_run 1000 (Some 10%R) m 1 (d1p1_new m) = (s, Ok tt) /\ so_p s <> [] /\ Forall (Forall (eq None)) (so_p s).
Proof.
  destruct one_end as (m0 & E & H).
  destruct (L_C87_all_missing 1000 10%R _ _ _ _ _ _ _ _ _ _ _ (d1p1_new (ends [Some 20; Some 10; Some 10; Some 10; None]%R)) 1 [Some 20; Some 10; Some 10; Some 10; None]%R []
    (ends_analytic [Some 20; Some 10; Some 10; Some 10; None]%R)) as (s & H1 & H2); [reflexivity|discriminate|cbn; tauto|].
  exists m0, s. split; auto. cbv zeta. rewrite H. cbn [fst]. split; auto.
Qed.
Example ex_C87_case : exists (m0 m : bo R), build 3 1 1 None 1%R (Some 10%R) None = Ok m0 /\
  fst (after (m0, None) [Set_boundary 0%Z "pressure" 20%R]) = m /\
  analytic m 3 1 1 true (Scalar 1%R) (Scalar 1%R) (Scalar 1%R) AX [1; 1; 1; 1; 1]%R [1; 1; 1; 1; 1]%R /\
  b_ip m <> [] /\ In None (concat (so_p (d1p1_new m))).
Proof.
  destruct one_end as (m0 & E & H). exists m0, (ends [Some 20; Some 10; Some 10; Some 10; None]%R). rewrite H.
  split; auto. split; [reflexivity|]. split; [apply ends_analytic|]. split; [discriminate|]. cbn. tauto.
Qed.

(** ** Permeability *)
(** C88, along x: the diffusivity of a cell is that of its permeability along the
    flow. *)
Lemma L_C88_direction_partial :
  forall (m : bo R) x y z u dx dy dz kx phi j, analytic m x y z u dx dy dz AX kx phi ->
  j < get_n (ggrid (b_grid m)) true ->
  exists l, get_alpha m = Ok l /\ nth_error l j = Some (Some (diffusivity m (nth j kx 0) (nth j phi 0)))%R.
Proof.
  intros m x y z u dx dy dz kx phi j A H. eexists. split; [eapply an_alpha; eauto|]. unfold map2. rewrite nth_error_map.
  rewrite (nth_error_nth' (combine kx phi) (0, 0)%R) by (rewrite combine_length, (an_kn _ _ _ _ _ _ _ _ _ _ _ A), (an_phin _ _ _ _ _ _ _ _ _ _ _ A); lia).
  rewrite combine_nth by (rewrite (an_kn _ _ _ _ _ _ _ _ _ _ _ A), (an_phin _ _ _ _ _ _ _ _ _ _ _ A); reflexivity). reflexivity.
Qed.
Example ex_C88_case : exists m : bo R, build 3 1 1 None 1%R (Some 10%R) None = Ok m /\
  analytic m 3 1 1 true (Scalar 1%R) (Scalar 1%R) (Scalar 1%R) AX [1; 1; 1; 1; 1]%R [1; 1; 1; 1; 1]%R /\ 3 < get_n (ggrid (b_grid m)) true.
Proof.
  exists (line3 (1 + 0) true (Some 10%R)). split; [apply line3_pos; lra|]. split; [|cbn; lia].
  exact (ends_analytic (b_ip (line3 (1 + 0) true (Some 10%R)))).
Qed.
(** C88 is false along y: the permeability along y has no effect, and without one
    along x no diffusivity is found. *)
Lemma L_C88_direction_refuted :
  exists (m2 m5 mn : bo Q),
  build_k 1 3 1 (Some (Scalar 1%Q)) (Some (Scalar 2%Q)) = Ok m2 /\ build_k 1 3 1 (Some (Scalar 1%Q)) (Some (Scalar 5%Q)) = Ok m5 /\
  build_k 1 3 1 None (Some (Scalar 2%Q)) = Ok mn /\
  one_way (ggrid (b_grid m2)) AY /\ get_alpha m2 = get_alpha m5 /\ get_alpha mn = Err AttributeError.
Proof.
  do 3 eexists. split; [vm_compute; reflexivity|]. split; [vm_compute; reflexivity|]. split; [vm_compute; reflexivity|]. split.
  - split; [unfold flows; cbn; lia|]. intros [| | |]; unfold flows; cbn; intros; auto; lia.
  - split; vm_compute; reflexivity.
Qed.

(** ** Flow in several directions *)
Lemma rows_of_cols (fd : list axis) (pts : list (R * R * R)) : (forall a, In a fd -> a <> ADash) ->
  exists c, rmapM (fun p => rmapM (fun a => col_of a p) fd) pts = Ok c /\ length (concat c) = length pts * length fd.
Proof.
  intros H. induction pts as [|p pts IH]; [exists []; auto|]. destruct IH as (c & E & L).
  assert (K : exists r, rmapM (fun a => col_of a p) fd = Ok r /\ length r = length fd).
  { clear - H. induction fd as [|a fd IH]; [exists []; auto|]. destruct IH as (r & E & L); [intros; apply H; now right|].
    destruct p as ((p1, p2), p3). specialize (H a (or_introl eq_refl)).
    destruct a; try congruence; eexists; (split; [eapply (rmapM_cons_ok (fun a => col_of a (p1, p2, p3))); [reflexivity|exact E]|cbn; now rewrite L]). }
  destruct K as (r & Er & Lr). exists (r :: c). split; [exact (rmapM_cons_ok (fun p => rmapM (fun a => col_of a p) fd) p pts r c Er E)|].
  cbn [concat length Nat.mul]. now rewrite app_length, L, Lr.
Qed.
(** C89: on a grid with flow along two or three axes run raises ValueError; pressures
    and rates stay as they were. *)
Lemma L_C89_one_direction_only :
  forall N pi (m : bo R) x y z u dx dy dz a b s nsteps p ps,
  geo_new x y z u dx dy dz = Ok (geom (b_grid m)) -> flows (ggrid (b_grid m)) a -> flows (ggrid (b_grid m)) b -> a <> b ->
  att (pget KX (prs (b_grid m))) <> None -> att (pget PHI (prs (b_grid m))) <> None -> (0 < b_dt m)%R ->
  so_p s = p :: ps -> p <> [] ->
  exists s', d1p1_run N (Some pi) m nsteps s = (s', Err ValueError) /\ so_p s' = so_p s /\ so_r s' = so_r s.
Proof.
  intros N pi m x y z u dx dy dz a b s nsteps p ps E Fa Fb Nab K Ph Dt Sp Np.
  pose proof (b_wf _ _ _ _ _ _ _ _ (geo_new_built _ _ _ _ _ _ _ _ E)) as W.
  exists (mkSoln (so_p s) (so_r s) (nsteps + 1) nsteps). split; [|split; reflexivity].
  unfold d1p1_run. cbn [so_p so_r].
  match goal with |- match ?e with _ => _ end = _ => assert (D : e = Err ValueError); [|now rewrite D] end.
  unfold d1p1_pressures, get_domain, get_time. cbn [frame_tstep so_tstep so_p so_nsteps]. rewrite time_vector_R by lra. cbn [rbind].
  unfold get_centers. destruct (centers_ok _ _ _ _ _ _ _ _ true E) as (pts & Ep & Lpts). rewrite Ep. cbn [rbind].
  change (bgrid m) with (ggrid (b_grid m)). set (g := ggrid (b_grid m)) in *. change (gr (geom (b_grid m))) with g in *.
  assert (Q : (forall c, In c (get_fdir g) -> c <> ADash) /\ 2 <= length (get_fdir g)).
  { rewrite get_fdir_spec by auto. unfold flow_axes. unfold flows, size in Fa, Fb.
    destruct (Nat.ltb_spec 1 (nx g)), (Nat.ltb_spec 1 (ny g)), (Nat.ltb_spec 1 (nz g)); cbn [app length In]; destruct a, b; try lia; try congruence;
    split; try lia; intros c; cbn; intuition congruence. }
  destruct Q as (Q1 & Q2). destruct (rows_of_cols (get_fdir g) pts Q1) as (c & Ec & Lc). rewrite Ec. cbn [rbind fst snd].
  assert (Pos : 0 < get_n g true) by (rewrite get_n_true by auto; unfold pad; destruct W as (?&?&?); destruct (1 <? nx g), (1 <? ny g), (1 <? nz g); nia).
  set (xs := concat c) in *. assert (Nx : xs <> []) by (intros X; rewrite X in Lc; cbn in Lc; nia).
  assert (R1 : forall f, exists v, reduce f xs = Ok v) by (intros f; destruct xs; [congruence|now eexists]).
  destruct (R1 nmin) as (v1 & ->). cbn [rbind]. destruct (R1 nmax) as (v2 & ->). cbn [rbind].
  unfold get_alpha. destruct (att (pget KX (prs (b_grid m)))) as [kx|]; [|congruence]. destruct (att (pget PHI (prs (b_grid m)))) as [ph|]; [|congruence]. cbn [attrE rbind].
  rewrite Sp. destruct p as [|f p]; [congruence|]. cbn [concat app fit_all rbind].
  assert (G : exists l, pyget (f :: p) (-1) = Ok l).
  { unfold pyget. change (-1 <? 0)%Z with true. cbv iota. destruct (Z.leb_spec 0 (-1 + Z.of_nat (length (f :: p)))); [|cbn [length] in *; lia].
    rewrite (nth_error_nth' (f :: p) f) by lia. eauto. }
  destruct G as (l & Gl). change (pyget ((f :: p) :: ps) 0) with (Ok (f :: p)). cbn [rbind].
  change (pyget (f :: p) 0) with (Ok f). cbn [rbind]. rewrite Gl. cbn [rbind].
  rewrite map_length, seq_length. change (bgrid m) with g.
  destruct (Nat.eqb_spec ((nsteps + 1) * length xs) ((nsteps + 1) * get_n g true)) as [X|X]; [|].
  - exfalso. rewrite Lc, Lpts in X. nia.
  - destruct (Nat.eqb_spec (S nsteps * length xs) ((nsteps + 1) * get_n g true)); [|reflexivity]. exfalso. apply X. now rewrite Nat.add_1_r in *.
Qed.
Lemma square_new : exists m : bo R, build 2 2 1 None 1%R (Some 10%R) None = Ok m /\
  geo_new 2 2 1 true (Scalar 1%R) (Scalar 1%R) (Scalar 1%R) = Ok (geom (b_grid m)) /\
  flows (ggrid (b_grid m)) AX /\ flows (ggrid (b_grid m)) AY /\
  att (pget KX (prs (b_grid m))) <> None /\ att (pget PHI (prs (b_grid m))) <> None /\ (0 < b_dt m)%R /\ b_ip m <> [].
Proof.
  assert (Q1 : Reqb 1 0 = false) by (apply Reqb_ne; lra).
  assert (Q2 : Rltb 0 1 = true) by (apply Rltb_true; lra).
  assert (Q3 : Reqb (1 + 0) 0 = false) by (apply Reqb_ne; lra).
  assert (Q4 : Rltb 0 (1 + 0) = true) by (apply Rltb_true; lra).
  eexists. split.
  - unfold build, gobj_new, geo_new. cbn -[IZR fluid_new bo_new]. unfold set_comp, comp_class. cbn -[IZR fluid_new bo_new]. rewrite (Reqb_eq 0 0 eq_refl).
    unfold fluid_new. cbn -[IZR bo_new]. unfold fset_props, fset_comp, cset. cbn -[IZR bo_new]. rewrite Q1, Q2. cbn -[IZR bo_new].
    unfold bo_new. cbn -[IZR]. unfold cset. cbn -[IZR]. rewrite Q3, Q4. reflexivity.
  - cbn -[IZR]. unfold flows. cbn -[IZR]. repeat split; try lia; try discriminate; try lra.
Qed.
Example ex_C89_case : exists m : bo R, build 2 2 1 None 1%R (Some 10%R) None = Ok m /\
  geo_new 2 2 1 true (Scalar 1%R) (Scalar 1%R) (Scalar 1%R) = Ok (geom (b_grid m)) /\
  flows (ggrid (b_grid m)) AX /\ flows (ggrid (b_grid m)) AY /\
  att (pget KX (prs (b_grid m))) <> None /\ att (pget PHI (prs (b_grid m))) <> None /\ (0 < b_dt m)%R /\ b_ip m <> [].
Proof. exact square_new. Qed.
(** C90 is false: the counters of a solution change although its run raised. *)
Lemma L_C90_failed_run_refuted :
  exists m s, build 2 2 1 None 1%R (Some 10%R) None = Ok m /\
  d1p1_run 1000 (Some 10%R) m 5 (d1p1_new m) = (s, Err ValueError) /\
  so_p s = [b_ip m] /\ so_nsteps (d1p1_new m) = 1 /\ so_nsteps s = 6 /\ so_tstep (d1p1_new m) = 0 /\ so_tstep s = 5.
Proof.
  destruct square_new as (m & E & H1 & H2 & H3 & H4 & H5 & H6 & H7).
  destruct (L_C89_one_direction_only 1000 10%R m 2 2 1 true _ _ _ AX AY (d1p1_new m) 5 (b_ip m) [] H1 H2 H3 ltac:(discriminate) H4 H5 H6 eq_refl H7) as (s & R1 & R2 & R3).
  exists m, s. split; [exact E|]. split; [exact R1|]. split; [exact R2|]. split; [reflexivity|].
  unfold d1p1_run in R1. destruct (d1p1_pressures _ _ _ _); [discriminate|]. injection R1 as <- _. repeat split.
Qed.

(** ** Running again *)
(** C91: if the smallest and the largest pressure are those at the two ends, a run
    does not depend on earlier runs. *)
Lemma L_C91_run_again :
  forall N pi (m : bo R) x y z u dx dy dz a kx phi s nsteps nsteps' p ps,
  analytic m x y z u dx dy dz a kx phi ->
  let n := get_n (ggrid (b_grid m)) true in
  so_p s = map (map Some) (p :: ps) -> length p = n ->
  let p0 := nth 0 p 0%R in let pn := nth (n - 1) p 0%R in
  least (concat (p :: ps)) (Rmin p0 pn) -> greatest (concat (p :: ps)) (Rmax p0 pn) -> p0 <> pn ->
  d1p1_run N (Some pi) m nsteps' (fst (d1p1_run N (Some pi) m nsteps s)) = d1p1_run N (Some pi) m nsteps' s.
Proof.
  intros N pi m x y z u dx dy dz a kx phi s nsteps nsteps' p ps A n Sp Lp p0 pn Lo Hi Ne.
  assert (H : (Rmin p0 pn < Rmax p0 pn)%R) by (unfold Rmin, Rmax; destruct (Rle_dec p0 pn); lra).
  set (lo := Rmin p0 pn) in *. set (hi := Rmax p0 pn) in *.
  rewrite (run_ok m x y z u dx dy dz a kx phi A N nsteps pi s p ps lo hi Sp Lp Lo Hi H).
  rewrite (run_ok m x y z u dx dy dz a kx phi A N nsteps' pi s p ps lo hi Sp Lp Lo Hi H). cbn [fst].
  set (V := value m dx dy dz a N pi p lo hi).
  assert (Q : exists d0 ds, map2 (diffusivity m) kx phi = d0 :: ds).
  { pose proof (an_kn _ _ _ _ _ _ _ _ _ _ _ A) as L1. pose proof (an_phin _ _ _ _ _ _ _ _ _ _ _ A) as L2. destruct (an_n _ _ _ _ _ _ _ _ _ _ _ A) as (_ & N4).
    destruct kx, phi; cbn [length] in *; try lia. cbn. eauto. }
  destruct Q as (d0 & ds & Ed). set (al := map2 (diffusivity m) kx phi) in *.
  assert (N4 : 4 <= n) by (apply (an_n _ _ _ _ _ _ _ _ _ _ _ A)).
  set (q := map (V (INR 0 * b_dt m)%R d0) (seq 0 n)).
  set (rows := flat_map (fun k => map (fun al => map (V (INR k * b_dt m)%R al) (seq 0 n)) al) (seq 0 (S nsteps))).
  assert (Er : exists qs, rows = q :: qs).
  { unfold rows. cbn [seq flat_map]. rewrite Ed. cbn [map app]. eexists. reflexivity. }
  destruct Er as (qs & Er).
  assert (S1 : flat_map (fun k => map (fun al => map (fun i => Some (V (INR k * b_dt m)%R al i)) (seq 0 n)) al) (seq 0 (S nsteps)) = map (map Some) (q :: qs)).
  { rewrite <- Er. unfold rows. rewrite !flat_map_concat_map, concat_map, map_map. f_equal. apply map_ext. intros k. rewrite map_map. apply map_ext. intros w. now rewrite map_map. }
  assert (F0 : nth 0 q 0%R = p0).
  { unfold q. rewrite nth_indep with (d' := V (INR 0 * b_dt m)%R d0 0) by (rewrite map_length, seq_length; lia). rewrite map_nth, seq_nth by lia. cbn [Nat.add]. exact (value_first _ _ _ _ _ _ _ _ _ _ _ A N pi p ps lo hi Lp Lo Hi H _ _). }
  assert (Fn : nth (n - 1) q 0%R = pn).
  { unfold q. rewrite nth_indep with (d' := V (INR 0 * b_dt m)%R d0 0) by (rewrite map_length, seq_length; lia). rewrite map_nth, seq_nth by lia. cbn [Nat.add]. exact (value_last _ _ _ _ _ _ _ _ _ _ _ A N pi p ps lo hi Lp Lo Hi H _ _). }
  assert (Lq : length q = n) by (unfold q; now rewrite map_length, seq_length).
  assert (I0 : In p0 (concat (q :: qs)) /\ In pn (concat (q :: qs))).
  { rewrite <- F0, <- Fn at 1. cbn [concat]. split; apply in_or_app; left; apply nth_In; lia. }
  assert (B : forall w, In w (concat (q :: qs)) -> (lo <= w <= hi)%R).
  { intros w I. rewrite <- Er in I. apply in_concat in I as (r & Ir & Iw). unfold rows in Ir. apply in_flat_map in Ir as (k & _ & Ir). apply in_map_iff in Ir as (d & <- & _).
    apply in_map_iff in Iw as (i & <- & _). exact (value_between m dx dy dz a N pi p lo hi H _ _ _). }
  assert (Lo' : least (concat (q :: qs)) lo).
  { split; [|intros w I; now apply B]. unfold lo, Rmin. destruct (Rle_dec p0 pn); apply I0. }
  assert (Hi' : greatest (concat (q :: qs)) hi).
  { split; [|intros w I; now apply B]. unfold hi, Rmax. destruct (Rle_dec p0 pn); apply I0. }
  match goal with |- d1p1_run _ _ _ _ ?s1 = _ => rewrite (run_ok m x y z u dx dy dz a kx phi A N nsteps' pi s1 q qs lo hi S1 Lq Lo' Hi' H) end.
  cbn [so_r]. f_equal. f_equal. rewrite !flat_map_concat_map. f_equal. apply map_ext. intros k. apply map_ext. intros w. apply map_ext. intros i. f_equal.
  unfold V, value. fold n. rewrite F0, Fn. reflexivity.
Qed.
Example ex_C91_case : exists (m0 m : bo R) (p : list R), build 3 1 1 None 1%R (Some 10%R) None = Ok m0 /\
  fst (after (m0, None) [Set_boundary 0%Z "pressure" 20%R; Set_boundary 4%Z "p" 0%R]) = m /\
  analytic m 3 1 1 true (Scalar 1%R) (Scalar 1%R) (Scalar 1%R) AX [1; 1; 1; 1; 1]%R [1; 1; 1; 1; 1]%R /\
  so_p (d1p1_new m) = [map Some p] /\ length p = get_n (ggrid (b_grid m)) true /\
  least (concat [p]) (Rmin (nth 0 p 0) (nth 4 p 0))%R /\ greatest (concat [p]) (Rmax (nth 0 p 0) (nth 4 p 0))%R /\ (nth 0 p 0 <> nth 4 p 0)%R.
Proof.
  destruct ends_run as (m0 & E & H). exists m0, (ends (map Some [20; 10; 10; 10; 0]%R)), [20; 10; 10; 10; 0]%R.
  split; auto. rewrite H. split; [reflexivity|]. split; [apply ends_analytic|]. split; [reflexivity|]. split; [reflexivity|].
  cbn [nth concat app]. rewrite Rmin_right, Rmax_left by lra.
  split; [|split; [|lra]]; (split; [cbn; tauto|]); cbn; intros w I; repeat (destruct I as [<-|I]; [lra|]); destruct I.
Qed.
