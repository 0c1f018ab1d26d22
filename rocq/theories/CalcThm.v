(** calc_solution of the analytical solution: property lemmas. *)
From Coq Require Import String ZArith Bool Arith List Lia Reals Lra.
From Verif Require Import Prelude PreludeFacts TabFacts Num GridModel GridSpec GridProofs GeoModel GeoSpec GeoProofs PropModel PropSpec PropProofs ScalerModel ScalerSpec
  UnitsModel BlackOilModel FdmModel HistSpec Samples SampleFacts SampleWell FrameModel FrameSpec FrameFacts FrameThm ScaleModel ScaleSpec ScaleFacts ScaleFull ScaleThm AnalyticModel AnalyticSpec AnalyticFacts AnalyticThm CalcModel.
Import ListNotations.
Close Scope R_scope.
Open Scope nat_scope.

Section calc.
Variables (m : bo R) (x y z : nat) (u : bool) (dx dy dz : dinput R) (a : axis) (kx phi : list R).
Hypothesis A : analytic m x y z u dx dy dz a kx phi.
Notation g := (ggrid (b_grid m)).
Notation n := (get_n g true).
Notation d := (arg dx dy dz a).
Notation c := (centre d).
Notation L := (c (n - 1) - c 0)%R.
Variables (N : nat) (pi : R) (s : soln R).
Variables (p : list R) (ps : list (list R)) (lo hi : R).
Hypotheses (Sp : so_p s = map (map Some) (p :: ps)) (Lp : length p = n) (Lo : least (concat (p :: ps)) lo) (Hi : greatest (concat (p :: ps)) hi) (H : (lo < hi)%R).
Notation sc v := ((v - lo) / (hi - lo))%R.
Notation p0 := (nth 0 p 0%R).
Notation pn := (nth (n - 1) p 0%R).
(** The scaled value of cell i at step k with diffusivity al. *)
Definition raw (k : nat) (al : R) (i : nat) : R := profile N (sc pi) (sc p0) (sc pn) ((c i - c 0) / L)%R (al * (INR k * b_dt m) / (L * L))%R.
Definition raws : list (list R) :=
  flat_map (fun k => map (fun al => map (raw k al) (seq 0 n)) (map2 (diffusivity m) kx phi)) (seq 0 (S (so_tstep s))).
Lemma domain_plain S : get_domain_s m (Some s) false true S = (S, Ok (map (fun k => Some (INR k * b_dt m)%R) (seq 0 (1 + so_tstep s)), map (fun i => [Some (c i)]) (seq 0 n))).
Proof.
  unfold get_domain_s, get_time_s, get_centers_s, mbind, mread. cbn [frame_tstep]. pose proof (an_dt _ _ _ _ _ _ _ _ _ _ _ A) as Dt. rewrite time_vector_R by lra. cbv zeta. unfold mret at 1.
  rewrite (an_centers _ _ _ _ _ _ _ _ _ _ _ A). cbv zeta. unfold mret. cbn [fst snd]. rewrite !map_map. reflexivity.
Qed.
Lemma calc_gen scale clean r S S' t X : get_domain_s m (Some s) scale true S = (S', Ok (t, X)) -> length t * length (concat X) = so_nsteps s * n ->
  calc_solution N scale r clean (Some pi) m s S = (S', Ok (reshape_rows n (flat_map (fun t => map (fun x => (t, x)) (concat X)) t),
    map (map (fun v => let v := Some (if clean then limited v else v) in
       if scale then fadd (fdiv (fmul (fsub (snd r) (fst r)) (fsub v (Some n0))) (Some (nsub n1 n0))) (fst r) else of_unit (Some lo) (Some hi) v)) raws)).
Proof.
  intros E EL. unfold calc_solution. destruct (an_n _ _ _ _ _ _ _ _ _ _ _ A) as (_ & N4). pose proof (an_L _ _ _ _ _ _ _ _ _ _ _ A) as PL.
  assert (G0 : pyget (map Some p) 0 = Ok (Some p0)).
  { unfold pyget. cbn [Z.ltb Z.compare Z.leb Z.to_nat]. destruct p as [|v l]; [cbn [length] in Lp; lia|reflexivity]. }
  assert (G1 : pyget (map Some p) (-1) = Ok (Some pn)).
  { unfold pyget. rewrite map_length, Lp. change (-1 <? 0)%Z with true. cbv iota. destruct (Z.leb_spec 0 (-1 + Z.of_nat n)); [|lia].
    replace (Z.to_nat (-1 + Z.of_nat n)) with (n - 1) by lia. rewrite nth_error_map, (nth_error_nth' p 0%R) by lia. reflexivity. }
  assert (Cx : concat (map (fun i => [Some (c i)]) (seq 0 n)) = map Some (map c (seq 0 n))).
  { rewrite map_map. generalize (seq 0 n). induction l as [|i l IH]; [reflexivity|]. cbn. now rewrite IH. }
  unfold mbind at 1. rewrite domain_plain. cbn [fst snd]. unfold mbind at 1. unfold mread at 1. unfold BlackOilModel.fl in *.
  assert (U : unit_domain m (map (fun k => Some (INR k * b_dt m)%R) (seq 0 (1 + so_tstep s))) (concat (map (fun i => [Some (c i)]) (seq 0 n))) =
    Ok (flat_map (fun k => map (fun al => Some (al * (INR k * b_dt m) / (L * L))%R) (map2 (diffusivity m) kx phi)) (seq 0 (1 + so_tstep s)), map (fun i => Some ((c i - c 0) / L)%R) (seq 0 n))).
  { unfold unit_domain. rewrite Cx. assert (NE : map c (seq 0 n) <> []) by (destruct n; [lia|discriminate]).
    rewrite (fit_some nmin) by auto. rewrite inc_min by (try apply (an_inc _ _ _ _ _ _ _ _ _ _ _ A); lia). cbn [rbind].
    rewrite (fit_some nmax) by auto. rewrite inc_max by (try apply (an_inc _ _ _ _ _ _ _ _ _ _ _ A); lia). cbn [rbind].
    rewrite (an_alpha _ _ _ _ _ _ _ _ _ _ _ A). cbn [rbind]. change (fsub (Some (c (n - 1))) (Some (c 0))) with (Some L). change (fmul (Some L) (Some L)) with (Some (L * L)%R).
    f_equal. f_equal.
    - rewrite !flat_map_concat_map, map_map. f_equal. apply map_ext. intros k. unfold map2. rewrite !map_map. apply map_ext. intros [k' f']. cbn [fst snd].
      change (fmul (Some (diffusivity m k' f')) (Some (INR k * b_dt m)%R)) with (Some (diffusivity m k' f' * (INR k * b_dt m))%R). apply fdiv_some. nra.
    - rewrite !map_map. apply map_ext. intros i. change (fsub (Some (c i)) (Some (c 0))) with (Some (c i - c 0)%R). apply fdiv_some. lra. }
  rewrite U. clear U. cbn [fst snd].
  unfold mbind at 1. unfold mread at 1. rewrite Sp, <- concat_map, (fit_lo _ _ Lo). cbv beta iota.
  unfold mbind at 1. unfold mread at 1. rewrite (fit_hi _ _ Hi). cbv beta iota.
  unfold mbind at 1. unfold mread at 1. unfold mbind at 1. unfold mread at 1. change (pyget (map (map Some) (p :: ps)) 0) with (Ok (map Some p)). cbv beta iota.
  unfold mbind at 1. unfold mread at 1. rewrite G0. cbv beta iota.
  unfold mbind at 1. unfold mread at 1. rewrite G1. cbv beta iota zeta.
  unfold mbind at 1. rewrite E. cbn [fst snd].
  assert (FL : length (flat_map (fun t => map (fun x => (t, x)) (concat X)) t) = length t * length (concat X)) by (apply flat_length; intros; apply map_length).
  unfold mbind at 1. unfold mread at 1. rewrite FL, EL. change (bgrid m) with g. rewrite Nat.eqb_refl. unfold mret. f_equal. f_equal. f_equal.
  unfold raws. rewrite !unit_some by auto. rewrite !flat_map_concat_map. destruct clean.
  - rewrite !map_map, !concat_map, !map_map. f_equal. apply map_ext. intros k. rewrite !map_map. apply map_ext. intros al. rewrite !map_map. apply map_ext. intros i.
    cbn [profile_fl]. rewrite clip_some. reflexivity.
  - rewrite !concat_map, !map_map. f_equal. apply map_ext. intros k. rewrite !map_map. apply map_ext. intros al. rewrite !map_map. apply map_ext. intros i. reflexivity.
Qed.
Lemma nth_list {B} (l l' : list B) : (forall k, nth_error l k = nth_error l' k) -> l = l'.
Proof. revert l'. induction l as [|b l IH]; intros [|b' l'] K; auto; try (specialize (K 0); discriminate). pose proof (K 0) as K0. injection K0 as ->. f_equal. apply IH. intros k. exact (K (S k)). Qed.
Lemma rows_flat {B C} (f : B -> list C) w l : 0 < w -> (forall v, length (f v) = w) -> reshape_rows w (flat_map f l) = map f l.
Proof. intros W E. rewrite flat_map_concat_map. apply reshape_concat; auto. apply Forall_forall. intros r I. apply in_map_iff in I as (v & <- & _). auto. Qed.
Lemma c_range i : i < n -> (c 0 <= c i <= c (n - 1))%R.
Proof using A. intros I. clear -A I. split; apply (inc_le c n); try apply (an_inc _ _ _ _ _ _ _ _ _ _ _ A); lia. Qed.
Lemma an_pts : exists pts, get_cells_center (geom (b_grid m)) true = Ok pts /\ length pts = n /\ map (coord_of a) pts = map c (seq 0 n).
Proof using A.
  clear -A. pose proof (an_geo _ _ _ _ _ _ _ _ _ _ _ A) as Eg. pose proof (geo_new_built _ _ _ _ _ _ _ _ Eg) as B.
  set (h := fun i => match a with AX => (centre dx i, centre dy 0, centre dz 0) | AY => (centre dx 0, centre dy i, centre dz 0) | _ => (centre dx 0, centre dy 0, centre dz i) end).
  destruct (one_way_line g a (fun i j k => (left_face dx i + rspacing dx i / 2, left_face dy j + rspacing dy j / 2, left_face dz k + rspacing dz k / 2)%R) h (an_wf _ _ _ _ _ _ _ _ _ _ _ A) (an_one _ _ _ _ _ _ _ _ _ _ _ A)) as (E & _).
  { intros i _. unfold h, centre. now destruct a. }
  exists (map h (seq 0 n)). rewrite (centers_canon _ _ _ _ _ _ _ _ B). change (gr (geom (b_grid m))) with g. rewrite E. split; [reflexivity|]. rewrite map_length, seq_length. split; [reflexivity|].
  rewrite map_map. apply map_ext. intros i. unfold h. pose proof (an_one _ _ _ _ _ _ _ _ _ _ _ A) as (O & _). unfold flows in O. destruct a; cbn in O |- *; try reflexivity; lia.
Qed.
Lemma domain_scaled S a1 b1 a2 b2 : 0 < so_tstep s -> scales_to S QTime a1 b1 -> scales_to S QSpace a2 b2 ->
  exists S', get_domain_s m (Some s) true true S = (S', Ok (map (fun k => Some (affine a1 b1 0 (INR (so_tstep s) * b_dt m) (INR k * b_dt m))) (seq 0 (1 + so_tstep s)),
    map (fun i => [Some (affine a2 b2 (c 0) (c (n - 1)) (c i))]) (seq 0 n))).
Proof using A.
  intros T0 S1 S2. clear -A T0 S1 S2. pose proof (an_dt _ _ _ _ _ _ _ _ _ _ _ A) as Dt. pose proof (an_L _ _ _ _ _ _ _ _ _ _ _ A) as PL. destruct (an_n _ _ _ _ _ _ _ _ _ _ _ A) as (_ & N4).
  set (f0 := fdm_new m). set (f := mkFs (s_p f0) (s_r f0) (s_nsteps f0) (so_tstep s) (s_As f0) (s_ds f0) (s_A f0) (s_res f0) (s_bv f0) (s_sym f0) (s_err f0) (s_cum f0)).
  destruct (L_C100_time m f S a1 b1 Dt S1) as (l & E1 & E2 & E3 & _). change (s_tstep f) with (so_tstep s) in *. specialize (E3 T0).
  assert (El : l = map (fun k => Some (affine a1 b1 0 (INR (so_tstep s) * b_dt m) (INR k * b_dt m))) (seq 0 (1 + so_tstep s))).
  { apply nth_list. intros k. destruct (le_lt_dec (1 + so_tstep s) k) as [K|K].
    - rewrite (proj2 (nth_error_None _ _)) by lia. symmetry. apply nth_error_None. now rewrite map_length, seq_length.
    - rewrite E3 by lia. rewrite nth_error_map, (nth_error_nth' _ 0) by now rewrite seq_length. rewrite seq_nth by auto. cbn [option_map Nat.add]. now rewrite affine_even. }
  change (get_time_s m (Some (of_fdm f)) true S) with (get_time_s m (Some s) true S) in E1.
  destruct an_pts as (pts & P1 & P2 & P3).
  pose proof (one_way_fdir g a (an_wf _ _ _ _ _ _ _ _ _ _ _ A) (an_one _ _ _ _ _ _ _ _ _ _ _ A)) as Fd. change g with (bgrid m) in Fd.
  assert (Na : a <> ADash). { pose proof (an_one _ _ _ _ _ _ _ _ _ _ _ A) as (O & _). unfold flows in O. intros ->. cbn in O. lia. }
  assert (Hd : forall b, In b (get_fdir (bgrid m)) -> b <> ADash). { rewrite Fd. intros b [<-|[]]. exact Na. }
  assert (Cs : forall v, coords pts a v <-> exists i, i < n /\ v = c i).
  { intros v. unfold coords. split.
    - intros (q & I & ->). apply (in_map (coord_of a)) in I. rewrite P3 in I. apply in_map_iff in I as (i & <- & I). apply in_seq in I. exists i. split; [lia|reflexivity].
    - intros (i & I & ->). assert (J : In (c i) (map (coord_of a) pts)) by (rewrite P3; apply in_map, in_seq; lia). apply in_map_iff in J as (q & E & J). eauto. }
  set (fx := fun (_ : string) => affine a2 b2 (c 0) (c (n - 1))).
  assert (Hm : forall b, In b (get_fdir (bgrid m)) -> maps S QSpace (coords pts b) (fx (axis_name b))).
  { rewrite Fd. intros b [<-|[]]. right. exists a2, b2, (c 0), (c (n - 1)). split; [exact S2|]. split; [|split; [lra|reflexivity]].
    split; [apply Cs; exists 0; split; [lia|reflexivity]|]. split; [apply Cs; exists (n - 1); split; [lia|reflexivity]|]. intros v V. apply Cs in V as (i & I & ->). now apply c_range. }
  destruct (space_fit m S pts fx P1 Hd Hm) as (w & U & Fw & Hw).
  assert (E4 : snd (get_centers_s m true true S) = Ok (map (fun i => [Some (affine a2 b2 (c 0) (c (n - 1)) (c i))]) (seq 0 n), [a])).
  { unfold get_centers_s, mbind, mread. rewrite (ScaleThm.centers_ok m true pts P1 Hd). cbv zeta. rewrite (U S eq_refl). cbn [put_space space_scaler fst snd]. rewrite scale_cols_ok; auto.
    - unfold mret. cbn [snd]. rewrite Fd. f_equal. f_equal. rewrite !map_map.
      transitivity (map (fun v => [Some (affine a2 b2 (c 0) (c (n - 1)) v)]) (map (coord_of a) pts)); [|now rewrite P3, map_map]. rewrite map_map. apply map_ext. intros q. rewrite map_map, <- Fd.
      rewrite (row_coords w fx _ q Hw). rewrite Fd. reflexivity.
    - rewrite Fd. cbn. lia.
    - apply Forall_forall. intros r I. apply in_map_iff in I as (r' & <- & I). apply in_map_iff in I as (q & <- & _). now rewrite !map_length. }
  pose proof (L_C100_domain R _ _ m (Some s) true true S) as D. rewrite E1, E4 in D. cbn [fst] in D. rewrite El in D. exists (fst (get_domain_s m (Some s) true true S)).
  rewrite (surjective_pairing (get_domain_s m (Some s) true true S)) at 1. now rewrite D.
Qed.
End calc.
Lemma forall2_map {B C} (P : C -> C -> Prop) (f h : B -> C) l : (forall v, In v l -> P (f v) (h v)) -> Forall2 P (map f l) (map h l).
Proof. induction l as [|v l IH]; intros K; constructor; [apply K; now left|apply IH; intros; apply K; now right]. Qed.

Lemma limited_between lo hi v : (lo < hi)%R -> (lo + (hi - lo) * limited v = Rmin hi (Rmax lo (lo + (hi - lo) * v)))%R.
Proof.
  intros H. unfold limited. destruct (Rle_lt_dec v 0) as [V|V].
  - rewrite (Rmax_left 0 v), (Rmin_right 1 0) by lra. rewrite (Rmax_left lo) by nra. rewrite Rmin_right; lra.
  - rewrite (Rmax_right 0 v) by lra. rewrite (Rmax_right lo) by nra. destruct (Rle_lt_dec v 1).
    + rewrite !Rmin_right by nra. reflexivity.
    + rewrite !Rmin_left by nra. ring.
Qed.

(** ** C113 *)
(** calc_solution with its defaults returns the pressures that run stores, and the time
    and place of each, without changing anything. *)
Lemma L_C113_same_as_run :
  forall N pi (m : bo R) x y z u dx dy dz a kx phi s p ps lo hi r S,
  analytic m x y z u dx dy dz a kx phi ->
  let n := get_n (ggrid (b_grid m)) true in
  so_p s = map (map Some) (p :: ps) -> length p = n -> least (concat (p :: ps)) lo -> greatest (concat (p :: ps)) hi -> (lo < hi)%R ->
  so_nsteps s = so_tstep s + 1 ->
  exists X, calc_solution N false r true (Some pi) m s S = (S, Ok (X, so_p (fst (d1p1_run N (Some pi) m (so_tstep s) s)))) /\
  snd (d1p1_run N (Some pi) m (so_tstep s) s) = Ok tt /\ length X = so_nsteps s /\
  forall k, k < so_nsteps s -> exists row, nth_error X k = Some row /\ length row = n /\
  forall i, i < n -> nth_error row i = Some (Some (INR k * b_dt m)%R, Some (centre (arg dx dy dz a) i)).
Proof.
  intros N pi m x y z u dx dy dz a kx phi s p ps lo hi r S A n Sp Lp Lo Hi H Ns.
  destruct (an_n _ _ _ _ _ _ _ _ _ _ _ A) as (_ & N4). fold n in N4.
  pose proof (calc_gen _ _ _ _ _ _ _ _ _ _ _ A N pi s p ps lo hi Sp Lp Lo Hi H false true r S S _ _ (domain_plain _ _ _ _ _ _ _ _ _ _ _ A s S)) as C.
  rewrite (run_ok _ _ _ _ _ _ _ _ _ _ _ A N (so_tstep s) pi s p ps lo hi Sp Lp Lo Hi H). cbn [fst snd so_p].
  assert (Cx : concat (map (fun i => [Some (centre (arg dx dy dz a) i)]) (seq 0 n)) = map (fun i => Some (centre (arg dx dy dz a) i)) (seq 0 n)).
  { generalize (seq 0 n). induction l as [|i l IH]; [reflexivity|]. cbn. now rewrite IH. }
  unfold BlackOilModel.fl in C. fold n in C. rewrite Cx in C. rewrite !map_length, !seq_length in C. specialize (C ltac:(lia)).
  rewrite rows_flat in C by (try lia; intros; now rewrite !map_length, seq_length).
  match goal with |- exists X, _ = (_, Ok (_, ?v)) /\ _ => set (pr := v) end. match type of C with _ = (_, Ok (_, ?v)) => assert (PE : v = pr) end.
  { unfold pr, raws. rewrite !flat_map_concat_map, !concat_map, !map_map. f_equal. apply map_ext. intros k. rewrite !map_map. apply map_ext. intros al. rewrite !map_map. apply map_ext. intros i.
    cbv zeta. rewrite of_unit_some. reflexivity. }
  rewrite PE in C. eexists. split; [exact C|].
  split; [reflexivity|]. rewrite !map_length, seq_length. split; [lia|]. intros k K. rewrite map_map, nth_error_map, (nth_error_nth' _ 0) by (rewrite seq_length; lia). rewrite seq_nth by lia. cbn [option_map Nat.add].
    eexists. split; [reflexivity|]. rewrite !map_length, seq_length. split; [reflexivity|]. intros i I. rewrite map_map, nth_error_map, (nth_error_nth' _ 0) by now rewrite seq_length. rewrite seq_nth by auto. reflexivity.
Qed.
(** Cleaning limits the values to the range of the recorded pressures and does nothing
    else. *)
Lemma L_C113_clean :
  forall N pi (m : bo R) x y z u dx dy dz a kx phi s p ps lo hi r S,
  analytic m x y z u dx dy dz a kx phi ->
  so_p s = map (map Some) (p :: ps) -> length p = get_n (ggrid (b_grid m)) true -> least (concat (p :: ps)) lo -> greatest (concat (p :: ps)) hi -> (lo < hi)%R ->
  so_nsteps s = so_tstep s + 1 ->
  exists X p1 p2, calc_solution N false r false (Some pi) m s S = (S, Ok (X, p1)) /\ calc_solution N false r true (Some pi) m s S = (S, Ok (X, p2)) /\
  p1 <> [] /\ Forall2 (Forall2 (fun v w => exists q, v = Some q /\ w = Some (Rmin hi (Rmax lo q)))) p1 p2.
Proof.
  intros N pi m x y z u dx dy dz a kx phi s p ps lo hi r S A Sp Lp Lo Hi H Ns.
  set (n := get_n (ggrid (b_grid m)) true) in *.
  destruct (an_n _ _ _ _ _ _ _ _ _ _ _ A) as (_ & N4). fold n in N4.
  assert (Cx : concat (map (fun i => [Some (centre (arg dx dy dz a) i)]) (seq 0 n)) = map (fun i => Some (centre (arg dx dy dz a) i)) (seq 0 n)).
  { generalize (seq 0 n). induction l as [|i l IH]; [reflexivity|]. cbn. now rewrite IH. }
  assert (C : forall clean, _) by (intros clean; refine (calc_gen _ _ _ _ _ _ _ _ _ _ _ A N pi s p ps lo hi Sp Lp Lo Hi H false clean r S S _ _ (domain_plain _ _ _ _ _ _ _ _ _ _ _ A s S) _); unfold BlackOilModel.fl; fold n; rewrite Cx, !map_length, !seq_length; lia).
  do 3 eexists. split; [exact (C false)|]. split; [exact (C true)|]. split.
  - unfold raws. cbn [seq flat_map]. intros K. apply (f_equal (@length _)) in K. rewrite map_length, app_length, map_length in K. unfold map2 in K. rewrite map_length, combine_length, (an_kn _ _ _ _ _ _ _ _ _ _ _ A), (an_phin _ _ _ _ _ _ _ _ _ _ _ A), Nat.min_id in K. fold n in K. cbn [length] in K. lia.
  - apply forall2_map. intros row _. apply forall2_map. intros v _. cbv zeta. rewrite !of_unit_some. eexists. split; [reflexivity|]. f_equal. now apply limited_between.
Qed.
(** Scaled: the pressures are mapped from the range of the recorded pressures to the
    range asked for, times and places by the scalers of the model. *)
Lemma L_C113_scaled :
  forall N pi (m : bo R) x y z u dx dy dz a kx phi s p ps lo hi b1 b2 clean S t1 t2 x1 x2,
  analytic m x y z u dx dy dz a kx phi ->
  let n := get_n (ggrid (b_grid m)) true in
  so_p s = map (map Some) (p :: ps) -> length p = n -> least (concat (p :: ps)) lo -> greatest (concat (p :: ps)) hi -> (lo < hi)%R ->
  so_nsteps s = so_tstep s + 1 -> 0 < so_tstep s -> scales_to S QTime t1 t2 -> scales_to S QSpace x1 x2 ->
  exists S' X0 X1 p0 p1, calc_solution N false (Some b1, Some b2) clean (Some pi) m s S = (S, Ok (X0, p0)) /\
  calc_solution N true (Some b1, Some b2) clean (Some pi) m s S = (S', Ok (X1, p1)) /\ p0 <> [] /\ X0 <> [] /\
  Forall2 (Forall2 (fun v w => exists q, v = Some q /\ w = Some (affine b1 b2 lo hi q))) p0 p1 /\
  let c := centre (arg dx dy dz a) in
  Forall2 (Forall2 (fun v w => exists t h, v = (Some t, Some h) /\
    w = (Some (affine t1 t2 0 (INR (so_tstep s) * b_dt m) t), Some (affine x1 x2 (c 0%nat) (c (n - 1)%nat) h)))) X0 X1.
Proof.
  intros N pi m x y z u dx dy dz a kx phi s p ps lo hi b1 b2 clean S t1 t2 x1 x2 A n Sp Lp Lo Hi H Ns Ts S1 S2.
  destruct (an_n _ _ _ _ _ _ _ _ _ _ _ A) as (_ & N4). fold n in N4.
  destruct (domain_scaled _ _ _ _ _ _ _ _ _ _ _ A s S t1 t2 x1 x2 Ts S1 S2) as (S' & D). fold n in D.
  assert (Cx : forall f : nat -> option R, concat (map (fun i => [f i]) (seq 0 n)) = map f (seq 0 n)).
  { intros f. generalize (seq 0 n). induction l as [|i l IH]; [reflexivity|]. cbn. now rewrite IH. }
  pose proof (calc_gen _ _ _ _ _ _ _ _ _ _ _ A N pi s p ps lo hi Sp Lp Lo Hi H false clean (Some b1, Some b2) S S _ _ (domain_plain _ _ _ _ _ _ _ _ _ _ _ A s S)) as C0.
  pose proof (calc_gen _ _ _ _ _ _ _ _ _ _ _ A N pi s p ps lo hi Sp Lp Lo Hi H true clean (Some b1, Some b2) S S' _ _ D) as C1.
  unfold BlackOilModel.fl in C0, C1. fold n in C0, C1. rewrite (Cx (fun i => Some (centre (arg dx dy dz a) i))) in C0. rewrite (Cx (fun i => Some (affine x1 x2 _ _ (centre (arg dx dy dz a) i)))) in C1.
  rewrite !map_length, !seq_length in C0, C1. specialize (C0 ltac:(lia)). specialize (C1 ltac:(lia)).
  rewrite rows_flat in C0, C1 by (try lia; intros; now rewrite !map_length, seq_length).
  do 5 eexists. split; [exact C0|]. split; [exact C1|]. split; [|split; [cbn; discriminate|split]].
  - unfold raws. cbn [seq flat_map]. intros K. apply (f_equal (@length _)) in K. rewrite map_length, app_length, map_length in K. unfold map2 in K. rewrite map_length, combine_length, (an_kn _ _ _ _ _ _ _ _ _ _ _ A), (an_phin _ _ _ _ _ _ _ _ _ _ _ A), Nat.min_id in K. fold n in K. cbn [length] in K. lia.
  - apply forall2_map. intros row _. apply forall2_map. intros v _. cbv zeta. rewrite of_unit_some. eexists. split; [reflexivity|]. cbn [fst snd].
    match goal with |- context [fsub (Some ?v) (Some n0)] => change (fmul (fsub (Some b2) (Some b1)) (fsub (Some v) (Some n0))) with (Some ((b2 - b1) * (v - 0))%R) end. change (nsub n1 n0) with (1 - 0)%R. rewrite fdiv_some by lra. cbn [fadd lift2]. unfold affine. cbn [nadd Num_R]. f_equal. field. lra.
  - cbv zeta. rewrite !map_map. apply forall2_map. intros k _. rewrite !map_map. apply forall2_map. intros i _. eauto.
Qed.
Example ex_C113_case : exists (m0 m : bo R) s p ps lo hi, build 3 1 1 None 1%R (Some 10%R) None = Ok m0 /\
  fst (after (m0, None) [Set_boundary 0%Z "pressure" 20%R; Set_boundary 4%Z "p" 0%R]) = m /\
  analytic m 3 1 1 true (Scalar 1%R) (Scalar 1%R) (Scalar 1%R) AX [1; 1; 1; 1; 1]%R [1; 1; 1; 1; 1]%R /\
  fst (d1p1_run 1000 (Some 10%R) m 2 (d1p1_new m)) = s /\ so_p s = map (map Some) (p :: ps) /\ length p = get_n (ggrid (b_grid m)) true /\
  least (concat (p :: ps)) lo /\ greatest (concat (p :: ps)) hi /\ (lo < hi)%R /\ so_nsteps s = so_tstep s + 1 /\ 0 < so_tstep s /\
  scales_to (@scalers_new R Num_R) QTime 0 1 /\ scales_to (@scalers_new R Num_R) QSpace (-1) 1.
Proof.
  destruct ends_run as (m0 & E & Em). set (q := [20; 10; 10; 10; 0]%R). set (m := ends (map Some q)) in *. exists m0, m.
  assert (A := ends_analytic (map Some q)). fold m in A.
  assert (Lo : least (concat [q]) 0%R) by (split; [cbn; tauto|]; intros w I; cbn in I; repeat destruct I as [<-|I]; try lra; destruct I).
  assert (Hi : greatest (concat [q]) 20%R) by (split; [cbn; tauto|]; intros w I; cbn in I; repeat destruct I as [<-|I]; try lra; destruct I).
  assert (H : (0 < 20)%R) by lra.
  pose proof (run_ok _ _ _ _ _ _ _ _ _ _ _ A 1000 2 10%R (d1p1_new m) q [] 0%R 20%R eq_refl eq_refl Lo Hi H) as R1. rewrite R1. cbn [fst].
  change (get_n (ggrid (b_grid m)) true) with 5 in *.
  set (v := fun k al i => value m (Scalar 1%R) (Scalar 1%R) (Scalar 1%R) AX 1000 10%R q 0 20 (INR k * b_dt m) al i).
  set (rows := flat_map (fun k => map (fun al => map (v k al) (seq 0 5)) (map2 (diffusivity m) [1; 1; 1; 1; 1]%R [1; 1; 1; 1; 1]%R)) (seq 0 3)).
  eexists. exists (hd [] rows), (tl rows), 0%R, 20%R.
  assert (Er : rows = hd [] rows :: tl rows) by reflexivity.
  assert (Vr : forall w, In w (concat rows) -> exists k al i, w = v k al i).
  { intros w I. apply in_concat in I as (r & I & J). apply in_flat_map in I as (k & _ & I). apply in_map_iff in I as (al & <- & _). apply in_map_iff in J as (i & <- & _). eauto. }
  assert (V0 : forall w, In w (concat rows) -> (0 <= w <= 20)%R) by (intros w I; apply Vr in I as (k & al & i & ->); exact (value_between m (Scalar 1%R) (Scalar 1%R) (Scalar 1%R) AX 1000 10%R q 0%R 20%R H _ _ _)).
  assert (Vf : In 20%R (concat rows)).
  { rewrite Er. cbn [concat]. apply in_app_iff. left. left. exact (value_first _ _ _ _ _ _ _ _ _ _ _ A 1000 10%R q [] 0%R 20%R eq_refl Lo Hi H _ _). }
  assert (Vl : In 0%R (concat rows)).
  { rewrite Er. cbn [concat]. apply in_app_iff. left. right. right. right. right. left. exact (value_last _ _ _ _ _ _ _ _ _ _ _ A 1000 10%R q [] 0%R 20%R eq_refl Lo Hi H _ _). }
  split; [exact E|]. split; [now rewrite Em|]. split; [exact A|]. split; [reflexivity|]. cbn [so_p so_nsteps so_tstep]. rewrite <- Er. split.
  { unfold rows. rewrite !flat_map_concat_map, concat_map, map_map. f_equal; apply map_ext; intros k; rewrite map_map; apply map_ext; intros al; rewrite map_map; reflexivity. }
  split; [reflexivity|]. split; [split; [exact Vl|apply V0]|]. split; [split; [exact Vf|apply V0]|]. split; [exact H|]. split; [reflexivity|]. split; [lia|]. split; exists None, None; reflexivity.
Qed.
