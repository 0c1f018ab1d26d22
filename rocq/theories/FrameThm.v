(** The data frames of a model: property lemmas. *)
From Coq Require Import String ZArith Bool Arith List Lia Reals Lra SpecFloat QArith Sorted.
From Verif Require Import Prelude PreludeFacts TabFacts Num GridModel GridSpec GridProofs GeoModel GeoSpec GeoProofs PropModel PropSpec PropProofs AgreeProofs UnitsModel BlackOilModel FdmModel
  WellThm WellStepFacts MonadFacts HistSpec InvFacts StepSpec StepFacts StepThm Samples SampleFacts SampleWell QSamples FrameModel FrameSpec FrameFacts.
Import ListNotations.
Close Scope Q_scope. Close Scope R_scope.
Open Scope nat_scope.

(** ** C70 *)
(** C70, with exact arithmetic: the time vector has tstep+1 entries t*dt. *)
Lemma L_C70_exact_partial :
  forall (tstep : nat) (dt : R), (0 < dt)%R ->
  exists l, time_vector tstep dt = Ok l /\ length l = tstep + 1 /\
  forall t, t <= tstep -> nth_error l t = Some (INR t * dt)%R.
Proof.
  intros tstep dt H. rewrite time_vector_R by lra. eexists. split; [reflexivity|]. rewrite map_length, seq_length. split; [lia|].
  intros t L. rewrite nth_error_map, (nth_error_nth' _ 0) by (rewrite seq_length; lia). rewrite seq_nth by lia. reflexivity.
Qed.
Example ex_C70_case : (0 < 1 / 10)%R.
Proof. lra. Qed.
(** C70 is false in double precision: at step 2 with dt = 0.1 (the double nearest
    to it) there are four entries, because 3 * 0.1 / 0.1 rounds to a number greater
    than 3. *)
Lemma L_C70_double_refuted :
  exists dt : spec_float, dt = ndiv n1 (nofZ 10) /\ nltb n0 dt = true /\
  exists l, time_vector 2 dt = Ok l /\ length l = 4.
Proof. eexists. split; [reflexivity|]. split; [vm_compute; reflexivity|]. eexists. split; [vm_compute; reflexivity|reflexivity]. Qed.

(** ** C83 *)
(** C83: whatever is called, and whether it succeeds or not, every row of pressures
    and rates has one entry per cell. *)
Lemma L_C83_row_length :
  forall (F : Type) (NF : Num F) (NT : NumT F) g f unit pi dt (m0 : bo F) l,
  bo_new g f unit pi dt = Ok m0 -> rows_of (get_n (ggrid g) true) (after (m0, None) l).
Proof. intros F NF NT g f unit pi dt m0 l E. apply wide_rows, w_after, (bo_new_wide _ _ _ _ _ _ E). Qed.
Example ex_C83_case : exists g f (m0 : bo R) s, bo_new g f "metric" (Some 10%R) 1%R = Ok m0 /\
  snd (after (m0, None) [Compile; Run (fun _ _ _ => Ok [Some 10%R; Some 10%R; Some 10%R]) one 3 9 true false true false false None]) = Some s /\ length (s_p s) = 4.
Proof.
  destruct ex_C50_case as (m0 & m & s & E & A & _ & E1 & E2). unfold build in E.
  destruct (gobj_new _ _ _ _ _ _ _ _ _ _ _ _ _ _) as [g|] eqn:Eg; cbn [rbind] in E; [|discriminate].
  destruct (fluid_new _ _ _ _ _) as [f|] eqn:Ef; cbn [rbind] in E; [|discriminate].
  exists g, f, m0, s. split; [exact E|]. destruct (L_C50_rows_partial _ _ _ _ _ _ _ A E1) as (L & _).
  split; [exact (f_equal snd E1)|]. rewrite L, E2. reflexivity.
Qed.

(** ** C71 *)
Lemma core_after {F} {NF : Num F} {NT : NumT F} l (x : ws F) : core (fst (after x l)) = core (fst x).
Proof.
  apply (c_after (fun m => core m = core (fst x))); auto; intros; [rewrite core_ip|rewrite core_ir|rewrite core_wells|rewrite core_wp|rewrite core_bdict|rewrite core_bup|rewrite core_terms]; auto.
Qed.
Lemma ids_ok g b : wf g -> exists ids, get_cells_id g b = Ok ids /\ length ids = get_n g b /\ Forall (fun id => (0 <= id < Z.of_nat (get_n g true))%Z) ids.
Proof.
  intros W. destruct b.
  - rewrite cells_id_true. eexists. split; [reflexivity|]. split; [apply arange_length|]. unfold arange. apply Forall_forall.
    intros id I. apply in_map_iff in I as (k & <- & I). apply in_seq in I. lia.
  - rewrite cells_id_false by auto. eexists. split; [reflexivity|]. split.
    + pose proof (cells_id_false g W) as E. rewrite ids_per_in in E by auto. injection E as E'. apply (f_equal (@length Z)) in E'. etransitivity; [symmetry; exact E'|].
      unfold per_in. rewrite tab_length, get_n_count by auto. cbn [prodn fold_right]. lia.
    + apply Forall_forall. intros id I. apply in_map_iff in I as (k & <- & I). split; [lia|]. apply Nat2Z.inj_lt.
      rewrite get_n_true by auto. destruct W as (?&?&?). eapply box_lt; [| | |exact I]; apply keepsel_lt; auto.
Qed.
Lemma centers_ok x y z u (dx dy dz : dinput R) G b : geo_new x y z u dx dy dz = Ok G ->
  exists pts, get_cells_center G b = Ok pts /\ length pts = get_n (gr G) b.
Proof.
  intros E. apply geo_new_built in E. pose proof (b_wf _ _ _ _ _ _ _ _ E) as W.
  pose proof (centers_canon G x y z u dx dy dz E) as C. destruct b.
  - eexists. split; [exact C|]. now apply per_cell_length.
  - assert (E1 : get_cells_center G false = (let* c := get_cells_center G true in at_cells_id (gr G) c)) by reflexivity.
    rewrite E1, C. cbn [rbind]. rewrite (at_cells_id_nth _ _ (0, 0, 0)%R) by (auto using per_cell_length). eexists. split; [reflexivity|].
    rewrite map_length. destruct (ids_ok (gr G) false W) as (ids & Ei & L & _). rewrite cells_id_false in Ei by auto. inversion Ei; subst. now rewrite map_length in L.
Qed.
Lemma fdir_real g : wf g -> has_flow g -> get_fdir g <> [] /\ forall a, In a (get_fdir g) -> a <> ADash.
Proof.
  intros W H. rewrite get_fdir_spec by auto. unfold flow_axes. unfold has_flow, flows, size in H.
  destruct (Nat.ltb_spec 1 (nx g)), (Nat.ltb_spec 1 (ny g)), (Nat.ltb_spec 1 (nz g)); cbn; split; try congruence; try (intros a; intuition congruence); lia.
Qed.
Lemma rmapM_get {A} (row : list A) d ids : Forall (fun id => (0 <= id < Z.of_nat (length row))%Z) ids ->
  rmapM (pyget row) ids = Ok (map (fun id => nth (Z.to_nat id) row d) ids).
Proof.
  intros H. apply rmapM_ok. intros id I. rewrite Forall_forall in H. specialize (H id I).
  rewrite <- (Z2Nat.id id) at 1 by lia. apply pyget_nth. lia.
Qed.
Lemma rows_get (a : list (list (fl R))) n ids : Forall (fun row => length row = n) a -> Forall (fun id => (0 <= id < Z.of_nat n)%Z) ids ->
  all_rows a ids = Ok (map (fun row => map (fun id => nth (Z.to_nat id) row None) ids) a).
Proof. intros H I. apply rmapM_ok. intros row Ir. apply rmapM_get. rewrite Forall_forall in H. now rewrite (H row Ir). Qed.

Lemma snd_combine {A} (l : list A) : forall k, map (fun jl => snd jl) (combine (seq k (length l)) l) = l.
Proof. induction l as [|a l IH]; intros k; cbn; [reflexivity|]. now rewrite IH. Qed.

Section melted.
Variables (m : bo R) (s : fs R) (b : bool) (ids : list Z) (pts : list (R * R * R)) (n : nat).
Hypotheses (Hi : get_cells_id (bgrid m) b = Ok ids) (Li : length ids = get_n (bgrid m) b)
  (Ri : Forall (fun id => (0 <= id < Z.of_nat n)%Z) ids) (Hn : 0 < length ids)
  (Hp : get_cells_center (geom (b_grid m)) b = Ok pts) (Lp : length pts = length ids)
  (Hf : get_fdir (bgrid m) <> []) (Hd : forall a, In a (get_fdir (bgrid m)) -> a <> ADash)
  (Sp : Forall (fun row => length row = n) (s_p s)) (Sr : Forall (fun row => length row = n) (s_r s))
  (Np : length (s_p s) = s_nsteps s) (Nr : length (s_r s) = s_nsteps s) (Nt : s_nsteps s = S (s_tstep s)) (Dt : b_dt m <> 0%R).
Notation N := (s_nsteps s * length ids).
Notation O3 := (0, 0, 0)%R.
Definition right (c : string * list (val R)) : Prop := length (snd c) = N /\ forall r, r < N ->
  nth_error (snd c) r = Some (melted_value (b_dt m) s (fst c) (r / length ids) (nth (r mod length ids) ids 0%Z) (nth (r mod length ids) pts O3)).
Definition good (names : list string) (df : frame R) : Prop := f_rows df = N /\ map fst (f_cols df) = names /\ Forall right (f_cols df).
Lemma good_same names df : good names df -> same_rows N df.
Proof. intros (A & _ & C). split; auto. eapply Forall_impl; [|exact C]. intros c Hc. apply Hc. Qed.
Lemma good_concat names ns df data : good names df -> good ns data -> good (names ++ ns) (pd_concat df data).
Proof.
  intros G1 G2. rewrite (concat_same N) by eauto using good_same. destruct G1 as (A & B & C), G2 as (A' & B' & C').
  split; auto. cbn [f_cols]. split; [rewrite map_app; congruence|now apply Forall_app].
Qed.
Lemma r_lt r : r < N -> r / length ids < s_nsteps s /\ r mod length ids < length ids.
Proof. intros L. split; [apply Nat.div_lt_upper_bound; lia|apply Nat.mod_upper_bound; lia]. Qed.

Lemma ok_time df names : good names df -> exists df', add_time m (Some (of_fdm s)) true b df = Ok df' /\ good (names ++ ["Time"%string]) df'.
Proof.
  intros G. unfold add_time. cbn [frame_tstep of_fdm so_tstep]. rewrite time_vector_R by auto. cbn [rbind]. eexists. split; [reflexivity|].
  apply good_concat; auto. rewrite <- Li, <- Nt. split; [|split; [reflexivity|constructor; [|constructor]]].
  - unfold series. cbn [f_rows]. now rewrite map_length, np_repeat_length, map_length, seq_length.
  - split; cbn [fst snd]; [now rewrite map_length, np_repeat_length, map_length, seq_length|].
    intros r L. destruct (r_lt r L) as (L1 & L2). rewrite nth_error_map, np_repeat_nth by auto.
    rewrite nth_error_map, (nth_error_nth' _ 0) by (rewrite seq_length; lia). rewrite seq_nth by lia. reflexivity.
Qed.
Lemma ok_date df names : good names df -> exists df', add_date m (Some (of_fdm s)) true b df = Ok df' /\ good (names ++ ["Date"%string]) df'.
Proof.
  intros G. unfold add_date. cbn [frame_tstep of_fdm so_tstep]. eexists. split; [reflexivity|].
  apply good_concat; auto. rewrite <- Li, Nat.add_1_r, <- Nt. split; [|split; [reflexivity|constructor; [|constructor]]].
  - unfold series. cbn [f_rows]. now rewrite np_repeat_length, map_length, seq_length.
  - split; cbn [fst snd]; [now rewrite np_repeat_length, map_length, seq_length|].
    intros r L. destruct (r_lt r L) as (L1 & L2). rewrite np_repeat_nth by auto.
    rewrite nth_error_map, (nth_error_nth' _ 0) by (rewrite seq_length; lia). rewrite seq_nth by lia. reflexivity.
Qed.
Lemma cells_good (a : list (list (fl R))) name : Forall (fun row => length row = n) a -> length a = s_nsteps s ->
  (forall t id p, melted_value (b_dt m) s name t id p = value_at a t id) ->
  good [name] (table [name] (map (fun v => [v]) (concat (map (map (@vfl R)) (map (fun row => map (fun id => nth (Z.to_nat id) row None) ids) a))))).
Proof.
  intros Ha La V. set (c := map (map (@vfl R)) _).
  assert (Hc : Forall (fun row => length row = length ids) c).
  { subst c. apply Forall_forall. intros row I. apply in_map_iff in I as (row1 & <- & I). apply in_map_iff in I as (row2 & <- & I). now rewrite !map_length. }
  assert (Lc : length c = s_nsteps s) by (subst c; now rewrite !map_length).
  unfold table. cbn [length seq combine map fst snd]. rewrite map_map. cbn [nth]. rewrite map_id.
  split; [cbn [f_rows]; rewrite map_length, (concat_length_full (length ids)) by auto; now rewrite Lc|].
  split; [reflexivity|]. constructor; [|constructor]. split; cbn [fst snd]; [rewrite (concat_length_full (length ids)) by auto; now rewrite Lc|].
  intros r L. destruct (r_lt r L) as (L1 & L2). rewrite (nth_error_concat (length ids)) by auto. rewrite V. subst c.
  rewrite !nth_error_map. unfold value_at. destruct (nth_error a (r / length ids)) as [row|] eqn:Er; [|apply nth_error_None in Er; lia].
  match goal with |- context [option_map (map _) (option_map _ ?e)] => replace e with (Some row) by (symmetry; exact Er) end.
  cbn [option_map]. rewrite !nth_error_map, (nth_error_nth' _ 0%Z) by auto. cbn [option_map]. f_equal.
  assert (Lr : length row = n) by (rewrite Forall_forall in Ha; apply nth_error_In in Er; auto).
  set (id := nth (r mod length ids) ids 0%Z). assert (Iid : (0 <= id < Z.of_nat n)%Z).
  { rewrite Forall_forall in Ri. apply Ri, nth_In; auto. }
  rewrite (nth_error_nth' row None (n := Z.to_nat id)) by (apply Nat.lt_le_trans with n; [lia|rewrite <- Lr; apply le_n]). reflexivity.
Qed.
Lemma ok_rate df names : good names df -> exists df', add_cells "Q" (get_rate_all (Some (of_fdm s))) m true b df = Ok df' /\ good (names ++ ["Q"%string]) df'.
Proof.
  intros G. unfold add_cells. rewrite Hi. cbn [rbind get_rate_all of_fdm so_r]. rewrite (rows_get _ n) by auto. cbn [rbind].
  eexists. split; [reflexivity|]. apply good_concat; auto. apply cells_good; auto.
Qed.
Lemma ok_pressure df names : good names df -> exists df', add_cells "P" (get_pressure_all (Some (of_fdm s))) m true b df = Ok df' /\ good (names ++ ["P"%string]) df'.
Proof.
  intros G. unfold add_cells. rewrite Hi. cbn [rbind get_pressure_all of_fdm so_p]. rewrite (rows_get _ n) by auto. cbn [rbind].
  eexists. split; [reflexivity|]. apply good_concat; auto. apply cells_good; auto.
Qed.
Lemma ok_start : exists df, melted_start m (Some (of_fdm s)) b = Ok df /\ good ("id"%string :: "Step"%string :: map axis_name (get_fdir (bgrid m))) df.
Proof.
  unfold melted_start. rewrite Hi. cbn [rbind of_fdm so_nsteps]. unfold pd_assign at 1. cbn [f_cols frame0 rbind].
  unfold pd_assign. cbn [f_cols f_rows]. rewrite np_repeat_length, np_tile_length, !map_length, seq_length, <- Li, Nat.eqb_refl. cbn [rbind app].
  unfold add_xyz, get_centers. rewrite Hp. cbn [rbind].
  set (fd := get_fdir (bgrid m)) in *.
  assert (E : rmapM (fun p : R * R * R => rmapM (fun a => col_of a p) fd) pts = Ok (map (fun p => map (fun a => coord_of a p) fd) pts)).
  { apply rmapM_ok. intros p _. apply rmapM_ok. intros a Ia. apply Hd in Ia. destruct p as [[? ?] ?], a; try reflexivity. congruence. }
  rewrite E. cbn [rbind fst snd]. set (c := map _ pts).
  assert (W : 0 < length fd) by (destruct fd; [congruence|cbn; lia]).
  assert (Fc : Forall (fun row => length row = length fd) (np_tile c (s_nsteps s))).
  { apply Forall_forall. intros row I. unfold np_tile in I. apply in_flat_map in I as (? & _ & I). subst c. apply in_map_iff in I as (p & <- & _). apply map_length. }
  rewrite <- concat_tile, reshape_concat by auto. eexists. split; [reflexivity|].
  assert (Lc : length c = length ids) by (subst c; now rewrite map_length).
  apply (good_concat ["id"; "Step"]%string).
  - split; [reflexivity|]. split; [reflexivity|]. constructor; [|constructor; [|constructor]]; cbn [fst snd]; split; cbn [fst snd].
    + now rewrite np_tile_length, map_length.
    + intros r L. destruct (r_lt r L) as (L1 & L2). rewrite np_tile_nth by now rewrite map_length. rewrite map_length, nth_error_map, (nth_error_nth' _ 0%Z) by auto. reflexivity.
    + now rewrite np_repeat_length, map_length, seq_length.
    + intros r L. destruct (r_lt r L) as (L1 & L2). rewrite np_repeat_nth by auto.
      rewrite nth_error_map, (nth_error_nth' _ 0) by (rewrite seq_length; lia). rewrite seq_nth by lia. reflexivity.
  - unfold table. split; [cbn [f_rows]; rewrite map_length, np_tile_length; now rewrite Lc|]. cbn [f_cols]. split.
    + rewrite map_map. cbn [fst snd]. apply snd_combine.
    + apply Forall_forall. intros [nm col] I. apply in_map_iff in I as ((j & nm') & E1 & I). rewrite map_length in I. inversion E1; subst; clear E1. cbn [fst snd].
      assert (Hj : exists a, nth_error fd j = Some a /\ nm = axis_name a).
      { clear -I. assert (H : forall l k, In (j, nm) (combine (seq k (length l)) (map axis_name l)) -> exists a, k <= j /\ nth_error l (j - k) = Some a /\ nm = axis_name a).
        { induction l as [|a l IH]; cbn; intros k [].
          - inversion H; subst. exists a. rewrite Nat.sub_diag. auto.
          - apply IH in H as (a' & Lk & H & ->). exists a'. split; [lia|]. split; auto. replace (j - k) with (S (j - S k)) by lia. auto. }
        apply H in I as (a & _ & H1 & H2). rewrite Nat.sub_0_r in H1. eauto. }
      destruct Hj as (a & Ea & ->). split; cbn [fst snd]; [now rewrite !map_length, np_tile_length, Lc|].
      intros r L. destruct (r_lt r L) as (L1 & L2). rewrite !nth_error_map. rewrite np_tile_nth by lia. rewrite Lc. subst c. rewrite nth_error_map, (nth_error_nth' _ O3) by lia.
      cbn [option_map]. f_equal. set (p := nth _ pts O3). rewrite (nth_indep _ VNan (VNum 0%R)) by (rewrite !map_length; apply nth_error_Some; congruence).
      rewrite map_nth. assert (E2 : nth j (map (fun a => coord_of a p) fd) 0%R = coord_of a p).
      { apply nth_error_nth. now rewrite nth_error_map, Ea. }
      rewrite E2. assert (Da : a <> ADash) by (apply Hd; eapply nth_error_In; eauto). destruct a; try reflexivity. congruence.
Qed.
Lemma ok_when (c : bool) (f : frame R -> res (frame R)) df names name :
  (forall df names, good names df -> exists df', f df = Ok df' /\ good (names ++ [name]) df') ->
  good names df -> exists df', rwhen c f df = Ok df' /\ good (names ++ (if c then [name] else [])) df'.
Proof. intros H G. destruct c; cbn [rwhen]; auto. exists df. now rewrite app_nil_r. Qed.
Lemma ok_column df names c : documented c = true -> good names df ->
  exists df', add_column m (Some (of_fdm s)) b true df c = Ok df' /\ good (names ++ melted_names c) df'.
Proof.
  intros Hc G. unfold add_column, melted_names, selects. set (lc := lower c).
  assert (K : smem lc col_vals = true).
  { unfold documented, selects in Hc. apply smem_In in Hc. fold lc in Hc. apply smem_In. cbn in *. tauto. }
  rewrite K. cbn [negb]. rewrite !andb_false_r.
  destruct (ok_when (smem lc c_time) _ _ _ _ ok_time G) as (d1 & E1 & G1). rewrite E1. cbn [rbind].
  destruct (ok_when (smem lc c_date) _ _ _ _ ok_date G1) as (d2 & E2 & G2). rewrite E2. cbn [rbind].
  destruct (ok_when (smem lc c_cells_rate) _ _ _ _ ok_rate G2) as (d3 & E3 & G3). rewrite E3. cbn [rbind].
  destruct (ok_when (smem lc c_cells_pressure) _ _ _ _ ok_pressure G3) as (d4 & E4 & G4). rewrite E4. cbn [rbind rwhen].
  exists d4. split; auto. rewrite <- !app_assoc in G4. exact G4.
Qed.
Lemma ok_full cols : Forall (fun c => documented c = true) cols -> exists df, full_df m (Some (of_fdm s)) cols b true = Ok df /\
  good ("id"%string :: "Step"%string :: map axis_name (get_fdir (bgrid m)) ++ flat_map melted_names cols) df.
Proof.
  intros Hc. unfold full_df. destruct ok_start as (df & E & G). rewrite E. cbn [rbind]. clear E.
  rewrite !app_comm_cons. revert df G. generalize ("id"%string :: "Step"%string :: map axis_name (get_fdir (bgrid m))).
  induction Hc as [|c cols Hc _ IH]; intros names df G; cbn [fold_left flat_map].
  - rewrite app_nil_r. eauto.
  - cbn [rbind]. destruct (ok_column df names c Hc G) as (df' & E & G'). rewrite E. rewrite app_assoc. now apply IH.
Qed.
End melted.

(** C71, without direct calls of solve: after a successful history on a grid with
    flow, get_df(melt=True) has one row per step and cell before dropping, the
    columns id, Step, the flow directions and those selected, and row r carries
    the values of cell r mod n and step r div n. *)
Lemma L_C71_rows_partial :
  forall x y z u (dx dy dz : dinput R) kx ky kz phi zz comp T g f unit pi dt (m0 : bo R) l m s b cols,
  gobj_new x y z u dx dy dz kx ky kz phi zz comp T = Ok g -> bo_new g f unit pi dt = Ok m0 -> has_flow (ggrid g) -> (0 < dt)%R ->
  all_ok (m0, None) l -> Forall no_solve l -> after (m0, None) l = (m, Some s) ->
  Forall (fun c => documented c = true) cols ->
  exists df ids pts, full_df m (Some (of_fdm s)) cols b true = Ok df /\
  get_cells_id (ggrid g) b = Ok ids /\ get_cells_center (geom g) b = Ok pts /\
  f_rows df = (s_tstep s + 1) * length ids /\
  map fst (f_cols df) = ("id" :: "Step" :: map axis_name (get_fdir (ggrid g)) ++ flat_map melted_names cols)%string%list /\
  forall name col r, In (name, col) (f_cols df) -> r < f_rows df ->
  nth_error col r = Some (melted_value dt s name (r / length ids) (nth (r mod length ids) ids 0%Z) (nth (r mod length ids) pts (0, 0, 0)%R)).
Proof.
  intros x y z u dx dy dz kx ky kz phi zz comp T g f unit pi dt m0 l m s b cols Eg Em Fl Hdt A N E Hc.
  destruct (bo_new_wide _ _ _ _ _ _ Em) as (Wd & Eg0 & Ed0).
  pose proof (w_after _ l _ Wd) as Wd'. rewrite E in Wd'. apply wide_rows in Wd' as (_ & _ & Wd'). destruct (Wd' s eq_refl) as (Sp & Sr). clear Wd Wd'.
  destruct (L_C50_rows_partial _ _ _ _ _ _ _ A E) as (L1 & L2 & L3). specialize (L3 N).
  pose proof (core_after l (m0, None)) as C. rewrite E in C. cbn [fst] in C. apply core_fields in C as (Cg & _ & _ & _ & _ & _ & _ & Cd & _).
  assert (Bg : b_grid m = g) by congruence. assert (Bd : b_dt m = dt) by congruence. clear Eg0 Ed0 Cg Cd.
  unfold gobj_new in Eg. destruct (geo_new x y z u dx dy dz) as [G|] eqn:EG; cbn [rbind] in Eg; [|discriminate].
  assert (HG : geom g = G). { destruct (set_props _ _ _ _ _ _ _ _ _) as [p [?|?]]; [|discriminate]. now inversion Eg. }
  pose proof (b_wf _ _ _ _ _ _ _ _ (geo_new_built _ _ _ _ _ _ _ _ EG)) as W.
  assert (Wg : wf (ggrid g)) by (unfold ggrid; now rewrite HG).
  destruct (ids_ok (ggrid g) b Wg) as (ids & Hi & Li & Ri). destruct (centers_ok _ _ _ _ _ _ _ _ b EG) as (pts & Hp & Lp).
  destruct (fdir_real _ Wg Fl) as (F1 & F2).
  assert (B' : bgrid m = ggrid g) by (unfold bgrid; congruence).
  assert (Hn : 0 < length ids).
  { rewrite Li, get_n_count by auto. destruct Wg as (W1 & W2 & W3). destruct b; cbn [count].
    - rewrite <- !pad_padded, !Nat2Z.id. unfold pad. repeat match goal with |- context [if ?c then _ else _] => destruct c end; lia.
    - lia. }
  destruct (ok_full m s b ids pts (get_n (ggrid g) true)) with (cols := cols) as (df & Ef & Gf); auto; try (rewrite ?B', ?Bg, ?HG; auto; congruence).
  - unfold ggrid in *. rewrite HG in *. congruence.
  - rewrite Bd. lra.
  - destruct Gf as (Ga & Gb & Gc). exists df, ids, pts. rewrite HG. split; auto. split; auto. split; auto. split; [rewrite Ga, L3; lia|]. rewrite B' in Gb. split; auto.
    intros name col r I L. rewrite Forall_forall in Gc. apply Gc in I as (_ & I). cbn [fst snd] in I. rewrite Bd in I. apply I. congruence.
Qed.
Example ex_C71_case : exists g f (m0 : bo R) m s, gobj_new 3 1 1 true (Scalar 1%R) (Scalar 1%R) (Scalar 1%R) (Some (Scalar 1%R)) (Some (Scalar 1%R)) (Some (Scalar 1%R)) (Some (Scalar 1%R)) None None 1%R = Ok g /\
  bo_new g f "metric" (Some 10%R) 1%R = Ok m0 /\ has_flow (ggrid g) /\ (0 < 1)%R /\
  let l := [Compile; Run (fun _ _ _ => Ok [Some 10%R; Some 10%R; Some 10%R]) one 3 9 true false true false false None] in
  all_ok (m0, None) l /\ Forall no_solve l /\ after (m0, None) l = (m, Some s) /\ s_tstep s = 3 /\
  Forall (fun c => documented c = true) ["Time"; "cells"]%string.
Proof.
  destruct ex_C50_case as (m0 & m & s & E & A & N & E1 & E2). unfold build in E.
  destruct (gobj_new _ _ _ _ _ _ _ _ _ _ _ _ _ _) as [g|] eqn:Eg; cbn [rbind] in E; [|discriminate].
  destruct (fluid_new _ _ _ _ _) as [f|] eqn:Ef; cbn [rbind] in E; [|discriminate].
  exists g, f, m0, m, s. split; [reflexivity|]. split; [exact E|]. split.
  - unfold gobj_new in Eg. destruct (geo_new _ _ _ _ _ _ _) as [G|] eqn:EG; cbn [rbind] in Eg; [|discriminate].
    destruct (set_props _ _ _ _ _ _ _ _ _) as [p [?|?]]; [|discriminate]. inversion Eg; subst g. unfold ggrid. cbn [geom].
    rewrite (b_gr _ _ _ _ _ _ _ _ (geo_new_built _ _ _ _ _ _ _ _ EG)). left. unfold flows. cbn. lia.
  - split; [lra|]. cbv zeta. repeat split; auto; try apply A.
Qed.
(** C71 fails after a direct call of solve, which does not count the step in nsteps:
    the rows of the new step have a pressure, but no id. *)
Lemma L_C71_rows_refuted :
  exists m0 : bo Q, build 3 1 1 None 1%Q (Some 10%Q) None = Ok m0 /\ forall NT : NumT Q, exists df ids ps,
  let l := [Compile; Solve (fun _ _ _ => Ok [Some 10%Q; Some 11%Q; Some 12%Q]) oneQ 9 true (mkOpts false true false true false None)] in
  all_ok (m0, None) l /\ frame_of (after (m0, None) l) ["cells_pressure"%string] true true = Ok df /\ f_rows df = 10 /\
  In ("id"%string, ids) (f_cols df) /\ In ("P"%string, ps) (f_cols df) /\
  nth_error ps 7 = Some (VNum 11%Q) /\ nth_error ids 7 = Some VNan.
Proof.
  eexists. split; [vm_compute; reflexivity|]. intros NT. do 3 eexists. cbv zeta. split; [vm_compute; repeat split; reflexivity|].
  split; [vm_compute; reflexivity|]. split; [reflexivity|].
  split; [cbn; now left|]. split; [cbn; right; right; right; now left|]. split; reflexivity.
Qed.

(** ** C84 *)
Section plain.
Open Scope list_scope.
Variables (m : bo R) (s : fs R) (b : bool) (ids : list Z) (n : nat).
Hypotheses (Hi : get_cells_id (bgrid m) b = Ok ids)
  (Ri : Forall (fun id => (0 <= id < Z.of_nat n)%Z) ids) (Rw : Forall (fun id => (0 <= id < Z.of_nat n)%Z) (dkeys (b_wells m)))
  (Sp : Forall (fun row => length row = n) (s_p s)) (Sr : Forall (fun row => length row = n) (s_r s))
  (Np : length (s_p s) = S (s_tstep s)) (Nr : length (s_r s) = S (s_tstep s)) (Dt : b_dt m <> 0%R).
Notation N := (S (s_tstep s)).
(** Either nothing yet, or N rows. *)
Definition plain (cols : list (string * list (val R))) (df : frame R) : Prop :=
  f_cols df = cols /\ Forall (fun c => length (snd c) = N) cols /\ (f_rows df = N \/ (f_rows df = 0 /\ cols = [])).
Lemma plain_concat cols ns df data : plain cols df -> plain ns data -> plain (cols ++ ns) (pd_concat df data).
Proof.
  intros (A & B & C) (A' & B' & C'). unfold pd_concat. unfold plain. cbn [f_cols f_rows]. rewrite A, A'.
  assert (H : Forall (fun c : string * list (val R) => length (snd c) = N) (cols ++ ns)) by now apply Forall_app.
  assert (M : Nat.max (f_rows df) (f_rows data) = N \/ (Nat.max (f_rows df) (f_rows data) = 0 /\ cols ++ ns = [])).
  { destruct C as [C|(C & ->)], C' as [C'|(C' & ->)]; rewrite C, C'; [left|left|left|right]; try apply Nat.max_id; try apply Nat.max_0_r; auto. }
  split; [|split; auto]. destruct M as [M|(M & E)]; [|now rewrite E]. rewrite M.
  rewrite <- (map_id (cols ++ ns)) at 2. apply map_ext_in. intros c I. rewrite Forall_forall in H. now apply fill_full, H.
Qed.
Lemma steps_S : steps_of s = seq 0 N. Proof. unfold steps_of. now rewrite Nat.add_1_r. Qed.
Lemma plain_time cols df : plain cols df -> exists df', add_time m (Some (of_fdm s)) false b df = Ok df' /\ plain (cols ++ [("Time"%string, map (fun t => VNum (INR t * b_dt m)%R) (steps_of s))]) df'.
Proof.
  intros G. unfold add_time. cbn [frame_tstep of_fdm so_tstep]. rewrite time_vector_R by auto. cbn [rbind]. eexists. split; [reflexivity|].
  apply plain_concat; auto. unfold series. rewrite map_map, steps_S. split; [reflexivity|]. split; [constructor; auto; cbn; now rewrite map_length, seq_length|].
  left. cbn [f_rows]. now rewrite map_length, seq_length.
Qed.
Lemma plain_date cols df : plain cols df -> exists df', add_date m (Some (of_fdm s)) false b df = Ok df' /\ plain (cols ++ [("Date"%string, map (@VDate R) (steps_of s))]) df'.
Proof.
  intros G. unfold add_date. cbn [frame_tstep of_fdm so_tstep]. eexists. split; [reflexivity|].
  apply plain_concat; auto. unfold series. change (s_tstep s + 1) with (s_tstep s + 1). rewrite Nat.add_1_r, steps_S. split; [reflexivity|].
  split; [constructor; auto; cbn; now rewrite map_length, seq_length|]. left. cbn [f_rows]. now rewrite map_length, seq_length.
Qed.
Lemma combine_nth_map {A B C} (f : nat -> A -> C) (g : B -> C) (h : B -> A) (l : list B) : forall k,
  (forall j x, nth_error l j = Some x -> f (k + j) (h x) = g x) -> map (fun jl => f (fst jl) (snd jl)) (combine (seq k (length l)) (map h l)) = map g l.
Proof.
  induction l as [|x l IH]; intros k H; cbn; auto. f_equal; [rewrite <- (Nat.add_0_r k); now apply H|].
  apply IH. intros j y E. rewrite Nat.add_succ_comm. now apply H.
Qed.
Lemma plain_table (a : list (list (fl R))) name l : Forall (fun row => length row = n) a -> length a = N -> Forall (fun id => (0 <= id < Z.of_nat n)%Z) l ->
  plain (by_cell name a s l) (table (map (fun id => (name ++ str_of id)%string) l) (map (map (@vfl R)) (map (fun row => map (fun id => nth (Z.to_nat id) row None) l) a))).
Proof.
  intros Ha La Hl. unfold table. split; [|split].
  - cbn [f_cols]. unfold by_cell. rewrite map_length.
    match goal with |- map ?f _ = _ => apply (combine_nth_map (fun j x => f (j, x)) (fun id : Z => ((name ++ str_of id)%string, map (fun t : nat => value_at a t id) (steps_of s)))) end.
    intros j id Ej. cbn [fst snd]. cbn [Nat.add]. f_equal.
    rewrite !map_map, steps_S, <- La. 
    assert (Iid : (0 <= id < Z.of_nat n)%Z) by (rewrite Forall_forall in Hl; apply Hl; eapply nth_error_In; eauto).
    clear La. induction a as [|row a IH]; [reflexivity|]. cbn [map length seq].
    pose proof (Forall_inv Ha) as Lr. pose proof (Forall_inv_tail Ha) as Ha'. cbn beta in Lr. f_equal.
    + unfold value_at. cbn [nth_error]. rewrite (nth_error_nth' row None (n := Z.to_nat id)) by (apply Nat.lt_le_trans with n; [lia|rewrite <- Lr; apply le_n]).
      rewrite (nth_indep _ VNan (@vfl R None)) by (rewrite !map_length; apply nth_error_Some; congruence). rewrite map_nth.
      assert (E : nth_error (map (fun id0 => nth (Z.to_nat id0) row None) l) j = Some (nth (Z.to_nat id) row None)) by (now rewrite nth_error_map, Ej).
      apply nth_error_nth with (d := None) in E. exact (f_equal (@vfl R) E).
    + rewrite (IH Ha'). rewrite <- seq_shift, map_map. reflexivity.
  - unfold by_cell. apply Forall_forall. intros c I. apply in_map_iff in I as (id & <- & _). cbn [snd]. now rewrite map_length, steps_S, seq_length.
  - left. cbn [f_rows]. now rewrite !map_length.
Qed.
Lemma plain_rate cols df : plain cols df -> exists df', add_cells "Q" (get_rate_all (Some (of_fdm s))) m false b df = Ok df' /\ plain (cols ++ by_cell "Q" (s_r s) s ids) df'.
Proof.
  intros G. unfold add_cells. rewrite Hi. cbn [rbind get_rate_all of_fdm so_r]. rewrite (rows_get _ n) by auto. cbn [rbind].
  eexists. split; [reflexivity|]. apply plain_concat; auto. now apply plain_table.
Qed.
Lemma plain_pressure cols df : plain cols df -> exists df', add_cells "P" (get_pressure_all (Some (of_fdm s))) m false b df = Ok df' /\ plain (cols ++ by_cell "P" (s_p s) s ids) df'.
Proof.
  intros G. unfold add_cells. rewrite Hi. cbn [rbind get_pressure_all of_fdm so_p]. rewrite (rows_get _ n) by auto. cbn [rbind].
  eexists. split; [reflexivity|]. apply plain_concat; auto. now apply plain_table.
Qed.
Lemma plain_wrate cols df : plain cols df -> exists df', add_wells_rate m (Some (of_fdm s)) df = Ok df' /\ plain (cols ++ by_cell "Qw" (s_r s) s (dkeys (b_wells m))) df'.
Proof.
  intros G. unfold add_wells_rate. cbn [rbind get_rate_all of_fdm so_r]. rewrite (rows_get _ n) by auto. cbn [rbind].
  eexists. split; [reflexivity|]. apply plain_concat; auto. now apply plain_table.
Qed.
Lemma plain_pwf cols df : Forall (fun e => length (snd e) = N) (b_wp m) -> plain cols df -> exists df', add_wells_pressures m df = Ok df' /\
  plain (cols ++ map (fun e => ("Pwf" ++ str_of (fst e), map (fun p => match p with Some v => VNum v | None => VNan end) (snd e)))%string (b_wp m)) df'.
Proof.
  intros H G. unfold add_wells_pressures. destruct (b_wp m) as [|[k0 l0] wp] eqn:E.
  - eexists. split; [reflexivity|]. apply plain_concat; auto. split; [reflexivity|]. split; [constructor|]. right. auto.
  - cbn [snd]. assert (L0 : length l0 = N) by (now inversion H).
    assert (K : forallb (fun e : Z * list (fl R) => length (snd e) =? length l0) ((k0, l0) :: wp) = true).
    { apply forallb_forall. intros e I. rewrite Forall_forall in H. apply Nat.eqb_eq. rewrite L0. now apply H. }
    rewrite K.
    eexists. split; [reflexivity|]. apply plain_concat; auto. split; [reflexivity|]. split; [|left; exact L0].
    apply Forall_forall. intros c I. apply in_map_iff in I as (e & <- & I). cbn [snd]. rewrite map_length. rewrite Forall_forall in H. now apply H.
Qed.
Lemma plain_when (c : bool) (f : frame R -> res (frame R)) df cols ns :
  (forall df cols, plain cols df -> exists df', f df = Ok df' /\ plain (cols ++ ns) df') ->
  plain cols df -> exists df', rwhen c f df = Ok df' /\ plain (cols ++ (if c then ns else [])) df'.
Proof. intros H G. destruct c; cbn [rwhen]; auto. exists df. now rewrite app_nil_r. Qed.
Lemma plain_column df cols c : documented c = true -> (selects c ["p"; "pressures"; "wells"; "wells_pressure"]%string = true -> Forall (fun e => length (snd e) = N) (b_wp m)) -> plain cols df ->
  exists df', add_column m (Some (of_fdm s)) b false df c = Ok df' /\ plain (cols ++ plain_columns (b_dt m) m s ids c) df'.
Proof.
  intros Hc Hw G. unfold add_column, plain_columns. set (lc := lower c).
  assert (K : smem lc col_vals = true).
  { unfold documented, selects in Hc. apply smem_In in Hc. fold lc in Hc. apply smem_In. cbn in *. tauto. }
  rewrite K. cbn [negb]. rewrite !andb_true_r.
  destruct (plain_when (smem lc c_time) _ _ _ _ (fun d c => plain_time c d) G) as (d1 & E1 & G1). rewrite E1. cbn [rbind].
  destruct (plain_when (smem lc c_date) _ _ _ _ (fun d c => plain_date c d) G1) as (d2 & E2 & G2). rewrite E2. cbn [rbind].
  destruct (plain_when (smem lc c_cells_rate) _ _ _ _ (fun d c => plain_rate c d) G2) as (d3 & E3 & G3). rewrite E3. cbn [rbind].
  destruct (plain_when (smem lc c_cells_pressure) _ _ _ _ (fun d c => plain_pressure c d) G3) as (d4 & E4 & G4). rewrite E4. cbn [rbind].
  destruct (plain_when (smem lc c_wells_rate) _ _ _ _ (fun d c => plain_wrate c d) G4) as (d5 & E5 & G5). rewrite E5. cbn [rbind].
  destruct (selects c ["p"; "pressures"; "wells"; "wells_pressure"]%string) eqn:Ew.
  - destruct (plain_pwf _ _ (Hw eq_refl) G5) as (d6 & E6 & G6). unfold selects in Ew. fold lc in Ew.
    change (smem lc c_wells_pressure) with (smem lc ["p"; "pressures"; "wells"; "wells_pressure"]%string). rewrite Ew. cbn [rwhen]. exists d6. split; auto.
    rewrite <- !app_assoc in G6. exact G6.
  - unfold selects in Ew. fold lc in Ew. change (smem lc c_wells_pressure) with (smem lc ["p"; "pressures"; "wells"; "wells_pressure"]%string). rewrite Ew. cbn [rwhen].
    exists d5. split; auto. rewrite <- !app_assoc in G5. rewrite app_nil_r. exact G5.
Qed.
Lemma plain_full cols : Forall (fun c => documented c = true) cols -> (asks_pwf cols -> Forall (fun e => length (snd e) = N) (b_wp m)) ->
  exists df, full_df m (Some (of_fdm s)) cols b false = Ok df /\ plain (flat_map (plain_columns (b_dt m) m s ids) cols) df.
Proof.
  intros Hc Hw. unfold full_df. cbn [rbind].
  assert (G : plain [] (@frame0 R)) by (split; [reflexivity|split; [constructor|right; auto]]).
  change (flat_map (plain_columns (b_dt m) m s ids) cols) with ([] ++ flat_map (plain_columns (b_dt m) m s ids) cols).
  revert G. generalize (@nil (string * list (val R))) (@frame0 R).
  induction Hc as [|c cols Hc _ IH]; intros pre df G; cbn [fold_left flat_map].
  - rewrite app_nil_r. eauto.
  - cbn [rbind]. destruct (plain_column df pre c Hc) as (df' & E & G'); auto.
    { intros S. apply Hw. exists c. split; auto. now left. }
    rewrite E. rewrite app_assoc. apply IH; auto. intros (c' & I & S). apply Hw. exists c'. split; auto. now right.
Qed.
End plain.

(** C84: after a successful history, get_df(melt=False) has before dropping exactly
    the selected columns, with one row for each of the tstep+1 steps, provided one
    bottom-hole pressure per step was recorded (C72) if these are selected. *)
Lemma L_C84_columns_partial :
  forall x y z u (dx dy dz : dinput R) kx ky kz phi zz comp T g f unit pi dt (m0 : bo R) l m s b cols,
  gobj_new x y z u dx dy dz kx ky kz phi zz comp T = Ok g -> bo_new g f unit pi dt = Ok m0 -> (0 < dt)%R ->
  all_ok (m0, None) l -> after (m0, None) l = (m, Some s) ->
  Forall (fun c => documented c = true) cols ->
  (asks_pwf cols -> Forall (fun e => length (snd e) = s_tstep s + 1) (b_wp m)) ->
  exists df ids, frame_of (m, Some s) cols b false = Ok df /\ get_cells_id (ggrid g) b = Ok ids /\
  f_cols df = flat_map (plain_columns dt m s ids) cols /\ (f_cols df <> [] -> f_rows df = s_tstep s + 1).
Proof.
  intros x y z u dx dy dz kx ky kz phi zz comp T g f unit pi dt m0 l m s b cols Eg Em Hdt A E Hc Hw.
  destruct (bo_new_wide _ _ _ _ _ _ Em) as (Wd & Eg0 & Ed0).
  pose proof (w_after _ l _ Wd) as Wd'. rewrite E in Wd'. apply wide_rows in Wd' as (_ & _ & Wd'). destruct (Wd' s eq_refl) as (Sp & Sr). clear Wd Wd'.
  destruct (L_C50_rows_partial _ _ _ _ _ _ _ A E) as (L1 & L2 & _).
  pose proof (core_after l (m0, None)) as C. rewrite E in C. cbn [fst] in C. apply core_fields in C as (Cg & Ci & _ & _ & _ & _ & _ & Cd & _).
  assert (Bg : b_grid m = g) by congruence. assert (Bd : b_dt m = dt) by congruence.
  unfold gobj_new in Eg. destruct (geo_new x y z u dx dy dz) as [G|] eqn:EG; cbn [rbind] in Eg; [|discriminate].
  assert (HG : geom g = G). { destruct (set_props _ _ _ _ _ _ _ _ _) as [p [?|?]]; [|discriminate]. now inversion Eg. }
  pose proof (b_wf _ _ _ _ _ _ _ _ (geo_new_built _ _ _ _ _ _ _ _ EG)) as W.
  assert (Wg : wf (ggrid g)) by (unfold ggrid; now rewrite HG).
  destruct (ids_ok (ggrid g) b Wg) as (ids & Hi & Li & Ri). destruct (ids_ok (ggrid g) false Wg) as (ids' & Hi' & _ & Ri').
  assert (B' : bgrid m = ggrid g) by (unfold bgrid; congruence).
  assert (Rw : Forall (fun id => (0 <= id < Z.of_nat (get_n (ggrid g) true))%Z) (dkeys (b_wells m))).
  { apply Forall_forall. intros id I. rewrite Forall_forall in Ri'. apply Ri'.
    destruct (L_C30_interior_cells _ _ _ _ _ _ Em) as (I0 & _ & W0).
    assert (K : wkeys (b_ids m0) (m, Some s)). { rewrite <- E. apply wk_after. unfold wkeys. cbn [fst]. rewrite W0. repeat split; [constructor|intros ? []]. }
    destruct K as (_ & _ & K). replace ids' with (b_ids m0) by (apply (f_equal (fun r => match r with Ok i => i | _ => [] end)) in Hi'; apply (f_equal (fun r => match r with Ok i => i | _ => [] end)) in I0; unfold ggrid in Hi'; congruence).
    apply K. exact I. }
  rewrite Nat.add_1_r in *.
  destruct (plain_full m s b ids (get_n (ggrid g) true)) with (cols := cols) as (df & Ef & Gf); auto; try (rewrite ?B'; auto); try (rewrite Bd; lra).
  destruct Gf as (Ga & Gb & Gc). exists df, ids. split; [exact Ef|]. split; auto. rewrite Ga, Bd. split; auto. intros Hne. destruct Gc as [Gc|(_ & Gc)]; auto. rewrite Bd in Gc. contradiction.
Qed.

Example ex_C84_case : exists g f (m0 : bo R) m s, gobj_new 3 1 1 true (Scalar 1%R) (Scalar 1%R) (Scalar 1%R) (Some (Scalar 1%R)) (Some (Scalar 1%R)) (Some (Scalar 1%R)) (Some (Scalar 1%R)) None None 1%R = Ok g /\
  bo_new g f "metric" (Some 10%R) 1%R = Ok m0 /\ (0 < 1)%R /\
  let l := [Compile; Run (fun _ _ _ => Ok [Some 10%R; Some 10%R; Some 10%R]) one 3 9 true false true false false None] in
  all_ok (m0, None) l /\ after (m0, None) l = (m, Some s) /\ s_tstep s = 3 /\
  Forall (fun c => documented c = true) ["Time"; "cells"; "wells_rate"]%string /\ ~ asks_pwf ["Time"; "cells"; "wells_rate"]%string.
Proof.
  destruct ex_C71_case as (g & f & m0 & m & s & Eg & Em & _ & Hd & H). cbv zeta in H. destruct H as (A & _ & E & T & _).
  exists g, f, m0, m, s. split; [exact Eg|]. split; [exact Em|]. split; [exact Hd|]. cbv zeta. split; [exact A|]. split; [exact E|]. split; [exact T|].
  split; [repeat constructor|]. intros (c & I & S). cbn in I. destruct I as [<-|[<-|[<-|[]]]]; discriminate.
Qed.
Example ex_C84_well : exists (m0 : bo R) m s, build 3 1 1 None 1%R (Some 10%R) None = Ok m0 /\
  let l := [set_q; Compile] in all_ok (m0, None) l /\ after (m0, None) l = (m, Some s) /\
  documented "P" = true /\ asks_pwf ["P"%string] /\ b_wp m <> [] /\ Forall (fun e => length (snd e) = s_tstep s + 1) (b_wp m).
Proof.
  destruct line3q_built as (G & req & _ & E).
  exists (line3 (1 + 0) true (Some 10%R)), (line3q G req), (fdm_new (line3q G req)). split; [apply line3_pos; lra|]. cbv zeta.
  assert (H : all_ok (line3 (1 + 0) true (Some 10%R), None) [set_q; Compile] /\
    after (line3 (1 + 0) true (Some 10%R), None) [set_q; Compile] = (line3q G req, Some (fdm_new (line3q G req)))).
  { eapply exec_step; [exact E|]. eapply exec_step; [reflexivity|]. split; [exact I|reflexivity]. }
  destruct H as (Ha & Hb). split; [exact Ha|]. split; [exact Hb|]. split; [reflexivity|].
  split; [exists "P"%string; split; [now left|reflexivity]|]. split; [discriminate|]. repeat constructor.
Qed.
(** C84 fails when the recorded pressure lists have different lengths: get_df raises
    ValueError.  Here the pressure of one of two wells was set again. *)
Lemma L_C84_columns_refuted :
  exists m0 : bo Q, build 3 1 1 None 1%Q (Some 10%Q) None = Ok m0 /\ forall NT : NumT Q,
  let l := [Set_well (Some 1%Z) None (Some 5%Q) (Some 1%Q) None; Set_well (Some 2%Z) None (Some 5%Q) (Some 1%Q) None;
            Set_well (Some 2%Z) None (Some 6%Q) (Some 1%Q) None; Compile] in
  all_ok (m0, None) l /\ documented "wells_pressure" = true /\
  frame_of (after (m0, None) l) ["wells_pressure"%string] true false = Err ValueError.
Proof.
  eexists. split; [vm_compute; reflexivity|]. intros NT. cbv zeta.
  split; [lazy; repeat split; reflexivity|]. split; [reflexivity|]. lazy. reflexivity.
Qed.

(** ** C85 *)
Lemma fill_length n (c : string * list (val R)) : length (snd c) <= n -> length (snd (fill n c)) = n.
Proof. intros H. unfold fill. cbn [snd]. rewrite app_length, repeat_length. lia. Qed.
Definition proper (df : frame R) : Prop := Forall (fun c => length (snd c) = f_rows df) (f_cols df).
Lemma proper_concat df data : proper df -> proper data -> proper (pd_concat df data).
Proof.
  intros A B. unfold proper, pd_concat. cbn [f_cols f_rows]. apply Forall_forall. intros c I. apply in_map_iff in I as (c' & <- & I).
  apply fill_length. unfold proper in *. rewrite Forall_forall in A, B. apply in_app_iff in I as [I|I]; [rewrite (A _ I)|rewrite (B _ I)]; lia.
Qed.
Lemma proper_table labels rows : proper (table labels rows).
Proof. unfold proper, table. cbn [f_cols f_rows]. apply Forall_forall. intros c I. apply in_map_iff in I as (jl & <- & _). cbn [snd]. apply map_length. Qed.
Lemma proper_series name v : proper (series name v).
Proof. unfold proper, series. repeat constructor. Qed.
Lemma proper_assign df name v df' : proper df -> pd_assign df name v = Ok df' -> proper df'.
Proof.
  intros P. unfold pd_assign. destruct (f_cols df) as [|c l] eqn:E.
  - intros H. inversion H. apply proper_series.
  - destruct (Nat.eqb_spec (length v) (f_rows df)) as [L|]; [|discriminate]. intros H. inversion H. unfold proper in *. cbn [f_cols f_rows]. rewrite E in P.
    apply (Forall_app _ (c :: l) [(name, v)]). split; auto.
Qed.
Lemma proper_wp (m : bo R) df df' : proper df -> add_wells_pressures m df = Ok df' -> proper df'.
Proof.
  intros P. unfold add_wells_pressures. destruct (b_wp m) as [|[k l0] wp] eqn:E.
  - intros H. inversion H. apply proper_concat; auto. constructor.
  - clear E. remember ((k, l0) :: wp) as wq. clear Heqwq. destruct (forallb _ _) eqn:K; [|discriminate]. intros H. inversion H. apply proper_concat; auto.
    unfold proper. cbn [f_cols f_rows]. apply Forall_forall. intros c I. apply in_map_iff in I as (e & <- & I). cbn [snd]. rewrite map_length.
    rewrite forallb_forall in K. now apply Nat.eqb_eq, (K e).
Qed.
Lemma proper_when b f (df df' : frame R) : (forall d d', proper d -> f d = Ok d' -> proper d') -> proper df -> rwhen b f df = Ok df' -> proper df'.
Proof. intros H P. destruct b; cbn [rwhen]; [intros E; exact (H _ _ P E)|]. intros E. now inversion E; subst. Qed.
Ltac ok_of H := match type of H with rbind ?e _ = Ok _ => let K := fresh "K" in destruct e eqn:K; cbn [rbind] in H; [|discriminate] end.
Lemma proper_column (m : bo R) so b melt df c df' : proper df -> add_column m so b melt df c = Ok df' -> proper df'.
Proof.
  intros P H. unfold add_column in H. destruct (negb _); [discriminate|].
  assert (T : forall d d', proper d -> add_time m so melt b d = Ok d' -> proper d').
  { intros d d' Pd E. unfold add_time in E. ok_of E. inversion E. apply proper_concat; auto. apply proper_series. }
  assert (D : forall d d', proper d -> add_date m so melt b d = Ok d' -> proper d').
  { intros d d' Pd E. unfold add_date in E. inversion E. apply proper_concat; auto. apply proper_series. }
  assert (C : forall name get d d', proper d -> add_cells name get m melt b d = Ok d' -> proper d').
  { intros name get d d' Pd E. unfold add_cells in E. ok_of E. ok_of E. inversion E. apply proper_concat; auto. destruct melt; apply proper_table. }
  assert (W : forall d d', proper d -> add_wells_rate m so d = Ok d' -> proper d').
  { intros d d' Pd E. unfold add_wells_rate in E. ok_of E. inversion E. apply proper_concat; auto. apply proper_table. }
  ok_of H. apply (proper_when _ _ _ _ T P) in K. ok_of H. apply (proper_when _ _ _ _ D K) in K0. ok_of H. apply (proper_when _ _ _ _ (C _ _) K0) in K1.
  ok_of H. apply (proper_when _ _ _ _ (C _ _) K1) in K2. ok_of H. apply (proper_when _ _ _ _ W K2) in K3.
  exact (proper_when _ _ _ _ (proper_wp m) K3 H).
Qed.
Lemma proper_full (m : bo R) so cols b melt df : full_df m so cols b melt = Ok df -> proper df.
Proof.
  unfold full_df. intros H. ok_of H. assert (P : proper a).
  { destruct melt; [|inversion K; constructor]. unfold melted_start in K. destruct so as [s|]; [|discriminate]. ok_of K. ok_of K. ok_of K.
    apply proper_assign in K1; [|constructor]. apply proper_assign in K2; auto. unfold add_xyz in K. ok_of K. inversion K. apply proper_concat; auto. apply proper_table. }
  clear K. revert a P H. induction cols as [|c cols IH]; intros a P H; cbn [fold_left] in H; [injection H as <-; exact P|].
  cbn [rbind] in H. destruct (add_column m so b melt a c) as [d|e] eqn:K.
  - exact (IH d (proper_column _ _ _ _ _ _ _ P K) H).
  - exfalso. clear -H. induction cols as [|c' cols IH]; cbn in H; [discriminate|auto].
Qed.
Lemma nan_iff (v : val R) : is_nan v = true <-> ~ present v.
Proof. unfold present. destruct v; cbn; split; intros H; try discriminate; auto; exfalso; apply H; discriminate. Qed.
Lemma zero_iff (v : val R) : is_zero v = true <-> zero v.
Proof.
  unfold zero. destruct v; cbn; split; intros H; try discriminate; try (destruct H; discriminate).
  - right. apply Z.eqb_eq in H. now subst.
  - destruct H as [H|H]; inversion H; reflexivity.
  - left. unfold Reqb in H. destruct (Req_EM_T _ _); [now subst|discriminate].
  - destruct H as [H|H]; inversion H. unfold Reqb. destruct (Req_EM_T _ _); auto; lra.
Qed.
(** C85: dropping from a frame that is not melted keeps exactly the columns that have
    a value (drop_nan) and a non-zero entry (drop_zero), unchanged and in order ... *)
Lemma L_C85_columns_kept :
  forall (m : bo R) so cols b dn dz df, full_df m so cols b false = Ok df ->
  exists df', get_df m so cols b false dn dz = Ok df' /\ f_rows df' = f_rows df /\ sublist (f_cols df') (f_cols df) /\
  forall c, In c (f_cols df') <->
    In c (f_cols df) /\ (dn = true -> exists v, In v (snd c) /\ present v) /\ (dz = true -> exists v, In v (snd c) /\ ~ zero v).
Proof.
  intros m so cols b dn dz df E. unfold get_df. rewrite E. cbn [rbind]. eexists. split; [reflexivity|].
  assert (N : forall c : string * list (val R), negb (forallb is_nan (snd c)) = true <-> exists v, In v (snd c) /\ present v).
  { intros c. rewrite negb_true_iff, <- not_true_iff_false, forallb_forall. split.
    - intros H. induction (snd c) as [|v l IH]; [exfalso; apply H; intros ? []|]. destruct (is_nan v) eqn:Ev.
      + destruct IH as (w & I & Pw); [|exists w; split; auto; now right]. intros H'. apply H. intros w [<-|I]; auto.
      + exists v. split; [now left|]. intros ->. discriminate.
    - intros (v & I & Pv) H. apply H in I. now apply nan_iff in I. }
  assert (Z : forall c : string * list (val R), existsb (fun v => negb (is_zero v)) (snd c) = true <-> exists v, In v (snd c) /\ ~ zero v).
  { intros c. rewrite existsb_exists. split; intros (v & I & H); exists v; split; auto; [|apply negb_true_iff, not_true_iff_false]; intros K; apply zero_iff in K; auto. rewrite K in H. discriminate. }
  unfold drop. split; [destruct dn, dz; reflexivity|]. split.
  - destruct dn, dz; cbn [f_cols]; eauto using sublist_filter, sublist_trans, sublist_refl.
  - intros c. destruct dn, dz; cbn [f_cols]; rewrite ?filter_In, ?N, ?Z; intuition discriminate.
Qed.
(** ... and from a melted frame exactly the rows without a missing entry. *)
Lemma L_C85_rows_kept :
  forall (m : bo R) so cols b dz df, full_df m so cols b true = Ok df ->
  exists df' keep, get_df m so cols b true true dz = Ok df' /\ f_rows df' = length keep /\ StronglySorted lt keep /\
  (forall r, In r keep <-> r < f_rows df /\ forall c v, In c (f_cols df) -> nth_error (snd c) r = Some v -> present v) /\
  map fst (f_cols df') = map fst (f_cols df) /\
  forall k r j c c', nth_error keep k = Some r -> nth_error (f_cols df) j = Some c -> nth_error (f_cols df') j = Some c' ->
    nth_error (snd c') k = nth_error (snd c) r.
Proof.
  intros m so cols b dz df E. pose proof (proper_full _ _ _ _ _ _ E) as P. unfold get_df. rewrite E. cbn [rbind].
  eexists _, _. split; [reflexivity|]. unfold drop, keep_rows. cbn [f_rows f_cols]. split; [reflexivity|].
  assert (K : forall r, In r (filter (fun r : nat => forallb (fun c : string * list (val R) => negb (is_nan (nth r (snd c) VNan))) (f_cols df)) (seq 0 (f_rows df))) <->
    r < f_rows df /\ forall c v, In c (f_cols df) -> nth_error (snd c) r = Some v -> present v).
  { intros r. rewrite filter_In, in_seq, forallb_forall. split; intros (A & B); (split; [lia|]).
    - intros c v I Ev -> . specialize (B c I). rewrite (nth_error_nth _ _ VNan Ev) in B. discriminate.
    - intros c I. apply negb_true_iff, not_true_iff_false. intros H. unfold proper in P. rewrite Forall_forall in P.
      apply nan_iff in H. apply H. apply (B c); auto. apply nth_error_nth'. rewrite (P c I). lia. }
  split; [|split; [exact K|]].
  - clear. generalize 0 (f_rows df). intros a n. revert a. induction n as [|n IH]; intros a; cbn [seq filter]; [constructor|].
    destruct (forallb _ _); auto. constructor; auto. apply Forall_forall. intros x I. apply filter_In in I as (I & _). apply in_seq in I. lia.
  - split; [now rewrite map_map|]. intros k r j c c' Ek Ej Ej'. rewrite nth_error_map, Ej in Ej'. inversion Ej'; subst c'. cbn [snd].
    rewrite nth_error_map, Ek. cbn. assert (I : r < f_rows df) by (apply K, (nth_error_In _ _ Ek)).
    symmetry. apply nth_error_nth'. unfold proper in P. rewrite Forall_forall in P. rewrite (P c (nth_error_In _ _ Ej)). exact I.
Qed.
Example ex_C85_case : exists (m : bo R) s df, full_df m (Some (of_fdm s)) ["Time"; "cells"; "wells_rate"]%string true false = Ok df /\ f_rows df = 4.
Proof.
  destruct ex_C84_case as (g & f & m0 & m & s & Eg & Em & Hd & H). cbv zeta in H. destruct H as (A & E & T & D & N).
  destruct (L_C84_columns_partial _ _ _ _ _ _ _ _ _ _ _ _ _ _ _ _ _ _ _ _ _ _ _ true _ Eg Em Hd A E D (fun H => match N H with end)) as (df & ids & Ef & _ & Ec & Er).
  exists m, s, df. split; [exact Ef|]. rewrite Er, T; auto. rewrite Ec. cbn. discriminate.
Qed.
Example ex_C85_melted : exists (m : bo R) s df, full_df m (Some (of_fdm s)) ["Time"; "cells"]%string true true = Ok df.
Proof.
  destruct ex_C71_case as (g & f & m0 & m & s & Eg & Em & Hf & Hd & H). cbv zeta in H. destruct H as (A & N & E & T & D).
  destruct (L_C71_rows_partial _ _ _ _ _ _ _ _ _ _ _ _ _ _ _ _ _ _ _ _ _ _ _ true _ Eg Em Hf Hd A N E D) as (df & ids & pts & H & _).
  exists m, s, df. exact H.
Qed.
