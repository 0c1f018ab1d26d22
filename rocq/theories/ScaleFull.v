(** Scaled and labelled frames are plain frames with other names and values. *)
From Coq Require Import String Ascii ZArith Bool Arith List Lia Reals Lra.
From Verif Require Import Prelude PreludeFacts TabFacts Num GridModel GridSpec GridProofs GeoModel PropModel UnitsModel BlackOilModel FdmModel FrameModel FrameSpec ScalerModel ScalerSpec ScalerThm ScaleModel ScaleSpec MonadFacts InvFacts FrameFacts FrameThm ScaleFacts ScaleState.
Import ListNotations.
Local Close Scope R_scope.
Local Open Scope list_scope.
Local Open Scope nat_scope.

Section full.
Context {F : Type} {NF : Num F} {NC : NumC F}.
Notation fl := (fl F).
Notation scs := (scalers fl).

(** ** What update_scalers fits *)
Lemma update_ok m so b (S S1 : scs) : update_scalers m so b S = (S1, Ok tt) ->
  exists t c dp dq, time_vector (frame_tstep so) (b_dt m) = Ok t /\ FrameModel.get_centers m b = Ok c /\
  FrameModel.get_df m so ["cells_pressure"%string] b false true true = Ok dp /\ FrameModel.get_df m so ["rates"%string] b false true true = Ok dq /\
  sc_fit (time_scaler S) (nda1 (map Some t)) true = (time_scaler S1, Ok tt) /\
  sc_fit (space_scaler S) (nda2 (length (snd c)) (map (map Some) (fst c))) true = (space_scaler S1, Ok tt) /\
  sc_fit (pressures_scaler S) (values dp) false = (pressures_scaler S1, Ok tt) /\
  sc_fit (rates_scaler S) (values dq) false = (rates_scaler S1, Ok tt) /\ scalers_dict S1 = scalers_dict S.
Proof.
  unfold update_scalers. intros H. apply mbind_ok in H as (u1 & Sa & Ha & H). apply mbind_ok in H as (u2 & Sb & Hb & H). apply mbind_ok in H as (u3 & Sc & Hc & Hd).
  unfold update_time_scaler in Ha. apply mbind_ok in Ha as (t & Z1 & Ha' & Ha). apply mread_ok in Ha' as (Z1' & Et); subst Z1. unfold fit_into in Ha. destruct (sc_fit (time_scaler S) _ _) as [x1 r1] eqn:E1. injection Ha as <- ->.
  unfold update_space_scaler in Hb. apply mbind_ok in Hb as (c & Z2 & Hb' & Hb). apply mread_ok in Hb' as (Z2' & Ec); subst Z2. unfold fit_into in Hb. cbn [put_time space_scaler] in Hb. destruct (sc_fit (space_scaler S) _ _) as [x2 r2] eqn:E2. injection Hb as <- ->.
  unfold update_pressures_scaler in Hc. apply mbind_ok in Hc as (dp & Z3 & Hc' & Hc). apply mread_ok in Hc' as (Z3' & Ep); subst Z3. unfold fit_into in Hc. cbn [put_time put_space pressures_scaler] in Hc. destruct (sc_fit (pressures_scaler S) _ _) as [x3 r3] eqn:E3. injection Hc as <- ->.
  unfold update_rates_scaler in Hd. apply mbind_ok in Hd as (dq & Z4 & Hd' & Hd). apply mread_ok in Hd' as (Z4' & Eq); subst Z4. unfold fit_into in Hd. cbn [put_time put_space put_press rates_scaler] in Hd. destruct (sc_fit (rates_scaler S) _ _) as [x4 r4] eqn:E4. injection Hd as <- ->.
  exists t, c, dp, dq. repeat match goal with u : unit |- _ => destruct u end. repeat split; auto.
Qed.
Lemma fit_vec_fitted (x y : scaler fl) v : sc_fit x (nda1 v) true = (y, Ok tt) -> fitted y.
Proof.
  destruct x as [|k]; cbn [sc_fit]; [intros E; injection E as <-; exact I|]. unfold mm_fit. cbn [nda1 nd_shape length Nat.ltb Nat.leb andb]. cbn [np_reduce nd_shape nd_data nda1].
  destruct (reduce nmin v) as [lo|]; cbn [rbind]; [|discriminate]. destruct (reduce nmax v) as [hi|]; cbn [rbind]; [|discriminate].
  intros E. injection E as <-. cbn. eauto.
Qed.
Lemma fit_all_fitted (x y : scaler fl) v : sc_fit x v false = (y, Ok tt) -> fitted y.
Proof.
  destruct x as [|k]; cbn [sc_fit]; [intros E; injection E as <-; exact I|]. unfold mm_fit. rewrite andb_false_r. cbn [np_reduce].
  destruct (reduce nmin _) as [lo|]; cbn [rbind]; [|discriminate]. destruct (reduce nmax _) as [hi|]; cbn [rbind]; [|discriminate].
  intros E. injection E as <-. cbn. eauto.
Qed.
(** ranges column by column *)
Definition fitted_cols (w : nat) (x : scaler fl) : Prop :=
  match x with Dummy => True | MinMax k => exists lo hi, vmin k = Some (RV lo) /\ vmax k = Some (RV hi) /\ length lo = w /\ length hi = w end.
Lemma fit_cols_fitted (x y : scaler fl) w rows : sc_fit x (nda2 w rows) true = (y, Ok tt) -> fitted_cols w y.
Proof.
  destruct x as [|k]; cbn [sc_fit]; [intros E; injection E as <-; exact I|]. unfold mm_fit. cbn [nda2 nd_shape length Nat.ltb Nat.leb andb]. cbn [np_reduce nd_shape nd_data nda2].
  destruct (rmapM _ _) as [lo|] eqn:E1; cbn [rbind]; [|discriminate]. destruct (rmapM (fun j => reduce nmax _) _) as [hi|] eqn:E2; cbn [rbind]; [|discriminate].
  apply rmapM_len in E1, E2. rewrite seq_length in *. intros E. injection E as <-. cbn. eauto 6.
Qed.
Definition scj (x : scaler fl) (j : nat) (v : fl) : fl :=
  match x with
  | Dummy => v
  | MinMax k => match vmin k, vmax k with Some (RV lo), Some (RV hi) => formula (Vmin k) (Vmax k) (nth j lo n0) (nth j hi n0) v | _, _ => None end
  end.
Lemma scj_nan x j : scj x j None = None.
Proof. destruct x as [|k]; cbn; auto. destruct (vmin k) as [[lo|lo]|], (vmax k) as [[hi|hi]|]; auto. apply formula_nan. Qed.
Lemma scale_cols_ok x w rows : 0 < w -> fitted_cols w x -> Forall (fun r => length r = w) rows ->
  scale_rows x w rows = Ok (map (fun r => map2 (fun j v => scj x j v) (seq 0 w) r) rows).
Proof.
  intros Hw Hx H. assert (L : Forall (fun r : list fl => length r = w) (map (fun r => map2 (fun j v => scj x j v) (seq 0 w) r) rows)).
  { apply Forall_forall. intros r I. apply in_map_iff in I as (r' & <- & I). rewrite Forall_forall in H. rewrite map2_length; [auto|rewrite seq_length; symmetry; auto]. }
  destruct x as [|k].
  - unfold scale_rows. cbn [sc_transform rbind]. rewrite rows_nda2 by auto. f_equal. rewrite <- (map_id rows) at 1. apply map_ext_in. intros r I. cbn [scj].
    rewrite Forall_forall in H. rewrite <- (H r I). symmetry. etransitivity; [exact (map2_seq (fun v => v) r 0)|apply map_id].
  - destruct Hx as (lo & hi & E1 & E2 & L1 & L2). unfold scale_rows. cbn [sc_transform]. unfold mm_transform. rewrite E1, E2. unfold broadcast. cbn [nda2 nd_shape nd_data last rng_len_ok].
    rewrite L1, L2, Nat.eqb_refl. cbn [andb rbind]. f_equal. cbn [rng_at].
    pose proof (map2_shift (fun j v => scj (MinMax k) j v) w rows Hw H 0) as E. cbn [Nat.mul] in E.
    transitivity (nda_rows (mkNda [length rows; w] (map2 (fun i v => scj (MinMax k) (i mod w) v) (seq 0 (length (concat rows))) (concat rows)))).
    { f_equal. f_equal. unfold map2. apply map_ext. intros [i v]. cbn [scj fst snd]. rewrite E1, E2. reflexivity. }
    rewrite E. pose proof (rows_nda2 w _ L) as E3. unfold nda2 in E3. now rewrite map_length in E3.
Qed.

(** ** Directions *)
Lemma fdir_nonempty g : get_fdir g <> [].
Proof. unfold get_fdir, fdir_of_shape. repeat match goal with |- context [match ?x with _ => _ end] => destruct x end; discriminate. Qed.
Lemma fdir_names g : NoDup (map axis_name (get_fdir g)).
Proof.
  unfold get_fdir, fdir_of_shape. repeat match goal with |- context [match ?x with _ => _ end] => destruct x end; cbn;
  repeat (constructor; [cbn; intuition discriminate|]); constructor.
Qed.
Fixpoint sindex (n : string) (l : list string) : option nat :=
  match l with [] => None | a :: l => if String.eqb n a then Some 0 else option_map S (sindex n l) end.
Lemma sindex_nth l j n : NoDup l -> nth_error l j = Some n -> sindex n l = Some j.
Proof.
  revert j. induction l as [|a l IH]; intros [|j] N E; cbn in *; try discriminate.
  - injection E as <-. now rewrite String.eqb_refl.
  - inversion N. subst. destruct (String.eqb_spec n a) as [->|]; [exfalso; apply nth_error_In in E; auto|]. now rewrite (IH j).
Qed.
Lemma sindex_none l n : ~ In n l -> sindex n l = None.
Proof. induction l as [|a l IH]; cbn; intros H; auto. destruct (String.eqb_spec n a) as [->|]; [exfalso; auto|]. rewrite IH; auto. Qed.

Section touching.
Variables (m : bo F) (so : option (soln F)) (un : list (string * string)) (S : scs) (units boundary melt scale : bool) (sT sQ sP : string).
Notation names := (map axis_name (get_fdir (bgrid m))).
Definition gx (name : string) (v : val F) : val F :=
  if scale then match sindex name names with Some j => vmap (scj (space_scaler S) j) v | None => v end else v.
Notation touch := (retouch (g S scale gx) (h units sT sQ sP)).
Lemma gx_nan n : gx n VNan = VNan.
Proof. unfold gx. destruct scale; auto. destruct (sindex _ _); reflexivity. Qed.
Lemma touch_axis a v : h units sT sQ sP (axis_name a) = axis_name a /\ g S scale gx (axis_name a) v = gx (axis_name a) v.
Proof. destruct a; split; reflexivity. Qed.
Lemma table_cols (ns : list string) (G : nat -> val F -> val F) (hh : string -> string) (gg : string -> val F -> val F) rows :
  (forall j n v, nth_error ns j = Some n -> gg n v = G j v) -> (forall j, G j VNan = VNan) ->
  Forall (fun r => length r = length ns) rows ->
  table (map hh ns) (map (fun r => map2 G (seq 0 (length ns)) r) rows) = retouch gg hh (table ns rows).
Proof.
  intros HG GN L. unfold table, retouch. cbn [f_rows f_cols]. rewrite !map_length. f_equal. rewrite map_map. cbn [fst snd].
  match goal with |- map ?f _ = map ?g0 _ => transitivity (map (fun jn : nat * string => (hh (snd jn), map (fun r => G (fst jn) (nth (fst jn) r VNan)) rows)) (combine (seq 0 (length ns)) ns)) end.
  - rewrite <- (map_length hh ns) at 1.
    assert (E : forall k, combine (seq k (length ns)) (map hh ns) = map (fun jn => (fst jn, hh (snd jn))) (combine (seq k (length ns)) ns)).
    { clear. induction ns as [|n ns IH]; intros k; cbn; [reflexivity|]. now rewrite IH. }
    rewrite map_length, E, map_map. cbn [fst snd]. apply map_ext_in. intros [j n] I. cbn [fst snd]. f_equal. rewrite map_map. apply map_ext_in. intros r Ir.
    rewrite Forall_forall in L. specialize (L r Ir). apply in_combine_l, in_seq in I.
    rewrite (nth_map2 G _ _ j 0 VNan) by (rewrite ?seq_length, ?L; lia). now rewrite seq_nth by lia.
  - apply map_ext_in. intros [j n] I. cbn [fst snd]. f_equal. rewrite map_map. apply map_ext. intros r. symmetry. apply HG.
    assert (K : forall k, In (j, n) (combine (seq k (length ns)) ns) -> k <= j /\ nth_error ns (j - k) = Some n).
    { clear. induction ns as [|a ns IH]; intros k I; cbn in I; [destruct I|]. destruct I as [I|I].
      - injection I as -> ->. rewrite Nat.sub_diag. auto.
      - apply IH in I as (L & E). split; [lia|]. replace (j - k) with (Datatypes.S (j - Datatypes.S k)) by lia. exact E. }
    apply K in I as (_ & I). now rewrite Nat.sub_0_r in I.
Qed.
Lemma centers_rows b c : FrameModel.get_centers m b = Ok c -> snd c = get_fdir (bgrid m) /\ Forall (fun r : list F => length r = length (get_fdir (bgrid m))) (fst c).
Proof.
  unfold FrameModel.get_centers. destruct (get_cells_center _ _) as [pts|]; cbn [rbind]; [|discriminate]. destruct (rmapM _ pts) as [rows|] eqn:E; cbn [rbind]; [|discriminate].
  intros H. injection H as <-. split; [reflexivity|]. cbn [fst]. revert rows E. induction pts as [|p pts IH]; intros rows E; cbn [rmapM] in E; [injection E as <-; constructor|].
  destruct (rmapM _ (get_fdir _)) as [row|] eqn:Er; cbn [rbind] in E; [|discriminate]. destruct (rmapM _ pts) as [rows'|]; cbn [rbind] in E; [|discriminate]. injection E as <-.
  constructor; auto. exact (rmapM_len _ _ _ Er).
Qed.
Hypotheses (Settled : scale = true -> update_space_scaler m true S = (S, Ok tt)) (Fs : scale = true -> fitted_cols (length (get_fdir (bgrid m))) (space_scaler S)).
Definition row_s (r : list F) : list fl := if scale then map2 (fun j v => scj (space_scaler S) j v) (seq 0 (length (get_fdir (bgrid m)))) (map Some r) else map Some r.
Lemma centers_s b : get_centers_s m scale b S = (S, rmap (fun c => (map row_s (fst c), snd c)) (FrameModel.get_centers m b)).
Proof.
  unfold get_centers_s, mbind at 1. unfold mread at 1. destruct (FrameModel.get_centers m b) as [c|] eqn:E; [|reflexivity]. cbn [rmap].
  destruct (centers_rows _ _ E) as (E1 & E2). unfold row_s. destruct scale.
  - unfold mbind at 1. rewrite Settled by auto. unfold mbind, mread, mret. rewrite E1.
    rewrite scale_cols_ok; auto; [|pose proof (fdir_nonempty (bgrid m)); destruct (get_fdir (bgrid m)); [congruence|cbn; lia]|].
    + now rewrite map_map.
    + apply Forall_forall. intros r I. apply in_map_iff in I as (r' & <- & I). rewrite map_length. rewrite Forall_forall in E2. auto.
  - reflexivity.
Qed.
Lemma np_tile_map {A B} (f : A -> B) l n : np_tile (map f l) n = map f (np_tile l n).
Proof. unfold np_tile. induction (seq 0 n) as [|k ks IH]; cbn [flat_map]; auto. now rewrite map_app, IH. Qed.
Lemma xyz_s x b df : add_xyz_s m x b scale (touch df) S = (S, rmap touch (add_xyz m x b df)).
Proof.
  unfold add_xyz_s, mbind. rewrite centers_s. unfold add_xyz. destruct (FrameModel.get_centers m b) as [c|] eqn:E; cbn [rmap rbind]; [|reflexivity].
  destruct (centers_rows _ _ E) as (E1 & E2). unfold mret. f_equal. f_equal. rewrite <- retouch_concat by (apply g_nan, gx_nan). f_equal. rewrite E1. cbn [fst snd].
  set (w := length (get_fdir (bgrid m))) in *. assert (Hw : 0 < w) by (subst w; pose proof (fdir_nonempty (bgrid m)); destruct (get_fdir (bgrid m)); [congruence|cbn; lia]).
  assert (L1 : forall (A : Type) (l : list (list A)) k, Forall (fun r => length r = w) l -> Forall (fun r => length r = w) (np_tile l k)).
  { intros A l k H. apply Forall_forall. intros r I. unfold np_tile in I. apply in_flat_map in I as (? & _ & I). rewrite Forall_forall in H. auto. }
  assert (L2 : Forall (fun r : list fl => length r = w) (map row_s (fst c))).
  { apply Forall_forall. intros r I. apply in_map_iff in I as (r' & <- & I). rewrite Forall_forall in E2. specialize (E2 r' I). unfold row_s. fold w.
    destruct scale; rewrite ?map2_length, map_length; auto. rewrite seq_length, map_length. auto. }
  rewrite <- !concat_tile, !reshape_concat by auto. rewrite np_tile_map, map_map.
  rewrite <- (table_cols names (fun j => if scale then vmap (scj (space_scaler S) j) else fun v => v) (h units sT sQ sP) (g S scale gx)).
  - f_equal.
    + rewrite map_map. apply map_ext. intros a. symmetry. apply (touch_axis a VNan).
    + rewrite map_map. apply map_ext_in. intros r Ir. rewrite map_length. fold w. unfold row_s. fold w. destruct scale.
      * unfold map2. rewrite !map_map. assert (K : forall k, map (fun x : nat * fl => vfl (scj (space_scaler S) (fst x) (snd x))) (combine (seq k w) (map Some r)) =
          map (fun p : nat * val F => vmap (scj (space_scaler S) (fst p)) (snd p)) (combine (seq k w) (map VNum r))).
        { clear. revert r. induction w as [|w IH]; intros [|x r] k; cbn; try reflexivity. f_equal. apply IH. }
        apply K.
      * unfold map2. rewrite !map_map. cbn [vfl]. assert (K : forall k, length r <= w -> map (@VNum F) r = map (fun p : nat * val F => snd p) (combine (seq k w) (map VNum r))).
        { clear. revert r. induction w as [|w IH]; intros [|x r] k; cbn; intros L; try reflexivity; [lia|]. f_equal. apply IH. lia. }
        apply K. specialize (L1 _ _ (so_nsteps x) E2). rewrite Forall_forall in L1. rewrite (L1 r Ir). apply le_n.
  - intros j n v Ej. pose proof Ej as Ej'. rewrite nth_error_map in Ej'. destruct (nth_error (get_fdir (bgrid m)) j) as [a|]; [|discriminate]. injection Ej' as <-.
    rewrite (proj2 (touch_axis a v)). unfold gx. rewrite (sindex_nth _ _ _ (fdir_names _) Ej). destruct scale; reflexivity.
  - intros j. destruct scale; reflexivity.
  - rewrite map_length. apply Forall_forall. intros r I. apply in_map_iff in I as (r' & <- & I). rewrite map_length. specialize (L1 _ _ (so_nsteps x) E2). rewrite Forall_forall in L1. auto.
Qed.
Hypotheses (HT : name_str un units scale S "time" = Ok sT) (HQ : name_str un units scale S "rate" = Ok sQ) (HP : name_str un units scale S "pressure" = Ok sP)
  (FT : scale = true -> fitted (time_scaler S)) (FQ : scale = true -> fitted (rates_scaler S)) (FP : scale = true -> fitted (pressures_scaler S)).
Lemma touch_plain ns (df : frame F) : map fst (f_cols df) = ns -> (forall n, In n ns -> kind_of n = KOther /\ ~ In n names) -> touch df = df.
Proof.
  intros <- H. destruct df as [n cols]. unfold retouch. cbn [f_rows f_cols] in *. f_equal. rewrite <- (map_id cols) at 2. apply map_ext_in. intros [nm c] I.
  destruct (H nm) as (K & K'); [apply (in_map fst _ _ I)|]. cbn [fst snd]. unfold h, g. rewrite K. f_equal.
  - clear. induction nm as [|a nm IH]; cbn; [reflexivity|]. now rewrite IH.
  - rewrite <- (map_id c) at 2. apply map_ext. intros v. unfold gx. rewrite (sindex_none _ _ K'). now destruct scale.
Qed.
Lemma axis_names a : axis_name a <> "id"%string /\ axis_name a <> "Step"%string.
Proof. destruct a; split; discriminate. Qed.
Lemma start_s : melted_start_s m so boundary scale S = (S, rmap touch (melted_start m so boundary)).
Proof.
  unfold melted_start_s, melted_start. destruct so as [x|]; [|reflexivity]. unfold mbind, mread. cbv zeta.
  destruct (get_cells_id _ _) as [ids|]; cbn [rbind rmap]; [|reflexivity].
  set (v := np_tile _ _). set (w := np_repeat _ _). change (pd_assign frame0 "id" v) with (Ok (mkFrame (length v) [("id"%string, v)])). cbn [rbind].
  destruct (pd_assign (mkFrame (length v) [("id"%string, v)]) "Step" w) as [df|] eqn:E; cbn [rbind rmap]; [|reflexivity].
  assert (N : map fst (f_cols df) = ["id"; "Step"]%string).
  { unfold pd_assign in E. cbn [f_cols f_rows] in E. destruct (_ =? _); [|discriminate]. now injection E as <-. }
  rewrite <- (touch_plain _ df N) at 1; [apply xyz_s|]. intros n [<- | [<- | []]]; (split; [reflexivity|]); intros I; apply in_map_iff in I as (a & Ea & _); destruct (axis_names a); auto.
Qed.
Lemma touched cols : (do df <- (if melt then melted_start_s m so boundary scale else mret (@frame0 F)) ;;
    mread (fun s => fold_left (fun r c => let* df := r in add_column_s m so un units boundary melt scale s df c) cols (Ok df))) S =
  (S, rmap touch (full_df m so cols boundary melt)).
Proof.
  assert (E : (if melt then melted_start_s m so boundary scale else mret (@frame0 F)) S = (S, rmap touch (if melt then melted_start m so boundary else Ok (@frame0 F)))).
  { destruct melt; [apply start_s|reflexivity]. }
  unfold mbind. rewrite E. unfold full_df. destruct (if melt then melted_start m so boundary else Ok frame0) as [df|]; cbn [rmap rbind]; [|reflexivity]. unfold mread. f_equal.
  apply (t_columns m so un S units boundary melt scale sT sQ sP gx HT HQ HP FT FQ FP gx_nan cols (Ok df)).
Qed.
End touching.
Lemma refit_again q v a S S1 T : refit q v a S = (S1, Ok tt) -> scaler_of T q = scaler_of S1 q -> refit q v a T = (T, Ok tt).
Proof.
  unfold refit, fit_into. rewrite !place_get. intros E ET. pose proof (sc_fit_again (scaler_of S q) v a) as K. destruct (sc_fit (scaler_of S q) v a) as [x r] eqn:Ex.
  injection E as <- ->. cbn [fst snd] in K. rewrite place_put in ET. replace (qeqb q q) with true in ET by now destruct q. rewrite ET, (K eq_refl). f_equal.
  rewrite <- ET. destruct q, T; reflexivity.
Qed.
(** Without scaling nothing is fitted and only the names change; with scaling the
    result is given by the fitted scalers. *)
Lemma full_plain m so un (S : scs) cols b units melt sT sQ sP :
  name_str un units false S "time" = Ok sT -> name_str un units false S "rate" = Ok sQ -> name_str un units false S "pressure" = Ok sP ->
  full_df_s m so un cols b units melt false S = (S, rmap (retouch (g S false (gx m S false)) (h units sT sQ sP)) (full_df m so cols b melt)).
Proof. intros HT HQ HP. unfold full_df_s. cbn [mwhen]. unfold mbind at 1, mret at 1. apply touched; auto; discriminate. Qed.
Lemma full_scaled m so un (S S1 : scs) cols b units melt sT sQ sP : update_scalers m so true S = (S1, Ok tt) ->
  name_str un units true S1 "time" = Ok sT -> name_str un units true S1 "rate" = Ok sQ -> name_str un units true S1 "pressure" = Ok sP ->
  full_df_s m so un cols b units melt true S = (S1, rmap (retouch (g S1 true (gx m S1 true)) (h units sT sQ sP)) (full_df m so cols b melt)).
Proof.
  intros E HT HQ HP. unfold full_df_s. cbn [mwhen]. unfold mbind at 1. rewrite E. destruct (update_ok _ _ _ _ _ E) as (t & c & dp & dq & Et & Ec & Ep & Eq & F1 & F2 & F3 & F4 & D).
  destruct (centers_rows _ _ _ Ec) as (Ec' & _). apply touched; auto; intros _.
  - unfold update_space_scaler, mbind, mread. rewrite Ec. change (fit_into (@space_scaler fl) put_space) with (refit QSpace).
    apply (refit_again QSpace _ _ S (put_space S (space_scaler S1))); [|reflexivity]. unfold refit, fit_into. cbn [place fst snd]. rewrite F2. reflexivity.
  - apply fit_cols_fitted in F2. now rewrite Ec' in F2.
  - eapply fit_vec_fitted; eauto.
  - eapply fit_all_fitted; eauto.
  - eapply fit_all_fitted; eauto.
Qed.
Lemma full_failed m so un (S S1 : scs) cols b units melt e : update_scalers m so true S = (S1, Err e) ->
  full_df_s m so un cols b units melt true S = (S1, Err e).
Proof. intros E. unfold full_df_s. cbn [mwhen]. unfold mbind at 1. now rewrite E. Qed.
End full.
