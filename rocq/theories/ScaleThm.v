(** Scaled and labelled data: property lemmas. *)
From Coq Require Import String Ascii ZArith Bool Arith List Lia Reals Lra QArith.
From Verif Require Import Prelude PreludeFacts TabFacts Num GridModel GridSpec GridProofs GeoModel GeoSpec GeoProofs PropModel UnitsModel BlackOilModel FdmModel
  HistSpec InvFacts MonadFacts Samples SampleFacts SampleWell SampleLimit QSamples FrameModel FrameSpec FrameFacts FrameThm ScalerModel ScalerSpec ScalerThm ScaleModel ScaleSpec ScaleFacts ScaleState ScaleFull ScaleRange.
Import ListNotations.
Close Scope Q_scope. Close Scope R_scope.
Open Scope nat_scope.

(** ** C98 *)
Lemma forallb_map' {A B} (f : A -> B) p l : forallb p (map f l) = forallb (fun a => p (f a)) l.
Proof. induction l as [|a l IH]; cbn; [reflexivity|]. now rewrite IH. Qed.
Lemma filter_map' {A B} (f : A -> B) p l : filter p (map f l) = map f (filter (fun a => p (f a)) l).
Proof. induction l as [|a l IH]; cbn; [reflexivity|]. rewrite IH. now destruct (p (f a)). Qed.
Lemma drop_renamed {F} {NF : Num F} h melt dn dz (df : frame F) : drop melt dn dz (renamed h df) = renamed h (drop melt dn dz df).
Proof.
  unfold drop, renamed. destruct melt, dn; cbn [f_rows f_cols].
  - unfold keep_rows. cbn [f_rows f_cols]. f_equal.
    + f_equal. apply filter_ext. intros r. rewrite forallb_map'. reflexivity.
    + rewrite !map_map. cbn [fst snd]. erewrite filter_ext; [reflexivity|]. intros r. cbn beta. now rewrite forallb_map'.
  - reflexivity.
  - destruct dz; cbn [f_rows f_cols]; f_equal; rewrite !filter_map'; reflexivity.
  - destruct dz; cbn [f_rows f_cols]; f_equal; rewrite ?filter_map'; reflexivity.
Qed.
Lemma app_nil_s s : (s ++ "")%string = s.
Proof. induction s as [|a s IH]; cbn; [reflexivity|]. now rewrite IH. Qed.
Lemma retouch_renamed {F} (g : string -> val F -> val F) h1 h2 f (df : frame F) : (forall n, h1 n = f (h2 n)) -> retouch g h1 df = renamed f (retouch g h2 df).
Proof. intros H. unfold retouch, renamed. cbn [f_rows f_cols]. f_equal. rewrite map_map. apply map_ext. intros c. cbn [fst snd]. now rewrite H. Qed.
Lemma h_plain n : h false "" "" "" n = n.
Proof. unfold h. destruct (kind_of n); apply app_nil_s. Qed.
Lemma has_same {F} (S T : scalers (fl F)) q : same S T -> has_scaler S q = has_scaler T q.
Proof. intros (_ & H). specialize (H q). unfold has_scaler. destruct (scaler_of S q), (scaler_of T q); cbn in H; congruence. Qed.
Lemma name_label {F} un scale (S : scalers (fl F)) q : consistent S -> sget (qname q) un <> None ->
  name_str un true scale S (qname q) = Ok (if scale && has_scaler S q then " [scaled]" else " [" ++ unit_in un (qname q) ++ "]")%string.
Proof.
  intros C U. unfold name_str, unit_str, unit_in. destruct (C q) as (c & E & K). rewrite E. destruct (sget (qname q) un) as [s|] eqn:Eu; [|congruence].
  destruct scale; cbn [andb]; [|reflexivity]. destruct c as [[t|] r]; cbn [fst] in K; unfold has_scaler; [destruct K as (k & ->)|rewrite K]; reflexivity.
Qed.
(** C98: names with units.  get_df(units=True) gives the same rows, columns and values
    as get_df(units=False), or the same exception, for every model, selection and
    options and after any calls reading or setting the scalers; only each name has its
    unit added, or [scaled] exactly if the values are scaled.  The units must have
    entries for time, rate and pressure (as all tables of the package have). *)
Lemma L_C98_units :
  forall (F : Type) (NF : Num F) (NC : NumC F) (m : bo F) so un calls cols b melt scale dn dz,
  Forall (fun k => sget k un <> None) ["time"; "rate"; "pressure"]%string ->
  let S := dafter scalers_new calls in
  match snd (get_df_s m so un cols b false melt scale dn dz S) with
  | Ok df => snd (get_df_s m so un cols b true melt scale dn dz S) = Ok (renamed (labelled un (fun q => scale && has_scaler S q)) df)
  | Err e => snd (get_df_s m so un cols b true melt scale dn dz S) = Err e
  end.
Proof.
  intros F NF NC m so un calls cols b melt scale dn dz U S. inversion U as [|? ? UT U1]. inversion U1 as [|? ? UR U2]. inversion U2 as [|? ? UP _]. subst.
  assert (C : consistent S) by (apply dafter_consistent, new_consistent). clearbody S. unfold get_df_s, mbind.
  assert (HL : forall S1, same S1 S -> forall n, h true (if scale && has_scaler S1 QTime then " [scaled]" else " [" ++ unit_in un "time" ++ "]")
     (if scale && has_scaler S1 QRate then " [scaled]" else " [" ++ unit_in un "rate" ++ "]") (if scale && has_scaler S1 QPressure then " [scaled]" else " [" ++ unit_in un "pressure" ++ "]") n =
     labelled un (fun q => scale && has_scaler S q) (h false "" "" "" n)).
  { intros S1 H n. rewrite h_plain, !(has_same _ _ _ H). unfold h, labelled. destruct (kind_of n); reflexivity. }
  assert (KEY : exists T r1 r2, full_df_s m so un cols b false melt scale S = (T, r1) /\ full_df_s m so un cols b true melt scale S = (T, r2) /\
    r2 = rmap (renamed (labelled un (fun q => scale && has_scaler S q))) r1).
  { destruct scale.
    - destruct (update_scalers m so true S) as [S1 [[]|e]] eqn:E.
      + assert (H : same S1 S) by (pose proof (i_update m so true S S (same_refl S)) as K; now rewrite E in K).
        assert (C1 : consistent S1) by (eapply consistent_same; [apply same_sym; exact H|exact C]).
        rewrite (full_scaled m so un S S1 cols b false melt "" "" "" E eq_refl eq_refl eq_refl).
        rewrite (full_scaled m so un S S1 cols b true melt _ _ _ E (name_label un true S1 QTime C1 UT) (name_label un true S1 QRate C1 UR) (name_label un true S1 QPressure C1 UP)).
        do 3 eexists. split; [reflexivity|]. split; [reflexivity|]. destruct (full_df _ _ _ _ _) as [df|]; cbn [rmap]; [|reflexivity]. f_equal. apply retouch_renamed. apply HL, H.
      + rewrite !(full_failed _ _ _ _ _ _ _ _ _ _ E). do 3 eexists. split; [reflexivity|]. split; reflexivity.
    - rewrite (full_plain m so un S cols b false melt "" "" "" eq_refl eq_refl eq_refl).
      rewrite (full_plain m so un S cols b true melt _ _ _ (name_label un false S QTime C UT) (name_label un false S QRate C UR) (name_label un false S QPressure C UP)).
      do 3 eexists. split; [reflexivity|]. split; [reflexivity|]. destruct (full_df _ _ _ _ _) as [df|]; cbn [rmap]; [|reflexivity]. f_equal. apply retouch_renamed. exact (HL S (same_refl S)). }
  destruct KEY as (T & r1 & r2 & E1 & E2 & ->). rewrite E1, E2. destruct r1 as [df|e]; cbn [rmap snd]; [|reflexivity]. unfold mret. cbn [snd]. f_equal. apply drop_renamed.
Qed.
(** ... and with neither units nor scaling the frame is the plain one of C71, C84 and
    C85. *)
Lemma L_C98_plain :
  forall (F : Type) (NF : Num F) (NC : NumC F) (m : bo F) so un cols b melt dn dz (S : scalers (fl F)),
  get_df_s m so un cols b false melt false dn dz S = (S, FrameModel.get_df m so cols b melt dn dz).
Proof.
  intros. unfold get_df_s, mbind. rewrite (full_plain m so un S cols b false melt "" "" "" eq_refl eq_refl eq_refl).
  unfold FrameModel.get_df. destruct (full_df _ _ _ _ _) as [df|]; cbn [rmap rbind]; [|reflexivity]. unfold mret. f_equal. f_equal. f_equal.
  destruct df as [n cs]. unfold retouch. cbn [f_rows f_cols]. f_equal. rewrite <- (map_id cs) at 2. apply map_ext. intros [nm c]. cbn [fst snd].
  rewrite h_plain. f_equal. rewrite <- (map_id c) at 2. apply map_ext. intros v. unfold g, pick, gx. destruct (kind_of nm); destruct v; reflexivity.
Qed.
(** The metric units name all three quantities; the labels of a new model. *)
Example ex_C98_case : Forall (fun k => sget k (sfind "metric" UNITS) <> None) ["time"; "rate"; "pressure"]%string /\
  map (labelled (sfind "metric" UNITS) (fun _ => false)) ["Time"; "Q1"; "Pwf2"; "Step"]%string = ["Time [days]"; "Q1 [m^3/day]"; "Pwf2 [kpa]"; "Step"]%string /\
  map (labelled (sfind "metric" UNITS) (fun q => true && has_scaler (@scalers_new R Num_R) q)) ["Time"; "Q1"; "Pwf2"; "Step"]%string = ["Time [scaled]"; "Q1 [m^3/day]"; "Pwf2 [scaled]"; "Step"]%string.
Proof. split; [repeat constructor; discriminate|]. split; reflexivity. Qed.

(** ** C101 *)
(** C101: what is read does not depend on what was read before.  With the same model,
    solution and settings of the scalers, the scaled times, centres, domains and frames
    are the same, whatever scaled or plain data was read (of this or of earlier states
    of the model) or fitted in between. *)
Lemma L_C101_repeatable :
  forall (F : Type) (NF : Num F) (NC : NumC F) (S : scalers (fl F)) calls, Forall reads calls ->
  (forall m so scale, snd (get_time_s m so scale (dafter S calls)) = snd (get_time_s m so scale S)) /\
  (forall m scale b, snd (get_centers_s m scale b (dafter S calls)) = snd (get_centers_s m scale b S)) /\
  (forall m so scale b, snd (get_domain_s m so scale b (dafter S calls)) = snd (get_domain_s m so scale b S)) /\
  (forall m so un cols b units melt scale dn dz, snd (get_df_s m so un cols b units melt scale dn dz (dafter S calls)) = snd (get_df_s m so un cols b units melt scale dn dz S)).
Proof.
  intros F NF NC S calls H. pose proof (dafter_same calls S H) as E. repeat split; intros; apply det_same; auto;
    [apply d_gtime|apply d_gcenters|apply d_gdomain|apply d_df].
Qed.
(** Reading a frame before the first step, then times: these calls only read. *)
Example ex_C101_case : forall (m : bo R) s, Forall reads [DFrame m (Some (of_fdm s)) [] ["cells_pressure"%string] true false false true false false; DUpdate m None true; DTime m (Some (of_fdm s)) true].
Proof. intros m s. repeat constructor. Qed.

(** ** C100 *)
Lemma time_entries dt (s : fs R) l : time_vector (s_tstep s) dt = Ok l -> (0 < dt)%R -> forall x, In (Some x) (map Some l) <-> times_of dt s x.
Proof.
  intros E Hdt x. destruct (L_C70_exact_partial (s_tstep s) dt Hdt) as (l' & E' & L & N). assert (l' = l) by congruence. subst l'. rewrite in_some. unfold times_of, steps_of. split.
  - intros I. apply In_nth_error in I as (t & Et). assert (t < length l) by (apply nth_error_Some; congruence). exists t. rewrite in_seq, N in * by lia. split; [lia|]. congruence.
  - intros (t & I & ->). apply in_seq in I. eapply nth_error_In. apply N. lia.
Qed.
Lemma centers_ok (m : bo R) b pts : get_cells_center (geom (b_grid m)) b = Ok pts -> (forall a, In a (get_fdir (bgrid m)) -> a <> ADash) ->
  FrameModel.get_centers m b = Ok (map (fun p => map (fun a => coord_of a p) (get_fdir (bgrid m))) pts, get_fdir (bgrid m)).
Proof.
  intros Hp Hd. unfold FrameModel.get_centers. rewrite Hp. cbn [rbind].
  assert (E : rmapM (fun p : R * R * R => rmapM (fun a => col_of a p) (get_fdir (bgrid m))) pts = Ok (map (fun p => map (fun a => coord_of a p) (get_fdir (bgrid m))) pts)).
  { apply rmapM_ok. intros p _. apply rmapM_ok. intros a Ia. apply Hd in Ia. destruct p as [[? ?] ?], a; try reflexivity. congruence. }
  now rewrite E.
Qed.
Lemma gobj_wf x y z u (dx dy dz : dinput R) kx ky kz phi zz comp T g : gobj_new x y z u dx dy dz kx ky kz phi zz comp T = Ok g -> wf (ggrid g).
Proof.
  intros Eg. unfold gobj_new in Eg. destruct (geo_new x y z u dx dy dz) as [G|] eqn:EG; cbn [rbind] in Eg; [|discriminate].
  assert (HG : geom g = G). { destruct (set_props _ _ _ _ _ _ _ _ _) as [p [?|?]]; [|discriminate]. now inversion Eg. }
  pose proof (b_wf _ _ _ _ _ _ _ _ (geo_new_built _ _ _ _ _ _ _ _ EG)) as W. unfold ggrid. now rewrite HG.
Qed.
Lemma affine_even a b dt n t : (0 < dt)%R -> 0 < n -> affine a b 0 (INR n * dt) (INR t * dt) = (a + (b - a) * (INR t / INR n))%R.
Proof. intros H L. apply lt_INR in L. cbn in L. unfold affine. field. lra. Qed.
Lemma time_range dt (s : fs R) : (0 < dt)%R -> range_is (times_of dt s) 0 (INR (s_tstep s) * dt).
Proof.
  intros H. unfold times_of, steps_of. split; [exists 0; split; [apply in_seq; lia|cbn; lra]|]. split; [exists (s_tstep s); split; [apply in_seq; lia|reflexivity]|].
  intros x (t & I & ->). apply in_seq in I. assert (L : t <= s_tstep s) by lia. apply le_INR in L. pose proof (pos_INR t). nra.
Qed.
(** C100: scaled times.  With a scaler to [a, b], the scaled times of a solution with
    at least one step run evenly from a to b; before the first step the only one is
    missing (0/0). *)
Lemma L_C100_time :
  forall (m : bo R) (s : fs R) S a b, (0 < b_dt m)%R -> scales_to S QTime a b ->
  exists l, snd (get_time_s m (Some (of_fdm s)) true S) = Ok l /\ length l = s_tstep s + 1 /\
  (0 < s_tstep s -> forall t, t <= s_tstep s -> nth_error l t = Some (Some (a + (b - a) * (INR t / INR (s_tstep s)))%R)) /\
  (s_tstep s = 0 -> l = [None]).
Proof.
  intros m s S a b Hdt (l0 & h0 & ES). destruct (L_C70_exact_partial (s_tstep s) (b_dt m) Hdt) as (l & E & L & N). cbn [scaler_of] in ES.
  unfold get_time_s, mbind, mread. cbn [frame_tstep of_fdm so_tstep]. rewrite E. cbv zeta. unfold update_time_scaler, mbind, mread. cbn [frame_tstep of_fdm so_tstep]. rewrite E.
  unfold fit_into. assert (W : Forall (fun r : list flR => length r = 1) (map (fun x => [x]) (map Some l))) by (apply Forall_forall; intros r I; apply in_map_iff in I as (? & <- & _); reflexivity).
  assert (CC : forall (f : flR -> flR) v, concat (map (map f) (map (fun x => [x]) v)) = map f v) by (intros f v; induction v as [|x v IH]; cbn; [reflexivity|]; now rewrite IH).
  destruct (Nat.eq_0_gt_0_cases (s_tstep s)) as [Z|Z].
  - rewrite Z in *. destruct l as [|t0 [|t1 l]]; cbn in L; try lia. specialize (N 0 (Nat.le_refl 0)). cbn in N. injection N as ->.
    rewrite ES. cbn [map]. eexists. split; [|split; [|split; [lia|reflexivity]]]; [|reflexivity].
    cbn [sc_fit]. unfold mm_fit. cbn [nda1 nd_shape length Nat.ltb Nat.leb andb np_reduce nd_data reduce fold_left rbind Vmin Vmax vmin vmax map put_time time_scaler snd].
    rewrite (scale_rows_ok _ 1) by (cbn; eauto; repeat constructor). cbn [rbind map concat app]. f_equal. f_equal. unfold sc1. cbn [vmin vmax Vmin Vmax].
    unfold formula, fadd, fdiv, fmul, fsub, lift2. cbn. unfold Reqb. destruct (Req_EM_T _ _) as [K|K]; [reflexivity|exfalso; apply K; lra].
  - destruct (fit_scalar S QTime (times_of (b_dt m) s) (affine a b 0 (INR (s_tstep s) * b_dt m)) (nda1 (map Some l)) true) as (y & Ey & Hy).
    + right. exists a, b, 0%R, (INR (s_tstep s) * b_dt m)%R. split; [exists l0, h0; exact ES|]. split; [now apply time_range|]. split; [apply lt_INR in Z; cbn in Z; nra|auto].
    + right. now exists (length (map Some l)).
    + intros _. split; [intros e I; cbn [nda1 nd_data] in I; apply in_map_iff in I as (? & <- & _); discriminate|]. cbn [nda1 nd_data]. now apply time_entries.
    + cbn [scaler_of] in Ey. assert (Fy : fitted y) by (eapply fit_vec_fitted; exact Ey). rewrite Ey. cbn [snd put_time time_scaler].
      rewrite (scale_rows_ok _ 1) by auto. cbn [rbind]. rewrite CC. exists (map (sc1 y) (map Some l)). split; [reflexivity|]. rewrite !map_length. split; [exact L|]. split; [|lia].
      intros _ t Ht. rewrite !nth_error_map, (N t Ht). cbn [option_map]. f_equal. specialize (Hy (VNum (INR t * b_dt m)%R)). cbn [vmap on_val] in Hy.
      destruct (sc1 y (Some (INR t * b_dt m)%R)) as [r|] eqn:Er; cbn [vfl] in Hy; [|discriminate]. injection Hy as ->. f_equal. now apply affine_even.
Qed.
Lemma scj_coord y (fx : string -> R -> R) j d x : (forall z, vmap (scj y j) z = on_val (fx (axis_name d)) z) -> scj y j (Some x : flR) = Some (fx (axis_name d) x).
Proof. intros H. specialize (H (VNum x)). cbn [vmap on_val] in H. destruct (scj y j (Some x)) as [r|]; cbn [vfl] in H; [injection H as ->; reflexivity|discriminate]. Qed.
Lemma row_coords y (fx : string -> R -> R) dirs p : (forall j d z, nth_error dirs j = Some d -> vmap (scj y j) z = on_val (fx (axis_name d)) z) ->
  map2 (fun j v => scj y j v) (seq 0 (length dirs)) (map (fun d => Some (coord_of d p)) dirs) = map (fun d => Some (fx (axis_name d) (coord_of d p)) : flR) dirs.
Proof.
  assert (K : forall dirs k, (forall j d z, nth_error dirs j = Some d -> vmap (scj y (k + j)) z = on_val (fx (axis_name d)) z) ->
    map2 (fun j v => scj y j v) (seq k (length dirs)) (map (fun d => Some (coord_of d p)) dirs) = map (fun d => Some (fx (axis_name d) (coord_of d p)) : flR) dirs).
  { clear dirs. induction dirs as [|d dirs IH]; intros k H; [reflexivity|]. unfold map2 in *. cbn [length seq map combine fst snd]. f_equal.
    - apply scj_coord. intros z. rewrite <- (H 0 d z eq_refl). now rewrite Nat.add_0_r.
    - apply IH. intros j d' z E. rewrite <- (H (S j) d' z E). f_equal. f_equal. lia. }
  intros H. apply K. exact H.
Qed.
Lemma space_fit (m : bo R) S pts fx : get_cells_center (geom (b_grid m)) true = Ok pts -> (forall a, In a (get_fdir (bgrid m)) -> a <> ADash) ->
  (forall d, In d (get_fdir (bgrid m)) -> maps S QSpace (coords pts d) (fx (axis_name d))) ->
  exists y, (forall T, space_scaler T = space_scaler S -> update_space_scaler m true T = (put_space T y, Ok tt)) /\ fitted_cols (length (get_fdir (bgrid m))) y /\
  forall j d z, nth_error (get_fdir (bgrid m)) j = Some d -> vmap (scj y j) z = on_val (fx (axis_name d)) z.
Proof.
  intros Hp Hd Hm. destruct (fit_columns S (get_fdir (bgrid m)) pts fx (fdir_names _) Hm) as (y & Ey & Hy). exists y.
  assert (E : map (map Some) (map (fun p => map (fun a => coord_of a p) (get_fdir (bgrid m))) pts) = map (fun p => map (fun d => Some (coord_of d p) : flR) (get_fdir (bgrid m))) pts).
  { rewrite map_map. apply map_ext. intros p. apply map_map. }
  split; [|split; [eapply fit_cols_fitted; exact Ey|exact Hy]].
  intros T HT. unfold update_space_scaler, mbind, mread. rewrite (centers_ok m true pts Hp Hd). unfold fit_into. rewrite HT. cbn [fst snd].
  match goal with |- context [sc_fit ?x ?v ?a] => assert (E1 : sc_fit x v a = (y, Ok tt)) by (etransitivity; [|exact Ey]; f_equal; f_equal; exact E); rewrite E1 end.
  reflexivity.
Qed.
(** ... scaled centres: every coordinate is mapped from the range of all cell centres,
    with the boundary cells even if only the others are asked for ... *)
Lemma L_C100_centers :
  forall x y z u (dx dy dz : dinput R) kx ky kz phi zz comp T g (m : bo R) b pts all S fx,
  gobj_new x y z u dx dy dz kx ky kz phi zz comp T = Ok g -> b_grid m = g -> has_flow (ggrid g) ->
  get_cells_center (geom g) b = Ok pts -> get_cells_center (geom g) true = Ok all ->
  (forall d, In d (get_fdir (ggrid g)) -> maps S QSpace (coords all d) (fx (axis_name d))) ->
  snd (get_centers_s m true b S) =
    Ok (map (fun p => map (fun d => Some (fx (axis_name d) (coord_of d p))) (get_fdir (ggrid g))) pts, get_fdir (ggrid g)).
Proof.
  intros x y z u dx dy dz kx ky kz phi zz comp T g m b pts all S fx Eg Em Hf Hp Ha Hm. subst g.
  destruct (fdir_real _ (gobj_wf _ _ _ _ _ _ _ _ _ _ _ _ _ _ _ Eg) Hf) as (Hn & Hd). change (ggrid (b_grid m)) with (bgrid m) in *.
  destruct (space_fit m S all fx Ha Hd Hm) as (w & U & Fw & Hw). unfold get_centers_s, mbind, mread. rewrite (centers_ok m b pts Hp Hd). cbv zeta. rewrite (U S eq_refl). cbn [put_space space_scaler fst snd].
  rewrite scale_cols_ok; auto.
  - unfold mret. cbn [snd]. f_equal. f_equal. rewrite !map_map. apply map_ext. intros p. rewrite map_map. now apply row_coords.
  - destruct (get_fdir (bgrid m)); [congruence|cbn; lia].
  - apply Forall_forall. intros r I. apply in_map_iff in I as (r' & <- & I). apply in_map_iff in I as (p & <- & _). now rewrite !map_length.
Qed.
(** ... and get_domain gives the two, whatever is asked for. *)
Lemma L_C100_domain :
  forall (F : Type) (NF : Num F) (NC : NumC F) (m : bo F) so scale b (S : scalers (fl F)),
  match snd (get_time_s m so scale S), snd (get_centers_s m scale b S) with
  | Ok t, Ok c => snd (get_domain_s m so scale b S) = Ok (t, fst c)
  | Err e, _ => snd (get_domain_s m so scale b S) = Err e
  | Ok _, Err e => snd (get_domain_s m so scale b S) = Err e
  end.
Proof.
  intros. unfold get_domain_s, mbind. pose proof (i_gtime m so scale S S (same_refl S)) as K. destruct (get_time_s m so scale S) as [S1 [t|e]]; cbn [fst snd] in *; [|reflexivity].
  pose proof (det_same _ _ _ (d_gcenters _ m scale b) K) as D. rewrite <- D. destruct (get_centers_s m scale b S1) as [S2 [c|e]]; reflexivity.
Qed.
(** A new model scales times to [0, 1] and centres to [-1, 1] (for the centres of a grid
    and their range see the case of C99). *)
Example ex_C100_case : scales_to (@scalers_new R Num_R) QTime 0 1 /\ scales_to (@scalers_new R Num_R) QSpace (-1) 1.
Proof. split; exists None, None; reflexivity. Qed.

(** ** C99 *)
Lemma in_values (df : frame R) e : FrameThm.proper df ->
  In e (nd_data (values df)) <-> exists c w, In c (f_cols df) /\ In w (snd c) /\ e = to_fl w.
Proof.
  intros P. unfold values, nda2. cbn [nd_data]. rewrite in_concat. unfold FrameThm.proper in P. rewrite Forall_forall in P. split.
  - intros (row & I & Ie). apply in_map_iff in I as (r & <- & I). apply in_map_iff in Ie as (c & <- & Ic). apply in_seq in I. exists c, (nth r (snd c) VNan).
    split; auto. split; auto. apply nth_In. rewrite (P c Ic). lia.
  - intros (c & w & Ic & Iw & ->). apply In_nth with (d := VNan) in Iw as (r & Lr & Er). rewrite (P c Ic) in Lr.
    exists (map (fun c => to_fl (nth r (snd c) VNan)) (f_cols df)). split; [apply in_map_iff; exists r; split; auto; apply in_seq; lia|].
    apply in_map_iff. exists c. split; auto. now rewrite Er.
Qed.
(** the values that update_scalers fits, of columns by cell *)
Lemma fitted_values (m : bo R) so (s : fs R) b col full a names :
  full_df m so [col] b false = Ok full -> f_cols full = flat_map (fun ni => by_cell (fst ni) a s (snd ni)) names ->
  (f_cols full <> [] -> f_rows full = s_tstep s + 1) ->
  exists df, FrameModel.get_df m so [col] b false true true = Ok df /\
  (complete a s (flat_map snd names) -> (forall e, In e (nd_data (values df)) -> e <> None) /\ forall x, In (Some x) (nd_data (values df)) <-> counts a s (flat_map snd names) x).
Proof.
  intros E Ec Er. destruct (L_C85_columns_kept m so [col] b true true full E) as (df & Ed & Rd & Sub & K). exists df. split; [exact Ed|]. intros C.
  assert (IC : forall c, In c (f_cols full) <-> exists nm id, In id (flat_map snd names) /\ In nm (map fst (filter (fun ni => existsb (Z.eqb id) (snd ni)) names)) /\ c = ((nm ++ str_of id)%string, map (fun t => value_at a t id) (steps_of s))).
  { intros c. rewrite Ec, in_flat_map. split.
    - intros ((nm & ids) & I & Ic). cbn [fst snd] in Ic. unfold by_cell in Ic. apply in_map_iff in Ic as (id & <- & Iid). exists nm, id.
      split; [apply in_flat_map; exists (nm, ids); auto|]. split; [|reflexivity]. apply in_map_iff. exists (nm, ids). split; auto. apply filter_In. split; auto. apply existsb_exists. exists id. split; auto. apply Z.eqb_refl.
    - intros (nm & id & _ & I & ->). apply in_map_iff in I as ((nm' & ids) & En & I). cbn in En. subst nm'. apply filter_In in I as (I & X). apply existsb_exists in X as (id' & Iid & X). apply Z.eqb_eq in X. subst id'.
      exists (nm, ids). split; auto. unfold by_cell. cbn [fst snd]. apply in_map_iff. eauto. }
  assert (IC2 : forall id, In id (flat_map snd names) -> exists nm, In nm (map fst (filter (fun ni => existsb (Z.eqb id) (snd ni)) names))).
  { intros id I. apply in_flat_map in I as ((nm & ids) & I & Iid). exists nm. apply in_map_iff. exists (nm, ids). split; auto. apply filter_In. split; auto. apply existsb_exists. exists id. split; auto. apply Z.eqb_refl. }
  assert (P : FrameThm.proper df).
  { unfold FrameThm.proper. apply Forall_forall. intros c I. rewrite Rd. apply K in I as (I & _). pose proof (proper_full _ _ _ _ _ _ E) as Pf. unfold FrameThm.proper in Pf. rewrite Forall_forall in Pf. auto. }
  split.
  - intros e I. apply (in_values df e P) in I as (c & w & Ic & Iw & ->). apply K in Ic as (Ic & Pr & _). apply IC in Ic as (nm & id & Iid & _ & ->). cbn [snd] in *.
    destruct (Pr eq_refl) as (v & Iv & Hv). apply in_map_iff in Iv as (t & <- & It). apply in_map_iff in Iw as (t' & <- & It').
    destruct (C id Iid) as [N|N]; [exfalso; apply Hv; auto|]. specialize (N t' It'). unfold value_at in *. destruct (nth_error a t') as [row|]; [|congruence]. destruct (nth_error row _) as [[q|]|]; cbn; congruence.
  - intros x. rewrite (in_values df _ P). unfold counts. split.
    + intros (c & w & Ic & Iw & Ew). apply K in Ic as (Ic & _ & Nz). apply IC in Ic as (nm & id & Iid & _ & ->). cbn [snd] in *. apply in_map_iff in Iw as (t & <- & It).
      assert (Vx : value_at a t id = VNum x) by (unfold value_at in *; destruct (nth_error a t) as [row|]; [|discriminate]; destruct (nth_error row _) as [[q|]|]; cbn in Ew; congruence).
      exists id, t. split; auto. split; auto. split; auto. destruct (Nz eq_refl) as (v & Iv & Hv). apply in_map_iff in Iv as (t' & <- & It').
      destruct (C id Iid) as [N|N]; [exfalso; rewrite (N t It) in Vx; discriminate|]. specialize (N t' It'). exists t'.
      unfold value_at in N, Hv |- *. destruct (nth_error a t') as [row|]; [|congruence]. destruct (nth_error row _) as [[q|]|]; try congruence. exists q. split; auto. split; auto. intros ->. apply Hv. now left.
    + intros (id & t & Iid & It & V & t' & y & It' & V' & Hy). destruct (IC2 id Iid) as (nm & Inm). exists ((nm ++ str_of id)%string, map (fun t => value_at a t id) (steps_of s)), (VNum x).
      split; [|split; [cbn [snd]; apply in_map_iff; eauto|reflexivity]]. apply K. split; [apply IC; eauto|]. cbn [snd]. split; intros _.
      * exists (VNum x). split; [apply in_map_iff; eauto|discriminate].
      * exists (VNum y). split; [apply in_map_iff; eauto|]. intros [Z|Z]; congruence.
Qed.
Lemma vmap_dummy (v : val R) : vmap (fun x => x) v = v.
Proof. now destruct v. Qed.
Section scaled_frame.
Variables (x y z : nat) (u : bool) (dx dy dz : dinput R) (kx ky kz phi zz : option (dinput R)) (comp : option R) (T : R) (g : gobj R) (f : fobj R) (unit : string) (pi : option R) (dt : R)
  (m0 : bo R) (l : list (call R)) (m : bo R) (s : fs R) (ids : list Z) (pts : list (R * R * R)) (S : scalers flR) (ft fp fr : R -> R) (fx : string -> R -> R).
Hypotheses (Eg : gobj_new x y z u dx dy dz kx ky kz phi zz comp T = Ok g) (Em : bo_new g f unit pi dt = Ok m0) (Hf : has_flow (ggrid g)) (Hdt : (0 < dt)%R)
  (A : all_ok (m0, None) l) (E : after (m0, None) l = (m, Some s)) (Ei : get_cells_id (ggrid g) true = Ok ids) (Ep : get_cells_center (geom g) true = Ok pts)
  (Mt : maps S QTime (times_of dt s) ft)
  (Mp : maps S QPressure (counts (s_p s) s ids) fp) (Cp : has_scaler S QPressure = true -> complete (s_p s) s ids)
  (Mr : maps S QRate (counts (s_r s) s (ids ++ dkeys (b_wells m))) fr) (Cr : has_scaler S QRate = true -> complete (s_r s) s (ids ++ dkeys (b_wells m)))
  (Mx : forall d, In d (get_fdir (ggrid g)) -> maps S QSpace (coords pts d) (fx (axis_name d)))
  (Nx : forall n, ~ In n (map axis_name (get_fdir (ggrid g))) -> forall v, fx n v = v).
Lemma same_grid : b_grid m = g /\ b_dt m = dt.
Proof.
  destruct (bo_new_wide _ _ _ _ _ _ Em) as (_ & Eg0 & Ed0). pose proof (core_after l (m0, None)) as C. rewrite E in C. cbn [fst] in C.
  apply core_fields in C as (Cg & Ci & _ & _ & _ & _ & _ & Cd & _). split; congruence.
Qed.
Lemma updates : exists S1, update_scalers m (Some (of_fdm s)) true S = (S1, Ok tt) /\
  (forall v, vmap (sc1 (time_scaler S1)) v = on_val ft v) /\ (forall v, vmap (sc1 (pressures_scaler S1)) v = on_val fp v) /\ (forall v, vmap (sc1 (rates_scaler S1)) v = on_val fr v) /\
  forall j d v, nth_error (get_fdir (bgrid m)) j = Some d -> vmap (scj (space_scaler S1) j) v = on_val (fx (axis_name d)) v.
Proof.
  destruct same_grid as (Bg & Bd).
  assert (B' : bgrid m = ggrid g) by (unfold bgrid; now rewrite Bg).
  destruct (fdir_real _ (gobj_wf _ _ _ _ _ _ _ _ _ _ _ _ _ _ _ Eg) Hf) as (Hn & Hd). rewrite <- B' in Hn, Hd.
  destruct (L_C70_exact_partial (s_tstep s) dt Hdt) as (lt & Et & _).
  destruct (fit_scalar S QTime _ ft (nda1 (map Some lt)) true Mt) as (yt & Eyt & Hyt); [right; now exists (length (map Some lt))| |].
  { intros _. cbn [nda1 nd_data]. split; [intros e I; apply in_map_iff in I as (? & <- & _); discriminate|]. now apply time_entries. }
  destruct (space_fit m S pts fx) as (yx & Ux & _ & Hyx); [now rewrite Bg|exact Hd|now rewrite B'|].
  destruct (L_C84_columns_partial _ _ _ _ _ _ _ _ _ _ _ _ _ _ _ _ _ _ _ _ _ _ _ true ["cells_pressure"%string] Eg Em Hdt A E) as (fullp & ids1 & Fp & Ei1 & Colp & Rowp); [repeat constructor|intros (c & [<- | []] & X); discriminate|].
  assert (ids1 = ids) by congruence. subst ids1.
  destruct (L_C84_columns_partial _ _ _ _ _ _ _ _ _ _ _ _ _ _ _ _ _ _ _ _ _ _ _ true ["rates"%string] Eg Em Hdt A E) as (fullr & ids1 & Fr & Ei2 & Colr & Rowr); [repeat constructor|intros (c & [<- | []] & X); discriminate|].
  assert (ids1 = ids) by congruence. subst ids1. unfold frame_of in Fp, Fr. cbn [fst snd option_map] in Fp, Fr.
  destruct (fitted_values m (Some (of_fdm s)) s true "cells_pressure" fullp (s_p s) [("P"%string, ids)] Fp) as (dp & Edp & Hdp); [rewrite Colp; cbn [flat_map]; unfold plain_columns; cbn; now rewrite !app_nil_r|exact Rowp|].
  destruct (fitted_values m (Some (of_fdm s)) s true "rates" fullr (s_r s) [("Q"%string, ids); ("Qw"%string, dkeys (b_wells m))] Fr) as (dr & Edr & Hdr); [rewrite Colr; cbn [flat_map]; unfold plain_columns; cbn; now rewrite !app_nil_r|exact Rowr|].
  cbn [flat_map snd] in Hdp, Hdr. rewrite app_nil_r in Hdp, Hdr.
  destruct (fit_scalar S QPressure _ fp (values dp) false Mp) as (yp & Eyp & Hyp); [now left|auto|].
  destruct (fit_scalar S QRate _ fr (values dr) false Mr) as (yr & Eyr & Hyr); [now left|intros H; apply Hdr; auto|].
  cbn [scaler_of] in *. exists (mkScalers yt yx yp yr (scalers_dict S)).
  split; [|cbn [time_scaler space_scaler pressures_scaler rates_scaler]; auto].
  unfold update_scalers. unfold mbind at 1. unfold update_time_scaler, mbind at 1, mread at 1. cbn [frame_tstep of_fdm so_tstep]. rewrite Bd, Et. unfold fit_into at 1. rewrite Eyt.
  unfold mbind at 1. rewrite (Ux (put_time S yt) eq_refl).
  unfold mbind at 1. unfold update_pressures_scaler, mbind at 1, mread at 1. rewrite Edp. unfold fit_into at 1. cbn [put_space put_time pressures_scaler]. rewrite Eyp.
  unfold update_rates_scaler, mbind, mread. rewrite Edr. unfold fit_into. cbn [put_press put_space put_time rates_scaler]. rewrite Eyr. reflexivity.
Qed.
Lemma scaled_frame un cols b units melt sT sQ sP df : (forall S1, same S1 S -> name_str un units true S1 "time" = Ok sT /\ name_str un units true S1 "rate" = Ok sQ /\ name_str un units true S1 "pressure" = Ok sP) ->
  full_df m (Some (of_fdm s)) cols b melt = Ok df ->
  snd (full_df_s m (Some (of_fdm s)) un cols b units melt true S) = Ok (renamed (h units sT sQ sP) (changed (rescaled ft fp fr fx) df)).
Proof.
  intros HN Ef. destruct updates as (S1 & U & Ht & Hp & Hr & Hx). destruct same_grid as (Bg & Bd). assert (B' : bgrid m = ggrid g) by (unfold bgrid; now rewrite Bg).
  destruct (HN S1) as (N1 & N2 & N3); [pose proof (i_update m (Some (of_fdm s)) true S S (same_refl S)) as K; now rewrite U in K|].
  rewrite (full_scaled _ _ _ _ _ _ _ _ _ _ _ _ U N1 N2 N3), Ef. cbn [rmap snd]. f_equal. unfold retouch, renamed, changed. cbn [f_rows f_cols]. f_equal. rewrite map_map. apply map_ext. intros [nm c]. cbn [fst snd]. f_equal.
  apply map_ext. intros v. unfold ScaleFacts.g, rescaled, pick. destruct (kind_of nm); auto.
  - now destruct v.
  - unfold gx. destruct (sindex nm _) as [j|] eqn:Ej.
    + assert (K : exists d, nth_error (get_fdir (bgrid m)) j = Some d /\ axis_name d = nm).
      { clear -Ej. revert j Ej. induction (get_fdir (bgrid m)) as [|a l IH]; intros j Ej; cbn [map sindex] in Ej; [discriminate|]. destruct (String.eqb_spec nm (axis_name a)) as [->|].
        - injection Ej as <-. exists a. auto.
        - destruct (sindex nm (map axis_name l)) as [j'|]; cbn in Ej; [|discriminate]. injection Ej as <-. destruct (IH j' eq_refl) as (d & E1 & E2). exists d. auto. }
      destruct K as (d & Ed & <-). now apply Hx.
    + assert (K : ~ In nm (map axis_name (get_fdir (ggrid g)))).
      { rewrite <- B'. intros I. clear -Ej I. induction (map axis_name (get_fdir (bgrid m))) as [|a l IH]; cbn in *; [destruct I|]. destruct (String.eqb_spec nm a); [discriminate|].
        destruct (sindex nm l); [discriminate|]. destruct I as [I|I]; [congruence|auto]. }
      destruct v as [|v| |]; cbn; auto. now rewrite Nx.
Qed.
End scaled_frame.
(** C99: scaled values.  After a history of accepted calls, get_df(scale=True) gives the
    rows and columns of the plain frame (C71, C84) with every number mapped by its kind:
    times from the range of the recorded times, coordinates from the range of all cell
    centres, pressures and rates from the least to the greatest recorded value of the
    cells where it is not constantly zero, each to the range set for it; kinds without
    scaler, dates, ids and steps are unchanged.  Each range must have two values, and no
    cell may have its value at some steps only. *)
Lemma L_C99_scaled_partial :
  forall x y z u (dx dy dz : dinput R) kx ky kz phi zz comp T g f unit pi dt (m0 : bo R) l m s ids pts S ft fp fr fx un cols b melt df,
  gobj_new x y z u dx dy dz kx ky kz phi zz comp T = Ok g -> bo_new g f unit pi dt = Ok m0 -> has_flow (ggrid g) -> (0 < dt)%R ->
  all_ok (m0, None) l -> after (m0, None) l = (m, Some s) ->
  get_cells_id (ggrid g) true = Ok ids -> get_cells_center (geom g) true = Ok pts ->
  maps S QTime (times_of dt s) ft ->
  maps S QPressure (counts (s_p s) s ids) fp -> (has_scaler S QPressure = true -> complete (s_p s) s ids) ->
  maps S QRate (counts (s_r s) s (ids ++ dkeys (b_wells m))) fr -> (has_scaler S QRate = true -> complete (s_r s) s (ids ++ dkeys (b_wells m))) ->
  (forall d, In d (get_fdir (ggrid g)) -> maps S QSpace (coords pts d) (fx (axis_name d))) ->
  (forall n, ~ In n (map axis_name (get_fdir (ggrid g))) -> forall v, fx n v = v) ->
  frame_of (m, Some s) cols b melt = Ok df ->
  snd (get_df_s m (Some (of_fdm s)) un cols b false melt true false false S) = Ok (changed (rescaled ft fp fr fx) df).
Proof.
  intros x y z u dx dy dz kx ky kz phi zz comp T g f unit pi dt m0 l m s ids pts S ft fp fr fx un cols b melt df Eg Em Hf Hdt A E Ei Ep Mt Mp Cp Mr Cr Mx Nx Ef.
  pose proof (scaled_frame _ _ _ _ _ _ _ _ _ _ _ _ _ _ _ _ _ _ _ _ _ _ _ _ _ _ _ _ _ _ Eg Em Hf Hdt A E Ei Ep Mt Mp Cp Mr Cr Mx Nx un cols b false melt "" "" "" df) as K.
  unfold get_df_s, mbind. destruct (full_df_s _ _ _ _ _ _ _ _ _) as [S1 r]. cbn [snd] in K. rewrite K; auto.
  unfold mret. cbn [snd]. f_equal. unfold drop. replace (if melt then _ else _) with (renamed (h false "" "" "") (changed (rescaled ft fp fr fx) df)) by now destruct melt.
  unfold renamed. destruct (changed _ df) as [n cs]. cbn [f_rows f_cols]. f_equal. rewrite <- (map_id cs) at 2. apply map_ext. intros [nm c]. cbn [fst snd]. now rewrite h_plain.
Qed.
Lemma run_99 : exists m s, let l := [Compile; Run (fun _ _ _ => Ok [Some 10%R; Some 11%R; Some 12%R]) one 1 9 true false true false false None] in
  (all_ok (line3 (1 + 0) true (Some 10%R), None) l /\ after (line3 (1 + 0) true (Some 10%R), None) l = (m, Some s)) /\ s_tstep s = 1 /\
  s_p s = [[None; Some 10%R; Some 10%R; Some 10%R; None]; [None; Some 10%R; Some 11%R; Some 12%R; None]] /\ b_wells m = [].
Proof. do 2 eexists. cbv zeta. split; [hrun|]. repeat split. Qed.
Lemma pts_99 : get_cells_center (geom gline3) true = Ok (map (fun x => (x, 1 / 2, 1 / 2))%R [1/2; 3/2; 5/2; 7/2; 9/2]%R).
Proof. rrun. repeat (f_equal; try lra). Qed.
Ltac each := repeat match goal with H : In _ (_ :: _) |- _ => destruct H as [<- | H] | H : In _ [] |- _ => destruct H end.
(** A run of one step with new scalers meets the hypotheses of C99. *)
Example ex_C99_case : exists g f (m0 : bo R) m s ids pts,
  gobj_new 3 1 1 true (Scalar 1%R) (Scalar 1%R) (Scalar 1%R) (Some (Scalar 1%R)) (Some (Scalar 1%R)) (Some (Scalar 1%R)) (Some (Scalar 1%R)) None None 1%R = Ok g /\
  bo_new g f "metric" (Some 10%R) 1%R = Ok m0 /\ has_flow (ggrid g) /\
  (let l := [Compile; Run (fun _ _ _ => Ok [Some 10%R; Some 11%R; Some 12%R]) one 1 9 true false true false false None] in
   all_ok (m0, None) l /\ after (m0, None) l = (m, Some s)) /\
  get_cells_id (ggrid g) true = Ok ids /\ get_cells_center (geom g) true = Ok pts /\
  let S := @scalers_new R Num_R in
  maps S QTime (times_of 1 s) (affine 0 1 0 1) /\
  maps S QPressure (counts (s_p s) s ids) (affine (-1) 1 10 12) /\ complete (s_p s) s ids /\
  maps S QRate (counts (s_r s) s (ids ++ dkeys (b_wells m))) (fun v => v) /\ has_scaler S QRate = false /\
  (forall d, In d (get_fdir (ggrid g)) -> maps S QSpace (coords pts d) (affine (-1) 1 (1 / 2) (9 / 2))) /\
  exists df, frame_of (m, Some s) ["Time"; "cells_pressure"]%string true false = Ok df.
Proof.
  destruct run_99 as (m & s & (A & E) & Ht & Hp & Hw).
  assert (B : build 3 1 1 None 1%R (Some 10%R) None = Ok (line3 (1 + 0) true (Some 10%R))) by (apply line3_pos; lra). unfold build in B.
  destruct (gobj_new _ _ _ _ _ _ _ _ _ _ _ _ _ _) as [g|] eqn:Eg; cbn [rbind] in B; [|discriminate].
  destruct (fluid_new _ _ _ _ _) as [f|] eqn:Ef; cbn [rbind] in B; [|discriminate].
  assert (Gg : g = gline3) by (destruct (bo_new_wide _ _ _ _ _ _ B) as (_ & E1 & _); exact (eq_sym E1)).
  exists g, f, (line3 (1 + 0) true (Some 10%R)), m, s, [0; 1; 2; 3; 4]%Z, (map (fun x => (x, 1 / 2, 1 / 2))%R [1/2; 3/2; 5/2; 7/2; 9/2]%R).
  assert (Hf : has_flow (ggrid g)) by (rewrite Gg; left; unfold flows; cbn; lia).
  split; [reflexivity|]. split; [exact B|]. split; [exact Hf|]. split; [split; [exact A|exact E]|].
  assert (Ei : get_cells_id (ggrid g) true = Ok [0; 1; 2; 3; 4]%Z) by (rewrite Gg; reflexivity).
  split; [exact Ei|]. split; [rewrite Gg; exact pts_99|].
  cbv zeta. unfold counts, complete, times_of, steps_of. rewrite Ht, Hp, Hw. cbn [seq Nat.add]. split; [|split; [|split; [|split; [|split; [reflexivity|split]]]]].
  - right. exists 0%R, 1%R, 0%R, 1%R. split; [exists None, None; reflexivity|]. split; [|split; [lra|reflexivity]]. split; [exists 0; cbn; split; [auto|lra]|]. split; [exists 1; cbn; split; [auto|lra]|].
    intros x (t & I & ->). each; cbn; lra.
  - right. exists (-1)%R, 1%R, 10%R, 12%R. split; [exists None, None; reflexivity|]. split; [|split; [lra|reflexivity]].
    split; [exists 1%Z, 0; repeat split; [cbn; auto|cbn; auto|]; exists 0, 10%R; repeat split; [cbn; auto|lra]|].
    split; [exists 3%Z, 1; repeat split; [cbn; auto 6|cbn; auto|]; exists 0, 10%R; repeat split; [cbn; auto|lra]|].
    intros x (id & t & I & It & V & _). each; cbn in V; try discriminate; injection V as <-; lra.
  - intros id I. each; [left|right|right|right|left]; intros t It; each; lazy -[IZR]; congruence.
  - left. split; [reflexivity|auto].
  - intros d Id. rewrite Gg in Id. cbn in Id. destruct Id as [<- | []]. right. exists (-1)%R, 1%R, (1 / 2)%R, (9 / 2)%R. split; [exists None, None; reflexivity|]. split; [|split; [lra|reflexivity]].
    split; [eexists; split; [left; reflexivity|reflexivity]|]. split; [eexists; split; [do 4 right; left; reflexivity|reflexivity]|].
    intros x (p & I & ->). cbn [map] in I. each; cbn; lra.
  - destruct (L_C84_columns_partial _ _ _ _ _ _ _ _ _ _ _ _ _ _ _ _ _ _ _ _ _ m s true ["Time"; "cells_pressure"]%string Eg B Rlt_0_1 A E) as (df & _ & Fd & _); [repeat constructor|intros (c & I & X); each; discriminate|].
    eauto.
Qed.
(** C99 fails where a range has one value: directly after compile, all scaled times and
    pressures are missing, though the plain frame has them all ... *)
Lemma L_C99_start_refuted :
  exists m0 : bo Q, build 3 1 1 None 1%Q (Some 10%Q) None = Ok m0 /\ forall NT : NumT Q,
  let x := after (m0, None) [Compile] in let so := option_map (@of_fdm Q) (snd x) in
  all_ok (m0, None) [Compile] /\ exists plain scaled,
  get_df_s (fst x) so [] ["Time"; "cells_pressure"]%string false false false false false false scalers_new = (scalers_new, Ok plain) /\
  f_cols plain = [("Time", [VNum 0%Q]); ("P1", [VNum 10%Q]); ("P2", [VNum 10%Q]); ("P3", [VNum 10%Q])]%string /\
  snd (get_df_s (fst x) so [] ["Time"; "cells_pressure"]%string false false false true false false scalers_new) = Ok scaled /\
  f_cols scaled = [("Time", [VNan]); ("P1", [VNan]); ("P2", [VNan]); ("P3", [VNan])]%string.
Proof.
  eexists. split; [vm_compute; reflexivity|]. intros NT. cbv zeta. split; [vm_compute; repeat split|]. do 2 eexists. split; [vm_compute; reflexivity|]. split; [reflexivity|].
  split; [vm_compute; reflexivity|reflexivity].
Qed.
(** ... and where a cell has its value at some steps only: a pressure set at a boundary
    after a step makes every scaled pressure missing. *)
Lemma L_C99_boundary_refuted :
  exists m0 : bo Q, build 3 1 1 None 1%Q (Some 10%Q) None = Ok m0 /\ forall NT : NumT Q,
  let step := Solve (fun _ _ _ => Ok [Some 10%Q; Some 11%Q; Some 12%Q]) oneQ 9 true (mkOpts false true false true false None) in
  let pressures l := match snd (get_df_s (fst (after (m0, None) l)) (option_map (@of_fdm Q) (snd (after (m0, None) l))) [] ["cells_pressure"%string] false false false true false false scalers_new)
    with Ok df => f_cols df | Err _ => [] end in
  all_ok (m0, None) [Compile; step; Set_boundary 0%Z "pressure" 20%Q] /\
  pressures [Compile; step] = [("P1", [VNum (-1 # 1)%Q; VNum (-1 # 1)%Q]); ("P2", [VNum (-1 # 1)%Q; VNum (0 # 1)%Q]); ("P3", [VNum (-1 # 1)%Q; VNum (1 # 1)%Q])]%string /\
  pressures [Compile; step; Set_boundary 0%Z "pressure" 20%Q] = [("P1", [VNan; VNan]); ("P2", [VNan; VNan]); ("P3", [VNan; VNan])]%string.
Proof. eexists. split; [vm_compute; reflexivity|]. intros NT. cbv zeta. split; [vm_compute; repeat split|]. split; vm_compute; reflexivity. Qed.
(** It raises where a kind to scale has no value at all (no initial pressure) and for a
    grid of one cell, also if only the times are asked for. *)
Lemma L_C99_raises_refuted :
  exists m1 m2 : bo Q, build 3 1 1 None 1%Q None None = Ok m1 /\ build 1 1 1 None 1%Q (Some 10%Q) None = Ok m2 /\ forall NT : NumT Q,
  let frame m scale := let x := after (m, None) [Compile] in snd (get_df_s (fst x) (option_map (@of_fdm Q) (snd x)) [] ["Time"%string] true false false scale false false scalers_new) in
  all_ok (m1, None) [Compile] /\ (exists df, frame m1 false = Ok df) /\ frame m1 true = Err ValueError /\
  all_ok (m2, None) [Compile] /\ (exists df, frame m2 false = Ok df) /\ frame m2 true = Err IndexError.
Proof.
  do 2 eexists. split; [vm_compute; reflexivity|]. split; [vm_compute; reflexivity|]. intros NT. cbv zeta.
  split; [vm_compute; repeat split|]. split; [eexists; vm_compute; reflexivity|]. split; [vm_compute; reflexivity|].
  split; [vm_compute; repeat split|]. split; [eexists; vm_compute; reflexivity|]. vm_compute; reflexivity.
Qed.

(** ** C102 *)
Lemma affine_in a b lo hi v : (a <= b)%R -> (lo < hi)%R -> (lo <= v <= hi)%R -> (a <= affine a b lo hi v <= b)%R.
Proof.
  intros H L V. assert (K : affine a b lo hi v = (a + (b - a) * ((v - lo) / (hi - lo)))%R) by (unfold affine; field; lra). rewrite K.
  assert (0 <= (v - lo) / (hi - lo) <= 1)%R; [|nra]. split; [apply Rmult_le_pos; [lra|left; apply Rinv_0_lt_compat; lra]|].
  apply (Rmult_le_reg_r (hi - lo)); [lra|]. unfold Rdiv. rewrite Rmult_assoc, Rinv_l by lra. lra.
Qed.
(** C102: the configured range.  Under the conditions of C99, if no cell has the
    constant pressure zero, the scaled cell pressures lie between the ends of the range
    set for pressures, and both ends occur. *)
Lemma L_C102_range_partial :
  forall x y z u (dx dy dz : dinput R) kx ky kz phi zz comp T g f unit pi dt (m0 : bo R) l m s ids idb pts S ft fr fx a b lo hi un bd,
  gobj_new x y z u dx dy dz kx ky kz phi zz comp T = Ok g -> bo_new g f unit pi dt = Ok m0 -> has_flow (ggrid g) -> (0 < dt)%R ->
  all_ok (m0, None) l -> after (m0, None) l = (m, Some s) ->
  get_cells_id (ggrid g) true = Ok ids -> get_cells_id (ggrid g) bd = Ok idb -> get_cells_center (geom g) true = Ok pts ->
  maps S QTime (times_of dt s) ft ->
  scales_to S QPressure a b -> (a <= b)%R -> range_is (counts (s_p s) s ids) lo hi -> (lo < hi)%R -> complete (s_p s) s ids ->
  (forall id t v, In id idb -> In t (steps_of s) -> value_at (s_p s) t id = VNum v -> counts (s_p s) s ids v) ->
  maps S QRate (counts (s_r s) s (ids ++ dkeys (b_wells m))) fr -> (has_scaler S QRate = true -> complete (s_r s) s (ids ++ dkeys (b_wells m))) ->
  (forall d, In d (get_fdir (ggrid g)) -> maps S QSpace (coords pts d) (fx (axis_name d))) ->
  (forall n, ~ In n (map axis_name (get_fdir (ggrid g))) -> forall v, fx n v = v) ->
  exists df, snd (get_df_s m (Some (of_fdm s)) un ["cells_pressure"%string] bd false false true false false S) = Ok df /\
  map fst (f_cols df) = map (fun id => ("P" ++ str_of id)%string) idb /\
  (forall c v, In c (f_cols df) -> In v (snd c) -> v = VNan \/ exists r, v = VNum r /\ (a <= r <= b)%R) /\
  (bd = true -> (exists c, In c (f_cols df) /\ In (VNum a) (snd c)) /\ (exists c, In c (f_cols df) /\ In (VNum b) (snd c))).
Proof.
  intros x y z u dx dy dz kx ky kz phi zz comp T g f unit pi dt m0 l m s ids idb pts S ft fr fx a b lo hi un bd Eg Em Hf Hdt A E Ei Eb Ep Mt Sp Hab HR L C Cn Mr Cr Mx Nx.
  destruct (L_C84_columns_partial _ _ _ _ _ _ _ _ _ _ _ _ _ _ _ _ _ _ _ _ _ _ _ bd ["cells_pressure"%string] Eg Em Hdt A E) as (full & ids1 & Fp & Ei1 & Colp & _); [repeat constructor|intros (c & [<- | []] & X); discriminate|].
  assert (ids1 = idb) by congruence. subst ids1. assert (Colp' : f_cols full = by_cell "P" (s_p s) s idb) by (rewrite Colp; cbn [flat_map]; unfold plain_columns; cbn; now rewrite !app_nil_r). clear Colp.
  assert (Mp : maps S QPressure (counts (s_p s) s ids) (affine a b lo hi)) by (right; exists a, b, lo, hi; auto).
  rewrite (L_C99_scaled_partial x y z u dx dy dz kx ky kz phi zz comp T g f unit pi dt m0 l m s ids pts S ft (affine a b lo hi) fr fx un _ bd false full Eg Em Hf Hdt A E Ei Ep Mt Mp (fun _ => C) Mr Cr Mx Nx Fp).
  eexists. split; [reflexivity|]. unfold changed. cbn [f_cols]. rewrite Colp'. unfold by_cell. rewrite !map_map. cbn [fst snd].
  split; [reflexivity|]. split.
  - intros c v Ic Iv. apply in_map_iff in Ic as (id & <- & Iid). cbn [snd] in Iv. rewrite map_map in Iv. apply in_map_iff in Iv as (t & <- & It).
    destruct (value_at (s_p s) t id) as [|r| |] eqn:V; cbn [on_val]; auto.
    1, 3: exfalso; unfold value_at in V; destruct (nth_error _ _) as [row|]; [|discriminate]; destruct (nth_error row _) as [[?|]|]; discriminate.
    right. eexists. split; [reflexivity|]. change (rescaled _ _ _ _ _) with (affine a b lo hi). apply affine_in; auto. apply HR. eapply Cn; eauto.
  - intros ->. assert (idb = ids) by congruence. subst idb. destruct HR as ((i1 & t1 & I1 & T1 & V1 & _) & (i2 & t2 & I2 & T2 & V2 & _) & _). split.
    + eexists. split; [apply in_map_iff; exists i1; split; [reflexivity|exact I1]|]. cbn [snd]. rewrite map_map. apply in_map_iff. exists t1. split; [|exact T1]. rewrite V1. cbn [on_val]. change (rescaled _ _ _ _ _) with (affine a b lo hi).
      f_equal. unfold affine. field. lra.
    + eexists. split; [apply in_map_iff; exists i2; split; [reflexivity|exact I2]|]. cbn [snd]. rewrite map_map. apply in_map_iff. exists t2. split; [|exact T2]. rewrite V2. cbn [on_val]. change (rescaled _ _ _ _ _) with (affine a b lo hi).
      f_equal. unfold affine. field. lra.
Qed.
(** The case above also has all pressures counted. *)
Example ex_C102_case : exists (m : bo R) s, let l := [Compile; Run (fun _ _ _ => Ok [Some 10%R; Some 11%R; Some 12%R]) one 1 9 true false true false false None] in
  (all_ok (line3 (1 + 0) true (Some 10%R), None) l /\ after (line3 (1 + 0) true (Some 10%R), None) l = (m, Some s)) /\
  forall id t v, In id [0; 1; 2; 3; 4]%Z -> In t (steps_of s) -> value_at (s_p s) t id = VNum v -> counts (s_p s) s [0; 1; 2; 3; 4]%Z v.
Proof.
  destruct run_99 as (m & s & AE & Ht & Hp & _). exists m, s. split; [exact AE|]. intros id t v I It V. exists id, t. split; auto. split; auto. split; auto.
  unfold steps_of in *. rewrite Ht in *. rewrite Hp in *. cbn [seq Nat.add] in *. assert (K : id <> 0%Z /\ id <> 4%Z) by (split; intros ->; each; discriminate).
  exists 0, 10%R. split; [now left|]. split; [|lra]. each; try reflexivity; destruct K; congruence.
Qed.
Lemma run_102 : exists m s, let l := [feeder; Compile; Solve (fun _ _ _ => Ok [Some 10%R; Some 10%R; Some 11%R]) one 9 true (mkOpts false true false true false None)] in
  (all_ok (line3 (1 + 0) true (Some 10%R), None) l /\ after (line3 (1 + 0) true (Some 10%R), None) l = (m, Some s)) /\ s_tstep s = 1 /\
  s_p s = [[None; Some 10%R; Some 10%R; Some 10%R; None]; [None; Some 10%R; Some 10%R; Some 11%R; None]] /\ b_wp m = [(2%Z, [Some 10%R; Some 12%R])].
Proof.
  destruct (line3p_built (1 + 0) true) as (G & req & HG & E). do 2 eexists. cbv zeta. split.
  - eapply exec_step; [exact E|]. hrun.
  - repeat split.
Qed.
(** C102 fails for bottom-hole pressures, which are scaled by the range of the cell
    pressures: a well with the pressure 12 and cells from 10 to 11 give the scaled
    pressure 3 for the range [-1, 1] ... *)
Lemma L_C102_wells_refuted :
  exists (m0 : bo R) m s df c, build 3 1 1 None 1%R (Some 10%R) None = Ok m0 /\
  (let l := [feeder; Compile; Solve (fun _ _ _ => Ok [Some 10%R; Some 10%R; Some 11%R]) one 9 true (mkOpts false true false true false None)] in
   all_ok (m0, None) l /\ after (m0, None) l = (m, Some s)) /\
  scales_to scalers_new QPressure (-1) 1 /\
  snd (get_df_s m (Some (of_fdm s)) [] ["wells_pressure"%string] true false false true false false scalers_new) = Ok df /\
  In ("Pwf2"%string, c) (f_cols df) /\ In (VNum 3%R) c.
Proof.
  destruct run_102 as (m & s & (A & E) & Ht & Hp & Hw). set (m0 := line3 (1 + 0) true (Some 10%R)) in *.
  assert (B : build 3 1 1 None 1%R (Some 10%R) None = Ok m0) by (apply line3_pos; lra). exists m0, m, s. pose proof B as B0. unfold build in B.
  destruct (gobj_new _ _ _ _ _ _ _ _ _ _ _ _ _ _) as [g|] eqn:Eg; cbn [rbind] in B; [|discriminate].
  destruct (fluid_new _ _ _ _ _) as [f|] eqn:Ef; cbn [rbind] in B; [|discriminate].
  assert (Gg : g = gline3) by (destruct (bo_new_wide _ _ _ _ _ _ B) as (_ & E1 & _); exact (eq_sym E1)).
  assert (Hf : has_flow (ggrid g)) by (rewrite Gg; left; unfold flows; cbn; lia).
  assert (Ei : get_cells_id (ggrid g) true = Ok [0; 1; 2; 3; 4]%Z) by (rewrite Gg; reflexivity).
  destruct (L_C84_columns_partial _ _ _ _ _ _ _ _ _ _ _ _ _ _ _ _ _ _ _ _ _ m s true ["wells_pressure"%string] Eg B Rlt_0_1 A E) as (df & ids & Fd & _ & Cd & _); [repeat constructor|intros _; rewrite Hw, Ht; repeat constructor|].
  assert (Cw : f_cols df = [("Pwf2"%string, [VNum 10%R; VNum 12%R])]).
  { etransitivity; [exact Cd|]. cbn [flat_map]. unfold plain_columns. rewrite Hw. lazy -[IZR]. reflexivity. }
  clear Cd. pose (fx := fun n : string => if String.eqb n "x" then affine (-1) 1 (1 / 2) (9 / 2) else fun v => v).
  assert (K : snd (get_df_s m (Some (of_fdm s)) [] ["wells_pressure"%string] true false false true false false scalers_new) = Ok (changed (rescaled (affine 0 1 0 1) (affine (-1) 1 10 11) (fun v => v) fx) df)).
  { eapply (L_C99_scaled_partial _ _ _ _ _ _ _ _ _ _ _ _ _ _ _ _ _ _ _ _ _ m s [0; 1; 2; 3; 4]%Z _ _ _ _ _ _ [] _ true false df Eg B Hf Rlt_0_1 A E Ei); [rewrite Gg; exact pts_99| | | | | | | |exact Fd];
      unfold counts, complete, times_of, steps_of; rewrite ?Ht, ?Hp; cbn [seq Nat.add].
    - right. exists 0%R, 1%R, 0%R, 1%R. split; [exists None, None; reflexivity|]. split; [|split; [lra|reflexivity]]. split; [exists 0; cbn; split; [auto|lra]|]. split; [exists 1; cbn; split; [auto|lra]|].
      intros x (t & I & ->). each; cbn; lra.
    - right. exists (-1)%R, 1%R, 10%R, 11%R. split; [exists None, None; reflexivity|]. split; [|split; [lra|reflexivity]].
      split; [exists 1%Z, 0; repeat split; [cbn; auto|cbn; auto|]; exists 0, 10%R; repeat split; [cbn; auto|lra]|].
      split; [exists 3%Z, 1; repeat split; [cbn; auto 6|cbn; auto|]; exists 0, 10%R; repeat split; [cbn; auto|lra]|].
      intros x (id & t & I & It & V & _). clear - I It V. each; cbn in V; try discriminate; injection V as <-; lra.
    - intros _ id I. each; [left|right|right|right|left]; intros t It; each; lazy -[IZR]; congruence.
    - left. split; [reflexivity|auto].
    - discriminate.
    - intros d Id. rewrite Gg in Id. cbn in Id. destruct Id as [<- | []]. right. exists (-1)%R, 1%R, (1 / 2)%R, (9 / 2)%R. split; [exists None, None; reflexivity|]. split; [|split; [lra|reflexivity]].
      split; [eexists; split; [left; reflexivity|reflexivity]|]. split; [eexists; split; [do 4 right; left; reflexivity|reflexivity]|].
      intros x (p & I & ->). cbn [map] in I. each; cbn; lra.
    - intros n Hn v. unfold fx. destruct (String.eqb_spec n "x") as [->|]; [|reflexivity]. exfalso. apply Hn. rewrite Gg. cbn. auto. }
  do 2 eexists. split; [exact B0|]. split; [split; [exact A|exact E]|]. split; [exists None, None; reflexivity|]. split; [exact K|]. unfold changed. cbn [f_cols]. rewrite Cw. cbn [map fst snd].
  split; [left; reflexivity|]. right. left. cbn [on_val]. f_equal. unfold rescaled. cbn [kind_of]. unfold affine. field.
Qed.
(** ... and for rates: cells without flow are left out of the range, and their rate zero
    is outside it.  Here -1 for the range [0, 1]. *)
Lemma L_C102_rates_refuted :
  exists m0 : bo Q, build 3 1 1 None 1%Q (Some 10%Q) None = Ok m0 /\ forall NT : NumT Q,
  let l := [Set_boundary 0%Z "rate" 10%Q; Set_boundary 4%Z "rate" 20%Q; Compile] in
  let x := after (m0, None) l in
  let S := dafter scalers_new [DSet [("rate"%string, (Some "MinMax"%string, Some (Some 0%Q, Some 1%Q)))]] in
  all_ok (m0, None) l /\
  match snd (get_df_s (fst x) (option_map (@of_fdm Q) (snd x)) [] ["cells_rate"%string] true false false true false false S) with
  | Ok df => f_cols df = [("Q0", [VNum 0%Q]); ("Q1", [VNum (-1 # 1)%Q]); ("Q2", [VNum (-1 # 1)%Q]); ("Q3", [VNum (-1 # 1)%Q]); ("Q4", [VNum 1%Q])]%string
  | Err _ => False
  end.
Proof. eexists. split; [vm_compute; reflexivity|]. intros NT. cbv zeta. split; [vm_compute; repeat split|]. vm_compute. reflexivity. Qed.

(** ** C103 *)
(** C103 (refuted): drop_zero leaves out only columns that are zero at all steps.  With
    scaling it also leaves out columns whose scaled value is zero: here a cell with the
    pressure 11, in the middle between 10 and 12. *)
Lemma L_C103_drop_zero_refuted :
  exists m0 : bo Q, build 3 1 1 None 1%Q (Some 11%Q) None = Ok m0 /\ forall NT : NumT Q,
  let l := [Compile; Solve (fun _ _ _ => Ok [Some 10%Q; Some 11%Q; Some 12%Q]) oneQ 9 true (mkOpts false true false true false None)] in
  let x := after (m0, None) l in
  let columns scale := match snd (get_df_s (fst x) (option_map (@of_fdm Q) (snd x)) [] ["cells_pressure"%string] false false false scale false true scalers_new) with Ok df => map fst (f_cols df) | Err _ => [] end in
  all_ok (m0, None) l /\ columns false = ["P1"; "P2"; "P3"]%string /\ columns true = ["P1"; "P3"]%string.
Proof. eexists. split; [vm_compute; reflexivity|]. intros NT. cbv zeta. split; [vm_compute; repeat split|]. split; vm_compute; reflexivity. Qed.
(** Missing: frames with scaled values.  Without scaling exactly the columns with an
    entry other than zero are kept. *)
Lemma L_C103_drop_zero_partial :
  forall (m : bo R) so un cols b S df, snd (get_df_s m so un cols b false false false false false S) = Ok df ->
  exists df', snd (get_df_s m so un cols b false false false false true S) = Ok df' /\ f_rows df' = f_rows df /\
  forall c, In c (f_cols df') <-> In c (f_cols df) /\ exists v, In v (snd c) /\ ~ zero v.
Proof.
  intros m so un cols b S df E. rewrite L_C98_plain in *. cbn [snd] in *. unfold FrameModel.get_df in E. destruct (full_df m so cols b false) as [d|] eqn:Ed; cbn [rbind] in E; [|discriminate].
  assert (d = df) by (unfold drop in E; cbn in E; congruence). subst d.
  destruct (L_C85_columns_kept m so cols b false true df Ed) as (df' & E' & R' & _ & C). exists df'. split; [exact E'|]. split; [exact R'|]. intros c. rewrite C. intuition discriminate.
Qed.
