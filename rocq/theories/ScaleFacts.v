(** Facts about scaled data frames. *)
From Coq Require Import String Ascii ZArith Bool Arith List Lia Reals Lra.
From Verif Require Import Prelude PreludeFacts TabFacts Num GridModel GeoModel PropModel UnitsModel BlackOilModel FdmModel FrameModel FrameSpec ScalerModel ScalerSpec ScalerThm ScaleModel ScaleSpec MonadFacts FrameFacts FrameThm.
Import ListNotations.
Local Close Scope R_scope.
Local Open Scope list_scope.
Local Open Scope nat_scope.

Section facts.
Context {F : Type} {NF : Num F} {NC : NumC F}.
Notation fl := (fl F).
Notation scs := (scalers fl).

(** ** Transforming arrays *)
Definition fitted (x : scaler fl) : Prop :=
  match x with Dummy => True | MinMax k => exists lo hi, vmin k = Some (RS lo) /\ vmax k = Some (RS hi) end.
Definition formula (a b lo hi x : fl) : fl := fadd (fdiv (fmul (fsub b a) (fsub x lo)) (fsub hi lo)) a.
Definition sc1 (x : scaler fl) (v : fl) : fl :=
  match x with
  | Dummy => v
  | MinMax k => match vmin k, vmax k with Some (RS lo), Some (RS hi) => formula (Vmin k) (Vmax k) lo hi v | _, _ => None end
  end.
Lemma formula_nan a b lo hi : formula a b lo hi None = None.
Proof. unfold formula, fsub, fmul, fadd. destruct a, b, lo, hi; reflexivity. Qed.
Lemma sc1_nan x : sc1 x None = None.
Proof. destruct x as [|k]; cbn; auto. destruct (vmin k) as [[lo|]|], (vmax k) as [[hi|]|]; auto. apply formula_nan. Qed.
Lemma map2_seq {A B} (g : A -> B) l : forall k, map2 (fun _ x => g x) (seq k (length l)) l = map g l.
Proof. induction l as [|a l IH]; intros k; cbn; [reflexivity|]. f_equal. apply IH. Qed.
Lemma transform_scalar x (v : nda fl) : fitted x -> sc_transform x v = Ok (mkNda (nd_shape v) (map (sc1 x) (nd_data v))).
Proof.
  destruct x as [|k]; cbn [fitted sc_transform sc1].
  - intros _. rewrite map_id. now destruct v.
  - intros (lo & hi & E1 & E2). unfold mm_transform. rewrite E1, E2. unfold broadcast. cbn [rng_len_ok andb]. f_equal. f_equal.
    cbn [rng_at]. etransitivity; [exact (map2_seq (fun x => formula (Vmin k) (Vmax k) lo hi x) _ 0)|].
    apply map_ext. intros x. cbn [sc1]. now rewrite E1, E2.
Qed.
Lemma scale_vector_ok x v : fitted x -> scale_vector x v = Ok (map (sc1 x) v).
Proof. intros H. unfold scale_vector. now rewrite transform_scalar. Qed.
Lemma rows_nda2 w (rows : list (list fl)) : Forall (fun r => length r = w) rows -> nda_rows (nda2 w rows) = rows.
Proof.
  intros H. unfold nda_rows, nda2. cbn [nd_shape nd_data]. etransitivity; [|apply (map_nth_seq rows [])]. apply map_ext_in. intros i I. apply in_seq in I.
  apply chunk_concat; auto. lia.
Qed.
Lemma scale_rows_ok x w rows : fitted x -> Forall (fun r => length r = w) rows -> scale_rows x w rows = Ok (map (map (sc1 x)) rows).
Proof.
  intros Hx H. unfold scale_rows. rewrite transform_scalar by auto. cbn [rbind nda2 nd_shape nd_data]. f_equal. rewrite concat_map.
  replace (length rows) with (length (map (map (sc1 x)) rows)) by apply map_length. apply (rows_nda2 w).
  apply Forall_forall. intros r I. apply in_map_iff in I as (r' & <- & I). rewrite map_length. rewrite Forall_forall in H. auto.
Qed.
(** column by column *)
Lemma combine_app2 {A B} (l1 l2 : list A) (m1 m2 : list B) : length l1 = length m1 -> combine (l1 ++ l2) (m1 ++ m2) = combine l1 m1 ++ combine l2 m2.
Proof. revert m1. induction l1 as [|a l1 IH]; intros [|b m1] H; cbn in *; try lia; auto. f_equal. apply IH. lia. Qed.
Lemma map2_shift {B} (g : nat -> fl -> B) w rows : 0 < w -> Forall (fun r : list fl => length r = w) rows -> forall k,
  map2 (fun i x => g (i mod w) x) (seq (k * w) (length (concat rows))) (concat rows) = concat (map (fun r => map2 g (seq 0 w) r) rows).
Proof.
  intros Hw H. induction H as [|r rows Hr H IH]; intros k; [reflexivity|]. cbn [concat map]. rewrite app_length, Hr, seq_app.
  unfold map2. rewrite combine_app2 by (now rewrite seq_length). rewrite map_app. f_equal.
  - assert (G : forall r j, j + length r <= w -> map (fun p : nat * fl => g (fst p mod w) (snd p)) (combine (seq (k * w + j) (length r)) r) = map (fun p => g (fst p) (snd p)) (combine (seq j (length r)) r)).
    { clear. induction r as [|x r IH]; intros j L; cbn [length] in *; [reflexivity|]. cbn [seq combine map fst snd]. f_equal.
      - f_equal. rewrite Nat.add_comm, Nat.mod_add by lia. apply Nat.mod_small. lia.
      - rewrite <- Nat.add_succ_r. apply IH. lia. }
    specialize (G r 0). rewrite Nat.add_0_r, Hr in G. apply G. lia.
  - specialize (IH (S k)). cbn [Nat.mul] in IH. rewrite (Nat.add_comm w) in IH. exact IH.
Qed.

(** ** Changing names and values of a frame *)
Section retouch.
Variables (g : string -> val F -> val F) (h : string -> string).
Definition retouch (df : frame F) : frame F := mkFrame (f_rows df) (map (fun c => (h (fst c), map (g (fst c)) (snd c))) (f_cols df)).
Hypothesis gnan : forall n, g n VNan = VNan.
Lemma retouch_concat a b : pd_concat (retouch a) (retouch b) = retouch (pd_concat a b).
Proof.
  unfold pd_concat, retouch. cbn [f_rows f_cols]. f_equal. rewrite <- map_app, !map_map. apply map_ext. intros [n c]. unfold fill. cbn [fst snd].
  f_equal. rewrite map_app, map_length. f_equal. generalize (Nat.max (f_rows a) (f_rows b) - length c). intros k. induction k as [|k IH]; cbn; [reflexivity|]. now rewrite gnan, <- IH.
Qed.
Lemma retouch_series n v : series (h n) (map (g n) v) = retouch (series n v).
Proof. unfold series, retouch. cbn. now rewrite map_length. Qed.
Lemma retouch_table (names : list string) (G : val F -> val F) rows : (forall n, In n names -> forall v, g n v = G v) -> G VNan = VNan ->
  table (map h names) (map (map G) rows) = retouch (table names rows).
Proof.
  intros H GN. unfold table, retouch. cbn [f_rows f_cols]. rewrite !map_length. f_equal. rewrite map_map. cbn [fst snd].
  assert (E : forall k, map (fun jl : nat * string => (snd jl, map (fun r => nth (fst jl) r VNan) (map (map G) rows))) (combine (seq k (length names)) (map h names)) =
    map (fun x : nat * string => (h (snd x), map (g (snd x)) (map (fun r => nth (fst x) r VNan) rows))) (combine (seq k (length names)) names)).
  { induction names as [|n names IH]; intros k; [reflexivity|]. cbn [map length seq combine fst snd]. f_equal.
    - f_equal. rewrite !map_map. apply map_ext. intros r. rewrite (H n) by now left. rewrite <- GN at 1. apply map_nth.
    - apply IH. intros n' I. apply H. now right. }
  apply E.
Qed.
End retouch.
Definition rmap {A B} (f : A -> B) (r : res A) : res B := match r with Ok a => Ok (f a) | Err e => Err e end.
Lemma rmap_bind {A B C} (f : B -> C) (r : res A) (k : A -> res B) : rmap f (rbind r k) = rbind r (fun a => rmap f (k a)).
Proof. destruct r; reflexivity. Qed.

Definition vmap (f : fl -> fl) (v : val F) : val F := match v with VNum x => vfl (f (Some x)) | v => v end.
Lemma vmap_vfl f a : f None = None -> vmap f (vfl a) = vfl (f a).
Proof. intros H. destruct a; cbn; [reflexivity|]. now rewrite H. Qed.
Lemma np_repeat_map {A B} (f : A -> B) l n : np_repeat (map f l) n = map f (np_repeat l n).
Proof. unfold np_repeat. rewrite flat_map_concat_map, flat_map_concat_map, concat_map, !map_map. f_equal. apply map_ext. intros a. induction n as [|n IH]; cbn; [reflexivity|]. now rewrite IH. Qed.
Lemma rmapM_len {A B} (f : A -> res B) l : forall r, rmapM f l = Ok r -> length r = length l.
Proof.
  induction l as [|a l IH]; intros r H; cbn [rmapM] in H; [now inversion H|].
  destruct (f a); cbn [rbind] in H; [|discriminate]. destruct (rmapM f l) eqn:E; cbn [rbind] in H; [|discriminate]. inversion H. cbn. now rewrite (IH _ eq_refl).
Qed.
Lemma all_rows_len a ids rows : all_rows a ids = Ok rows -> Forall (fun r : list fl => length r = length ids) rows.
Proof.
  unfold all_rows. revert rows. induction a as [|row a IH]; intros rows H; cbn [rmapM] in H; [inversion H; constructor|].
  destruct (rmapM (pyget row) ids) eqn:E; cbn [rbind] in H; [|discriminate]. destruct (rmapM _ a) eqn:E2; cbn [rbind] in H; [|discriminate].
  inversion H. constructor; auto. exact (rmapM_len _ _ _ E).
Qed.

Section columns.
Variables (m : bo F) (so : option (soln F)) (un : list (string * string)) (S : scs) (units boundary melt scale : bool) (sT sQ sP : string)
  (gx : string -> val F -> val F).
Hypotheses (HT : name_str un units scale S "time" = Ok sT) (HQ : name_str un units scale S "rate" = Ok sQ) (HP : name_str un units scale S "pressure" = Ok sP)
  (FT : scale = true -> fitted (time_scaler S)) (FQ : scale = true -> fitted (rates_scaler S)) (FP : scale = true -> fitted (pressures_scaler S))
  (gx_nan : forall n, gx n VNan = VNan).
Definition h (name : string) : string := (name ++ match kind_of name with
  | KTime => sT | KDate => if units then " [d.m.y]" else "" | KRate => sQ | KPressure => sP | KOther => "" end)%string.
Definition pick (x : scaler fl) : fl -> fl := if scale then sc1 x else fun v => v.
Definition g (name : string) : val F -> val F := match kind_of name with
  | KTime => vmap (pick (time_scaler S)) | KDate => fun v => v | KRate => vmap (pick (rates_scaler S)) | KPressure => vmap (pick (pressures_scaler S))
  | KOther => gx name end.
Lemma pick_nan x : pick x None = None.
Proof. unfold pick. destruct scale; auto. apply sc1_nan. Qed.
Lemma g_nan n : g n VNan = VNan.
Proof. unfold g. destruct (kind_of n); auto. Qed.
Notation touch := (retouch g h).
Lemma picked_vec x v : (scale = true -> fitted x) -> (if scale then scale_vector x v else Ok v) = Ok (map (pick x) v).
Proof. unfold pick. intros H. destruct scale; [now apply scale_vector_ok, H|]. now rewrite map_id. Qed.
Lemma picked_rows x w v : (scale = true -> fitted x) -> Forall (fun r => length r = w) v -> (if scale then scale_rows x w v else Ok v) = Ok (map (map (pick x)) v).
Proof.
  unfold pick. intros H L. destruct scale; [now apply scale_rows_ok; auto|]. f_equal. symmetry. rewrite <- (map_id v) at 2. apply map_ext. intros r. apply map_id.
Qed.
Lemma t_time df : add_time_s m so un units melt boundary scale (touch df) S = rmap touch (add_time m so melt boundary df).
Proof.
  unfold add_time_s, add_time. rewrite HT. cbn [rbind]. rewrite rmap_bind. destruct (time_vector _ _) as [t|]; cbn [rbind]; [|reflexivity].
  rewrite picked_vec by auto. cbn [rbind rmap]. f_equal. rewrite <- retouch_concat by apply g_nan. f_equal.
  rewrite <- retouch_series. unfold h at 1. cbn [kind_of]. f_equal. unfold g. cbn [kind_of].
  destruct melt; rewrite ?np_repeat_map; rewrite !map_map; reflexivity.
Qed.
Lemma t_date df : add_date_s m so units melt boundary (touch df) S = rmap touch (add_date m so melt boundary df).
Proof.
  unfold add_date_s, add_date. cbn [rmap]. f_equal. rewrite <- retouch_concat by apply g_nan. f_equal. rewrite <- retouch_series. unfold h, g. cbn [kind_of]. now rewrite map_id.
Qed.
Lemma map_map_vfl x (a : list (list fl)) : map (map (@vfl F)) (map (map (pick x)) a) = map (map (vmap (pick x))) (map (map (@vfl F)) a).
Proof. rewrite !map_map. apply map_ext. intros r. rewrite !map_map. apply map_ext. intros v. symmetry. apply vmap_vfl, pick_nan. Qed.
Lemma t_cells name key get sc str K (x := sc S) df :
  name_str un units scale S key = Ok str -> (scale = true -> fitted x) -> kind_of name = K ->
  (forall sfx, kind_of (name ++ sfx) = K) -> (forall n, kind_of n = K -> g n = vmap (pick x) /\ h n = (n ++ str)%string) ->
  (forall ids rows, get ids = Ok rows -> Forall (fun r => length r = length ids) rows) ->
  add_cells_s m un name key get sc units melt boundary scale (touch df) S = rmap touch (add_cells name get m melt boundary df).
Proof.
  intros Hn Hf K1 K2 HK Hg. unfold add_cells_s, add_cells. rewrite Hn. cbn [rbind]. rewrite rmap_bind. destruct (get_cells_id _ _) as [ids|]; cbn [rbind]; [|reflexivity].
  rewrite rmap_bind. destruct (get ids) as [a|] eqn:Ea; cbn [rbind]; [|reflexivity]. specialize (Hg _ _ Ea). fold x. rewrite picked_rows by auto. cbn [rbind rmap]. f_equal.
  rewrite <- retouch_concat by apply g_nan. f_equal. rewrite map_map_vfl. destruct melt.
  - rewrite <- (retouch_table g h [name] (vmap (pick x))); [|intros n [<-|[]]; intros v; now rewrite (proj1 (HK name K1))|reflexivity].
    f_equal; [cbn [map]; now rewrite (proj2 (HK name K1))|]. rewrite <- concat_map, !map_map. reflexivity.
  - rewrite <- (retouch_table g h _ (vmap (pick x))); [|intros n I v; apply in_map_iff in I as (id & <- & _); now rewrite (proj1 (HK _ (K2 _)))|reflexivity].
    f_equal. rewrite map_map. apply map_ext. intros id. now rewrite (proj2 (HK _ (K2 _))).
Qed.
Lemma t_wrate df : add_wells_rate_s m so un units scale (touch df) S = rmap touch (add_wells_rate m so df).
Proof.
  unfold add_wells_rate_s, add_wells_rate. rewrite HQ. cbn [rbind]. rewrite rmap_bind. destruct (get_rate_all _ _) as [a|] eqn:Ea; cbn [rbind]; [|reflexivity].
  assert (L : Forall (fun r => length r = length (dkeys (b_wells m))) a) by (unfold get_rate_all in Ea; destruct so; [|discriminate]; eapply all_rows_len; eauto).
  rewrite picked_rows by auto. cbn [rbind rmap]. f_equal. rewrite <- retouch_concat by apply g_nan. f_equal. rewrite map_map_vfl.
  rewrite <- (retouch_table g h _ (vmap (pick (rates_scaler S)))); [|intros n I v; apply in_map_iff in I as (id & <- & _); reflexivity|reflexivity].
  f_equal. rewrite map_map. reflexivity.
Qed.
Lemma wp_table (labels : Z * list fl -> string) (wp : list (Z * list fl)) n : Forall (fun e => length (snd e) = n) wp ->
  table (map labels wp) (map (map (@vfl F)) (map (fun r => map (fun e => nth r (snd e) None) wp) (seq 0 n))) =
  mkFrame n (map (fun e => (labels e, map (@vfl F) (snd e))) wp).
Proof.
  intros H. unfold table. rewrite !map_length, seq_length. f_equal.
  match goal with |- map ?f _ = _ => apply (combine_nth_map (fun j x => f (j, x)) (fun e : Z * list fl => (labels e, map (@vfl F) (snd e)))) end.
  intros j e Ej. cbn [fst snd Nat.add]. f_equal. rewrite !map_map. assert (L : length (snd e) = n) by (rewrite Forall_forall in H; apply H; eapply nth_error_In; eauto).
  rewrite <- (map_nth_seq (snd e) None) at 1. rewrite L, map_map. apply map_ext. intros r. rewrite map_map.
  assert (E : nth_error (map (fun e0 : Z * list fl => vfl (nth r (snd e0) None)) wp) j = Some (vfl (nth r (snd e) None))) by now rewrite nth_error_map, Ej.
  exact (nth_error_nth _ _ VNan E).
Qed.
Lemma t_wpress df : add_wells_pressures_s m un units scale (touch df) S = rmap touch (add_wells_pressures m df).
Proof.
  unfold add_wells_pressures_s. rewrite HP. cbn [rbind].
  assert (E : add_wells_pressures m df = let wp := b_wp m in let n := match wp with [] => 0 | (_, l) :: _ => length l end in
    if forallb (fun e => length (snd e) =? n) wp then Ok (pd_concat df (table (map (fun e => ("Pwf" ++ str_of (fst e))%string) wp)
      (map (map (@vfl F)) (map (fun r => map (fun e => nth r (snd e) None) wp) (seq 0 n))))) else Err ValueError).
  { unfold add_wells_pressures. cbv zeta. destruct (b_wp m) as [|[k l] wp]; [reflexivity|]. destruct (forallb _ _) eqn:K; [|reflexivity]. f_equal. f_equal.
    rewrite wp_table; [reflexivity|]. apply Forall_forall. intros e I. rewrite forallb_forall in K. now apply Nat.eqb_eq, K. }
  rewrite E. cbv zeta. destruct (forallb _ _); [|reflexivity].
  rewrite picked_rows; auto; [|apply Forall_forall; intros r I; apply in_map_iff in I as (i & <- & _); apply map_length].
  cbn [rbind rmap]. f_equal. rewrite <- retouch_concat by apply g_nan. f_equal. rewrite map_map_vfl.
  rewrite <- (retouch_table g h _ (vmap (pick (pressures_scaler S)))); [|intros n I v; apply in_map_iff in I as (id & <- & _); reflexivity|reflexivity].
  f_equal. rewrite map_map. reflexivity.
Qed.
Lemma t_when b (f : frame F -> res (frame F)) f' df : (forall df, f' (touch df) = rmap touch (f df)) -> rwhen b f' (touch df) = rmap touch (rwhen b f df).
Proof. intros H. destruct b; cbn [rwhen]; auto. Qed.
Lemma t_column df c : add_column_s m so un units boundary melt scale S (touch df) c = rmap touch (add_column m so boundary melt df c).
Proof.
  unfold add_column_s, add_column. destruct (negb _); [reflexivity|].
  assert (GR : forall get, (exists a, forall ids, get ids = all_rows a ids) \/ (exists e, forall ids, get ids = Err e) ->
    forall ids rows, get ids = Ok rows -> Forall (fun r : list fl => length r = length ids) rows).
  { intros get [(a & Ha)|(e & He)] ids rows H; [rewrite Ha in H; eapply all_rows_len; eauto|rewrite He in H; discriminate]. }
  rewrite rmap_bind, (t_when _ _ _ _ t_time). destruct (rwhen _ _ df) as [d1|]; cbn [rmap rbind]; [|reflexivity].
  rewrite rmap_bind, (t_when _ _ _ _ t_date). destruct (rwhen _ _ d1) as [d2|]; cbn [rmap rbind]; [|reflexivity].
  rewrite rmap_bind, (t_when _ (add_cells "Q" (get_rate_all so) m melt boundary)).
  2: { intros d. apply (t_cells _ _ _ _ sQ KRate); auto. intros n E. unfold g, h. rewrite E. auto. apply GR. destruct so; [left|right]; cbn; eauto. }
  destruct (rwhen _ _ d2) as [d3|]; cbn [rmap rbind]; [|reflexivity].
  rewrite rmap_bind, (t_when _ (add_cells "P" (get_pressure_all so) m melt boundary)).
  2: { intros d. apply (t_cells _ _ _ _ sP KPressure); auto. intros n E. unfold g, h. rewrite E. auto. apply GR. destruct so; [left|right]; cbn; eauto. }
  destruct (rwhen _ _ d3) as [d4|]; cbn [rmap rbind]; [|reflexivity].
  rewrite rmap_bind, (t_when _ _ _ _ t_wrate). destruct (rwhen _ _ d4) as [d5|]; cbn [rmap rbind]; [|reflexivity].
  apply t_when, t_wpress.
Qed.
Lemma t_columns cols : forall r, fold_left (fun r c => let* df := r in add_column_s m so un units boundary melt scale S df c) cols (rmap touch r) =
  rmap touch (fold_left (fun r c => let* df := r in add_column m so boundary melt df c) cols r).
Proof.
  induction cols as [|c cols IH]; intros r; [reflexivity|]. cbn [fold_left]. rewrite <- IH. f_equal. destruct r as [df|]; cbn [rbind rmap]; [apply t_column|reflexivity].
Qed.
End columns.
End facts.
