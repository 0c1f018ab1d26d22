(** Fitting scalers to real data: ranges and scaled values. *)
From Coq Require Import String Ascii ZArith Bool Arith List Lia Reals Lra.
From Verif Require Import Prelude PreludeFacts TabFacts Num GridModel GridSpec GridProofs GeoModel GeoSpec PropModel UnitsModel BlackOilModel FdmModel FrameModel FrameSpec ScalerModel ScalerSpec ScalerThm ScaleModel ScaleSpec MonadFacts InvFacts FrameFacts FrameThm ScaleFacts ScaleState ScaleFull.
Import ListNotations.
Local Close Scope R_scope.
Local Open Scope list_scope.
Local Open Scope nat_scope.

Notation flR := (fl R).
Lemma nmin_fl a b : nmin (Some a : flR) (Some b) = Some (if Rltb b a then b else a).
Proof. unfold nmin. cbn [nltb neqb Num_fl fltb feqb Num_R]. unfold fltb, feqb. cbn. rewrite Reqb_refl. cbn. rewrite orb_false_r. now destruct (Rltb b a). Qed.
Lemma nmax_fl a b : nmax (Some a : flR) (Some b) = Some (if Rltb a b then b else a).
Proof. unfold nmax. cbn [nltb neqb Num_fl fltb feqb Num_R]. unfold fltb, feqb. cbn. rewrite Reqb_refl. cbn. rewrite orb_false_r. now destruct (Rltb a b). Qed.
Lemma Rltb_case a b : (Rltb a b = true /\ (a < b)%R) \/ (Rltb a b = false /\ (b <= a)%R).
Proof. unfold Rltb. destruct (Rlt_dec a b); [left|right]; split; auto; lra. Qed.
Lemma fold_min (l : list R) : forall a : R, exists x, fold_left nmin (map Some l) (Some a : flR) = Some x /\ (x = a \/ In x l) /\ (x <= a)%R /\ Forall (fun y => x <= y)%R l.
Proof.
  induction l as [|b l IH]; intros a; cbn [map fold_left].
  - exists a. repeat split; auto. lra.
  - rewrite nmin_fl. destruct (Rltb_case b a) as [(E & L)|(E & L)]; rewrite E.
    + destruct (IH b) as (x & Ex & H & H1 & H2). exists x. split; [exact Ex|]. split; [right; destruct H as [-> | H]; cbn; auto|]. split; [lra|constructor; auto].
    + destruct (IH a) as (x & Ex & H & H1 & H2). exists x. split; [exact Ex|]. split; [destruct H as [-> | H]; cbn; auto|]. split; [lra|constructor; auto; lra].
Qed.
Lemma fold_max (l : list R) : forall a : R, exists x, fold_left nmax (map Some l) (Some a : flR) = Some x /\ (x = a \/ In x l) /\ (a <= x)%R /\ Forall (fun y => y <= x)%R l.
Proof.
  induction l as [|b l IH]; intros a; cbn [map fold_left].
  - exists a. repeat split; auto. lra.
  - rewrite nmax_fl. destruct (Rltb_case a b) as [(E & L)|(E & L)]; rewrite E.
    + destruct (IH b) as (x & Ex & H & H1 & H2). exists x. split; [exact Ex|]. split; [right; destruct H as [-> | H]; cbn; auto|]. split; [lra|constructor; auto].
    + destruct (IH a) as (x & Ex & H & H1 & H2). exists x. split; [exact Ex|]. split; [destruct H as [-> | H]; cbn; auto|]. split; [lra|constructor; auto; lra].
Qed.
Lemma all_some (l : list flR) : (forall v, In v l -> v <> None) -> exists r, l = map Some r.
Proof.
  induction l as [|[v|] l IH]; intros H.
  - now exists [].
  - destruct IH as (r & ->); [intros w I; apply H; now right|]. now exists (v :: r).
  - exfalso. apply (H None); [now left|reflexivity].
Qed.
Lemma in_some (x : R) r : In (Some x) (map Some r) <-> In x r.
Proof. rewrite in_map_iff. split; [intros (y & E & I); injection E as ->; exact I|eauto]. Qed.
Lemma reduce_range (P : R -> Prop) (l : list flR) lo hi : (forall v, In v l -> v <> None) -> (forall x, In (Some x) l <-> P x) -> range_is P lo hi ->
  reduce nmin l = Ok (Some lo) /\ reduce nmax l = Ok (Some hi).
Proof.
  intros HN HP (Pl & Ph & HR). destruct (all_some l HN) as (r & ->). setoid_rewrite in_some in HP. destruct r as [|a r]; [exfalso; apply HP in Pl; exact Pl|].
  unfold reduce. cbn [map]. split; f_equal.
  - destruct (fold_min r a) as (x & Ex & H & H1 & H2). etransitivity; [exact Ex|]. f_equal. apply HP in Pl. assert (Px : P x) by (apply HP; destruct H as [-> | H]; [now left|now right]).
    apply HR in Px. destruct Pl as [-> | Pl]; [lra|]. rewrite Forall_forall in H2. specialize (H2 _ Pl). cbn in H2. lra.
  - destruct (fold_max r a) as (x & Ex & H & H1 & H2). etransitivity; [exact Ex|]. f_equal. apply HP in Ph. assert (Px : P x) by (apply HP; destruct H as [-> | H]; [now left|now right]).
    apply HR in Px. destruct Ph as [-> | Ph]; [lra|]. rewrite Forall_forall in H2. specialize (H2 _ Ph). cbn in H2. lra.
Qed.
Lemma formula_affine a b lo hi x : (lo < hi)%R -> formula (Some a : flR) (Some b) (Some lo) (Some hi) (Some x) = Some (affine a b lo hi x).
Proof.
  intros L. unfold formula, fadd, fdiv, fmul, fsub, lift2. cbn [nsub nmul Num_R]. cbn. unfold Reqb. destruct (Req_EM_T _ _) as [E|E]; [exfalso; cbn in E; lra|].
  f_equal. unfold affine. cbn. field. lra.
Qed.
Lemma formula_affine_v a b lo hi v : (lo < hi)%R -> forall f, (forall x, f x = affine a b lo hi x) -> vmap (formula (Some a : flR) (Some b) (Some lo) (Some hi)) v = on_val f v.
Proof. intros L f Hf. destruct v as [|x| |]; cbn [vmap on_val]; auto. rewrite formula_affine by auto. now rewrite Hf. Qed.

(** Fitting to all entries *)
Definition scalar_fit (v : nda flR) (axis0 : bool) : Prop := axis0 = false \/ exists n, nd_shape v = [n].
Lemma fit_scalar S q P f (v : nda flR) axis0 : maps S q P f -> scalar_fit v axis0 ->
  (has_scaler S q = true -> (forall e, In e (nd_data v) -> e <> None) /\ forall x, In (Some x) (nd_data v) <-> P x) ->
  exists y, sc_fit (scaler_of S q) v axis0 = (y, Ok tt) /\ forall z, vmap (sc1 y) z = on_val f z.
Proof.
  intros H Sh HV. unfold maps, has_scaler in *. destruct H as [(H & Hf)|(a & b & lo & hi & (l0 & h0 & E) & HR & L & Hf)].
  - destruct (scaler_of S q); [|discriminate H]. exists Dummy. split; [reflexivity|]. intros [|x| |]; cbn; auto. now rewrite Hf.
  - rewrite E in *. destruct (HV eq_refl) as (H1 & H2). destruct (reduce_range P _ _ _ H1 H2 HR) as (R1 & R2). cbn [sc_fit]. unfold mm_fit.
    assert (E1 : (Nat.ltb 2 (length (nd_shape v)) && axis0)%bool = false) by (destruct Sh as [-> | (n & ->)]; [apply andb_false_r|reflexivity]). rewrite E1.
    assert (E2 : forall g, np_reduce g axis0 v = let* x := reduce g (nd_data v) in Ok (RS x)) by (intros g; unfold np_reduce; destruct Sh as [-> | (n & ->)]; [reflexivity|now destruct axis0]).
    rewrite !E2, R1, R2. cbn [rbind Vmin Vmax vmin vmax]. eexists. split; [reflexivity|]. intros z. cbn [sc1 vmin vmax Vmin Vmax]. now apply formula_affine_v.
Qed.
(** Fitting column by column *)
Lemma column_rows (r : nat) (w : nat) (rows : list (list flR)) j : length rows = r -> Forall (fun row => length row = w) rows -> j < w ->
  column r w (concat rows) j = map (fun row => nth j row None) rows.
Proof.
  intros <- L Hj. unfold column. transitivity (map (fun i => nth j (nth i rows []) None) (seq 0 (length rows))).
  - apply map_ext_in. intros i I. apply in_seq in I. rewrite <- (chunk_concat w rows L i) by lia. unfold chunk.
    assert (Lc : length (concat rows) = length rows * w).
    { clear -L. induction L as [|a l H L IH]; cbn; [reflexivity|]. rewrite app_length, H, IH. lia. }
    assert (K : (i * w + j) < length (concat rows)) by (rewrite Lc; nia).
    rewrite <- (firstn_skipn (i * w) (concat rows)) at 1. rewrite app_nth2; rewrite firstn_length_le by lia; [|lia]. replace (i * w + j - i * w) with j by lia.
    rewrite <- (firstn_skipn w (skipn (i * w) (concat rows))) at 1. rewrite app_nth1; [apply nth_indep|]; rewrite firstn_length_le; auto; rewrite skipn_length; nia.
  - rewrite <- (map_map (fun i => nth i rows []) (fun row => nth j row None)). f_equal. apply map_nth_seq.
Qed.
Lemma rmapM_all {A B} (f : A -> res B) (g : A -> B) l : (forall a, In a l -> f a = Ok (g a)) -> rmapM f l = Ok (map g l).
Proof. induction l as [|a l IH]; intros H; cbn [rmapM map]; [reflexivity|]. rewrite (H a), IH; [reflexivity| |now left]. intros b I. apply H. now right. Qed.
Lemma fit_columns S (dirs : list axis) pts (fx : string -> R -> R) : NoDup (map axis_name dirs) ->
  (forall d, In d dirs -> maps S QSpace (coords pts d) (fx (axis_name d))) ->
  let rows := map (fun p => map (fun d => Some (coord_of d p)) dirs) pts in
  exists y, sc_fit (space_scaler S) (nda2 (length dirs) rows) true = (y, Ok tt) /\
  forall j d z, nth_error dirs j = Some d -> vmap (scj y j) z = on_val (fx (axis_name d)) z.
Proof.
  intros _ H rows. destruct (space_scaler S) as [|k] eqn:Ek.
  - exists Dummy. split; [reflexivity|]. intros j d z Ej. apply nth_error_In in Ej. destruct (H d Ej) as [(_ & Hf)|(a & b & lo & hi & (l0 & h0 & E) & _)]; [|cbn in E; congruence].
    destruct z as [|x| |]; cbn; auto. now rewrite Hf.
  - assert (K : forall d, exists lohi, In d dirs -> range_is (coords pts d) (fst lohi) (snd lohi) /\ (fst lohi < snd lohi)%R /\ exists a b, Vmin k = Some a /\ Vmax k = Some b /\ forall x, fx (axis_name d) x = affine a b (fst lohi) (snd lohi) x).
    { intros d. destruct (in_dec (fun a b : axis => ltac:(decide equality)) d dirs) as [I|I]; [|exists (0, 0)%R; contradiction].
      destruct (H d I) as [(Hs & _)|(a & b & lo & hi & (l0 & h0 & E) & HR & L & Hf)]; [unfold has_scaler in Hs; cbn in Hs; rewrite Ek in Hs; discriminate|].
      exists (lo, hi). intros _. cbn in E. rewrite Ek in E. injection E as ->. cbn. eauto 8. }
    assert (K2 : exists rr, forall d, In d dirs -> range_is (coords pts d) (fst (rr d)) (snd (rr d)) /\ (fst (rr d) < snd (rr d))%R /\ exists a b, Vmin k = Some a /\ Vmax k = Some b /\ forall x, fx (axis_name d) x = affine a b (fst (rr d)) (snd (rr d)) x).
    { destruct (K AX) as (rx & Hx), (K AY) as (ry & Hy), (K AZ) as (rz & Hz), (K ADash) as (rd & Hd). exists (fun d => match d with AX => rx | AY => ry | AZ => rz | ADash => rd end). intros []; auto. }
    clear K. destruct K2 as (rr & K).
    assert (Lr : Forall (fun row => length row = length dirs) rows) by (apply Forall_forall; intros row I; apply in_map_iff in I as (p & <- & _); apply map_length).
    assert (Ln : length rows = length pts) by apply map_length.
    assert (Red : forall j d, nth_error dirs j = Some d -> reduce nmin (column (length rows) (length dirs) (concat rows) j) = Ok (Some (fst (rr d))) /\ reduce nmax (column (length rows) (length dirs) (concat rows) j) = Ok (Some (snd (rr d)))).
    { intros j d Ej. assert (Lj : j < length dirs) by (apply nth_error_Some; congruence). rewrite column_rows by auto.
      assert (E : map (fun row => nth j row None) rows = map (fun p => Some (coord_of d p)) pts).
      { unfold rows. rewrite map_map. apply map_ext. intros p. apply nth_error_nth. rewrite nth_error_map, Ej. reflexivity. }
      rewrite E. apply nth_error_In in Ej. apply (reduce_range (coords pts d)); [| |apply K; auto].
      - intros v I. apply in_map_iff in I as (p & <- & _). discriminate.
      - intros x. rewrite in_map_iff. unfold coords. split; [intros (p & E1 & I); injection E1 as <-; eauto|intros (p & I & ->); eauto]. }
    assert (Nd : forall j, In j (seq 0 (length dirs)) -> nth_error dirs j = Some (nth j dirs ADash)) by (intros j I; apply in_seq in I; apply nth_error_nth'; lia).
    cbn [sc_fit]. unfold mm_fit. cbn [nda2 nd_shape length Nat.ltb Nat.leb andb]. cbn [np_reduce nd_shape nd_data nda2].
    rewrite (rmapM_all _ (fun j => Some (fst (rr (nth j dirs ADash))))) by (intros j I; apply Red, Nd, I). cbn [rbind Vmin Vmax vmin vmax].
    rewrite (rmapM_all _ (fun j => Some (snd (rr (nth j dirs ADash))))) by (intros j I; apply Red, Nd, I). cbn [rbind Vmin Vmax vmin vmax].
    eexists. split; [reflexivity|]. intros j d z Ej. unfold scj. cbn [vmin vmax Vmin Vmax]. assert (Lj : j < length dirs) by (apply nth_error_Some; congruence).
    assert (N : forall g : axis -> flR, nth j (map (fun j => g (nth j dirs ADash)) (seq 0 (length dirs))) (@n0 flR Num_fl) = g d).
    { intros g. apply nth_error_nth. rewrite nth_error_map. rewrite (nth_error_nth' _ 0) by (rewrite seq_length; lia). rewrite seq_nth by lia. cbn. now rewrite (nth_error_nth _ _ _ Ej). }
    match goal with |- context [formula _ _ ?A ?B] => replace A with (Some (fst (rr d)) : flR) by (symmetry; exact (N (fun d => Some (fst (rr d)))));
      replace B with (Some (snd (rr d)) : flR) by (symmetry; exact (N (fun d => Some (snd (rr d))))) end.
    destruct (K d (nth_error_In _ _ Ej)) as (_ & L & a & b & -> & -> & Hf). now apply formula_affine_v.
Qed.
