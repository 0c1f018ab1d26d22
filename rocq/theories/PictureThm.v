(** What the pictures of a model show. *)
From Coq Require Import String ZArith QArith Reals Bool Arith Lia Lra List.
From Verif Require Import Prelude PreludeFacts Num GridModel GridSpec GridProofs GeoModel PropModel PropProofs BlackOilModel FdmModel ModelFacts ScaleRange QueryFacts GridNeighbors GeoSpec GeoProofs GeoThm FormatModel FormatThm HistSpec Samples SampleFacts SolverSpec SampleWell StepSpec StepFacts StepThm WellStepFacts RadiusFacts PictureModel PictureSpec.
Import ListNotations.
Close Scope Q_scope. Open Scope R_scope.

Lemma in_known (l : list (fl R)) x : In x (known l) <-> In (Some x) l.
Proof.
  unfold known. rewrite in_flat_map. split.
  - intros ([y|] & I & H); cbn in H; [destruct H as [->|[]]; exact I|contradiction].
  - intros I. exists (Some x). split; [exact I|now left].
Qed.
Lemma fold_min r : forall a, let m := fold_left (fun m x => if Rltb x m then x else m) r a in In m (a :: r) /\ forall x, In x (a :: r) -> m <= x.
Proof.
  induction r as [|b r IH]; intros a; [split; [now left|intros x [->|[]]; cbn; lra]|]. cbn [fold_left]. destruct (Rltb_case b a) as [(-> & H)|(-> & H)].
  - destruct (IH b) as (I & L). split; [now right|]. intros x [->|Ix]; [|auto]. specialize (L b (or_introl eq_refl)). cbn in *. lra.
  - destruct (IH a) as (I & L). split; [destruct I as [I|I]; [now left|right; now right]|]. intros x [->|[->|Ix]]; [apply L; now left| |apply L; now right]. specialize (L a (or_introl eq_refl)). cbn in *. lra.
Qed.
Lemma fold_max r : forall a, let m := fold_left (fun m x => if Rltb m x then x else m) r a in In m (a :: r) /\ forall x, In x (a :: r) -> x <= m.
Proof.
  induction r as [|b r IH]; intros a; [split; [now left|intros x [->|[]]; cbn; lra]|]. cbn [fold_left]. destruct (Rltb_case a b) as [(-> & H)|(-> & H)].
  - destruct (IH b) as (I & L). split; [now right|]. intros x [->|Ix]; [|auto]. specialize (L b (or_introl eq_refl)). cbn in *. lra.
  - destruct (IH a) as (I & L). split; [destruct I as [I|I]; [now left|right; now right]|]. intros x [->|[->|Ix]]; [apply L; now left| |apply L; now right]. specialize (L a (or_introl eq_refl)). cbn in *. lra.
Qed.
Lemma extremes (l : list (fl R)) : known l <> [] -> exists lo hi, nanmin l = Ok (Some lo) /\ nanmax l = Ok (Some hi) /\ In lo (known l) /\ In hi (known l) /\ forall x, In x (known l) -> lo <= x <= hi.
Proof.
  intros N. unfold nanmin, nanmax, extreme. destruct l as [|v l]; [now destruct N|]. destruct (known (v :: l)) as [|a r]; [congruence|].
  destruct (fold_min r a) as (I1 & L1), (fold_max r a) as (I2 & L2). do 2 eexists. split; [reflexivity|]. split; [reflexivity|]. split; [exact I1|]. split; [exact I2|]. intros x Ix. split; [now apply L1|now apply L2].
Qed.
Lemma sum_left (l : list R) : forall a, fold_left Rplus l a = a + fold_right Rplus 0 l.
Proof. induction l as [|b l IH]; intros a; cbn; [lra|]. rewrite IH. lra. Qed.
Lemma sum_lo (l : list R) lo : (forall x, In x l -> lo <= x) -> lo * INR (length l) <= fold_right Rplus 0 l /\ ((exists x, In x l /\ lo < x) -> lo * INR (length l) < fold_right Rplus 0 l).
Proof.
  induction l as [|b l IH]; intros H.
  - cbn. split; [lra|]. intros (x & [] & _).
  - destruct (IH (fun x I => H x (or_intror I))) as (A & B). pose proof (H b (or_introl eq_refl)). cbn [length fold_right]. rewrite S_INR. split; [lra|]. intros (x & [->|I] & L); [lra|]. assert (lo * INR (length l) < fold_right Rplus 0 l) by (apply B; eauto). lra.
Qed.
Lemma sum_hi (l : list R) hi : (forall x, In x l -> x <= hi) -> fold_right Rplus 0 l <= hi * INR (length l) /\ ((exists x, In x l /\ x < hi) -> fold_right Rplus 0 l < hi * INR (length l)).
Proof.
  induction l as [|b l IH]; intros H.
  - cbn. split; [lra|]. intros (x & [] & _).
  - destruct (IH (fun x I => H x (or_intror I))) as (A & B). pose proof (H b (or_introl eq_refl)). cbn [length fold_right]. rewrite S_INR. split; [lra|]. intros (x & [->|I] & L); [lra|]. assert (fold_right Rplus 0 l < hi * INR (length l)) by (apply B; eauto). lra.
Qed.
Lemma mean_eq (l : list (fl R)) : known l <> [] -> exists av, nanmean l = Some av /\ av * INR (length (known l)) = fold_right Rplus 0 (known l) /\ 0 < INR (length (known l)).
Proof.
  intros N. unfold nanmean. destruct (known l) as [|a r]; [congruence|]. set (k := a :: r). assert (P : 0 < INR (length k)) by (cbn [k length]; rewrite S_INR; pose proof (pos_INR (length r)); lra).
  eexists. split; [reflexivity|]. split; [|exact P]. change (fold_left nadd k n0 / IZR (Z.of_nat (length k)) * INR (length k) = fold_right Rplus 0 k). rewrite <- INR_IZR_INZ. change (fold_left nadd k n0) with (fold_left Rplus k 0). rewrite sum_left. field. lra.
Qed.
Lemma known_numbers (l : list (fl R)) : known l = numbers l.
Proof. induction l as [|[x|] l IH]; cbn; [reflexivity|f_equal; exact IH|exact IH]. Qed.
Lemma Reqb_ne (a b : R) : a <> b -> Reqb a b = false.
Proof. intros N. destruct (Reqb a b) eqn:E; [|reflexivity]. now apply Reqb_true in E. Qed.
Lemma id_range g id : wf g -> In id (map Z.of_nat (interior_ids g)) -> (0 <= id < Z.of_nat (get_n g true))%Z.
Proof.
  intros W I. apply in_map_iff in I as (n & <- & I). rewrite (get_n_true g W). destruct W as (Hx & Hy & Hz).
  assert (n < pad (nx g) * pad (ny g) * pad (nz g))%nat; [|lia]. apply (box_lt g (midsel (nz g)) (midsel (ny g)) (midsel (nx g))); [exact (keepsel_lt (true,true) _ Hz)|exact (keepsel_lt (true,true) _ Hy)|exact (keepsel_lt (true,true) _ Hx)|exact I].
Qed.
Lemma ids_ok g b : wf g -> exists ids, get_cells_id g b = Ok ids /\ forall id, In id ids -> (0 <= id < Z.of_nat (get_n g true))%Z.
Proof.
  intros W. destruct b; [exists (arange (get_n g true)); split; [reflexivity|]|].
  - intros id I. unfold arange in I. apply in_map_iff in I as (n & <- & I). apply in_seq in I. lia.
  - exists (map Z.of_nat (interior_ids g)). split; [now apply cells_id_false|]. intros id. now apply id_range.
Qed.
Lemma picture_rows g (rows : list (list (fl R))) (b : bool) : wf g -> (forall row, In row rows -> length row = get_n g true) ->
  exists (v : list (list (fl R))) (ids : list Z), (if b then Ok rows else let* ids := get_cells_id g false in rmapM (at_ids ids) rows) = Ok v /\ get_cells_id g b = Ok ids /\ length v = length rows /\
  forall t row, nth_error rows t = Some row -> exists out, nth_error v t = Some out /\ length out = length ids /\ forall k id, nth_error ids k = Some id -> nth_error out k = nth_error row (Z.to_nat id) /\ (Z.to_nat id < length row)%nat.
Proof.
  intros W L. destruct (ids_ok g b W) as (ids & Ei & R). destruct b.
  - exists rows, ids. split; [reflexivity|]. split; [exact Ei|]. split; [reflexivity|]. intros t row E. exists row. split; [exact E|]. injection Ei as <-. pose proof (L row (nth_error_In _ _ E)) as Lr. split; [rewrite arange_length; exact Lr|].
    intros k id Ek. assert (Hk : (k < get_n g true)%nat) by (rewrite <- (arange_length (get_n g true)); apply nth_error_Some; congruence).
    apply nth_error_nth with (d := 0%Z) in Ek. rewrite nth_arange in Ek by exact Hk. subst id. rewrite Nat2Z.id. split; [reflexivity|lia].
  - rewrite Ei. cbn [rbind]. exists (map (fun row => map (fun id => nth (Z.to_nat id) row None) ids) rows), ids. split; [|split; [reflexivity|split; [now rewrite map_length|]]].
    + apply rmapM_ok. intros row I. apply rmapM_pyget. intros id Ii. rewrite (L row I). auto.
    + intros t row E. exists (map (fun id => nth (Z.to_nat id) row None) ids). split; [exact (map_nth_error (fun row => map (fun id => nth (Z.to_nat id) row None) ids) t rows E)|]. split; [now rewrite map_length|]. intros k id Ek. rewrite (map_nth_error _ _ _ Ek).
      assert (H : (Z.to_nat id < length row)%nat) by (rewrite (L row (nth_error_In _ _ E)); specialize (R id (nth_error_In _ _ Ek)); lia). split; [|exact H]. symmetry. now apply nth_error_nth'.
Qed.

(** C129: a picture of pressures or rates (any of their names, in capitals or not)
    shows in every frame the values of that step, the k-th value being that of the
    k-th cell of the drawn grid; other names are rejected. *)
Lemma L_C129_values :
  forall (g : grid) (s : fs R) (prop : string) (b : bool) (rows : list (list (fl R))), wf g ->
    ((In (lower prop) ["p"; "pressure"; "pressures"]%string /\ rows = s_p s) \/ (In (lower prop) ["q"; "rate"; "rates"]%string /\ rows = s_r s)) ->
    (forall row, In row rows -> length row = get_n g true) ->
    exists v ids, get_model_values g s prop b = Ok v /\ get_cells_id g b = Ok ids /\ length v = length rows /\
      forall t row, nth_error rows t = Some row ->
        exists out, nth_error v t = Some out /\ length out = length ids /\
          forall k id, nth_error ids k = Some id -> nth_error out k = nth_error row (Z.to_nat id) /\ (Z.to_nat id < length row)%nat.
Proof.
  intros g s prop b rows W H L. destruct (picture_rows g rows b W L) as (v & ids & E & R). exists v, ids. split; [|exact R]. rewrite <- E. unfold get_model_values, smem. destruct H as [(I & ->)|(I & ->)]; cbn in I; destruct I as [I|[I|[I|[]]]]; rewrite <- I; reflexivity.
Qed.
Example ex_C129_values_case :
  let g := mkGrid 2 1 1 false in
  let s := mkFs [[Some 1; Some 2; Some 3; Some 4]] [[Some 5; Some 6; Some 7; Some 8]] 1 0 [] [] None [] [] None None None in
  wf g /\ In (lower "Pressure") ["p"; "pressure"; "pressures"]%string /\ get_model_values g s "Pressure" false = Ok [[Some 2; Some 3]].
Proof.
  cbv zeta. split; [unfold wf; cbn; lia|]. split; [cbn; auto|]. lazy -[IZR]. reflexivity.
Qed.
Lemma L_C129_names :
  forall F (NF : Num F) (g : grid) (s : fs F) (prop : string) (b : bool),
    ~ In (lower prop) ["p"; "pressure"; "pressures"; "q"; "rate"; "rates"]%string -> get_model_values g s prop b = Err ValueError.
Proof.
  intros F NF g s prop b N. unfold get_model_values, smem.
  assert (H : forall l, (forall x, In x l -> In x ["p"; "pressure"; "pressures"; "q"; "rate"; "rates"]%string) -> existsb (String.eqb (lower prop)) l = false).
  { intros l I. destruct (existsb _ l) eqn:E; [|reflexivity]. apply existsb_exists in E as (x & Ix & E). apply String.eqb_eq in E. subst x. exfalso. now apply N, I. }
  rewrite (H ["p"; "pressure"; "pressures"]%string) by (cbn; tauto). rewrite (H ["q"; "rate"; "rates"]%string) by (cbn; tauto). reflexivity.
Qed.
Example ex_C129_names_case :
  ~ In (lower "Saturation") ["p"; "pressure"; "pressures"; "q"; "rate"; "rates"]%string.
Proof.
  cbn. intuition discriminate.
Qed.

(** C129: the colours range from the least to the greatest number shown in any step;
    two decimals are written exactly if one of the numbers is below 1. *)
Lemma L_C129_limits :
  forall values : list (fl R), (exists x, In (Some x) values) ->
    exists lo hi fmt, get_limits_fmt values = Ok (Some lo, Some hi, fmt) /\ In (Some lo) values /\ In (Some hi) values /\
      (forall x, In (Some x) values -> lo <= x <= hi) /\ (fmt = "%.2f"%string <-> exists x, In (Some x) values /\ x < 1).
Proof.
  intros values (x0 & I0). assert (N : known values <> []) by (intros E; apply in_known in I0; rewrite E in I0; exact I0).
  destruct (extremes values N) as (lo & hi & E1 & E2 & I1 & I2 & B). apply in_known in I1, I2. exists lo, hi. unfold get_limits_fmt. rewrite E1, E2. cbn [rbind fltb]. eexists. split; [reflexivity|]. split; [exact I1|]. split; [exact I2|]. split; [intros x Ix; apply B; now apply in_known|].
  change (nltb lo n1) with (Rltb lo 1). destruct (Rltb_case lo 1) as [(-> & H)|(-> & H)]; split; try discriminate; eauto. intros (x & Ix & Lx). apply in_known in Ix. specialize (B x Ix). lra.
Qed.
Example ex_C129_limits_case :
  exists x, In (Some x) [None; Some 2; Some 3].
Proof.
  exists 2. cbn. auto.
Qed.

(** C129: the colour bar marks the least, the mean and the greatest number, if there
    are two different numbers. *)
Lemma L_C129_marks_partial :
  forall values : list (fl R), (exists x y, In (Some x) values /\ In (Some y) values /\ x <> y) ->
    exists lo hi av, get_annotations values = Ok [(Some lo, "min"); (Some hi, "max"); (Some av, "avg")]%string /\
      In (Some lo) values /\ In (Some hi) values /\ (forall x, In (Some x) values -> lo <= x <= hi) /\
      lo < av < hi /\ is_mean av (numbers values).
Proof.
  intros values (x0 & y0 & I0 & J0 & D). assert (N : known values <> []) by (intros E; apply in_known in I0; rewrite E in I0; exact I0).
  destruct (extremes values N) as (lo & hi & E1 & E2 & I1 & I2 & B). destruct (mean_eq values N) as (av & E3 & M & P). apply in_known in I0, J0. pose proof (B x0 I0). pose proof (B y0 J0).
  assert (L : lo < hi) by (destruct (Rtotal_order x0 y0) as [?|[?|?]]; [lra|contradiction|lra]).
  destruct (sum_lo (known values) lo (fun x I => proj1 (B x I))) as (_ & S1). destruct (sum_hi (known values) hi (fun x I => proj2 (B x I))) as (_ & S2).
  assert (A1 : lo < av). { apply Rmult_lt_reg_r with (INR (length (known values))); [exact P|]. rewrite M. apply S1. eauto. }
  assert (A2 : av < hi). { apply Rmult_lt_reg_r with (INR (length (known values))); [exact P|]. rewrite M. apply S2. eauto. }
  exists lo, hi, av. split; [|split; [now apply in_known|split; [now apply in_known|split; [intros x Ix; apply B; now apply in_known|unfold is_mean; rewrite <- known_numbers; auto]]]].
  unfold get_annotations. rewrite E1, E2, E3. cbn. unfold nanmin. rewrite (Reqb_ne hi lo) by lra. cbn. rewrite (Reqb_ne av lo), (Reqb_ne av hi) by lra. reflexivity.
Qed.
Example ex_C129_marks_case :
  exists x y, In (Some x) [None; Some 2; Some 3] /\ In (Some y) [None; Some 2; Some 3] /\ x <> y.
Proof.
  exists 2, 3. split; [cbn; auto|]. split; [cbn; auto|lra].
Qed.
(** C129: in a picture of one number only, least and greatest are not marked. *)
Lemma L_C129_marks_refuted :
  forall c : R, exists values : list (fl R), In (Some c) values /\ get_annotations values = Ok [(Some c, "avg"%string)].
Proof.
  intros c. exists [Some c]. split; [now left|]. unfold get_annotations, nanmin, nanmax, extreme, nanmean. cbn. assert (E : Reqb c c = true) by now apply Reqb_true. rewrite E. cbn. replace ((0 + c) / 1) with c by field. rewrite E. reflexivity.
Qed.

(** C129: the camera looks at a plane of two axes; with at most two flow directions
    the flow is in that plane. *)
Lemma L_C129_camera :
  forall g : grid, wf g ->
    (exists a b, get_cdir g = [a; b] /\ a <> b /\ a <> ADash /\ b <> ADash) /\
    ((get_D g <= 2)%nat -> forall a, flows g a -> In a (get_cdir g)).
Proof.
  intros g W. assert (E : (get_D g <= 2)%nat -> forall a, In a (get_fdir g) -> a <> ADash -> In a (get_cdir g)).
  { intros H a. unfold get_cdir, get_fdir, fdir_of_shape. destruct (get_D g) as [|[|[|n]]]; [cbn; intuition congruence| | |lia].
    - destruct (argmax _) as [|[|n]]; cbn; intuition.
    - destruct (argmin _) as [|[|[|n]]]; cbn; intuition. }
  split; [|intros H a Fa; apply E; [exact H| |]].
  - unfold get_cdir, get_fdir, fdir_of_shape. destruct (get_D g) as [|[|[|n]]]; cbn -[argmax argmin shape_inner].
    + do 2 eexists; split; [reflexivity|]; repeat split; discriminate.
    + destruct (argmax _) as [|[|n]]; do 2 eexists; (split; [reflexivity|]); repeat split; discriminate.
    + destruct (argmin _) as [|[|[|n]]]; do 2 eexists; (split; [reflexivity|]); repeat split; discriminate.
    + do 2 eexists; split; [reflexivity|]; repeat split; discriminate.
  - pose proof (amem_fdir g a W) as M. unfold flows in Fa. assert (D : a <> ADash) by (intros ->; cbn in Fa; lia). specialize (M D). rewrite (proj2 (Nat.ltb_lt _ _) Fa) in M. unfold amem in M. apply existsb_exists in M as (x & Ix & Ex). destruct a, x; try discriminate Ex; exact Ix.
  - intros ->. unfold flows, size in Fa. lia.
Qed.
Example ex_C129_camera_case :
  wf (mkGrid 1 1 3 true) /\ get_fdir (mkGrid 1 1 3 true) = [AZ] /\ get_cdir (mkGrid 1 1 3 true) = [AX; AZ].
Proof.
  split; [unfold wf; cbn; lia|]. split; reflexivity.
Qed.

(** C129: the window's size depends on the name of the resolution up to capitals. *)
Lemma L_C129_window :
  forall r r' : string, lower r = lower r' -> get_window_size r = get_window_size r'.
Proof.
  intros r r' E. unfold get_window_size. now rewrite E.
Qed.
Example ex_C129_window_case :
  lower "FHD" = lower "fhd" /\ get_window_size "FHD" = Ok (1920, 1080)%Z.
Proof.
  split; reflexivity.
Qed.
(** C129: "8k" has twice the width of "4k", as "4k" has that of "fhd", but not twice the height. *)
Lemma L_C129_window_refuted :
  exists w h w' h' w'' h'' : Z, (get_window_size "fhd" = Ok (w, h)) /\ (get_window_size "4k" = Ok (w', h')) /\ (get_window_size "8k" = Ok (w'', h'')) /\
    w' = (2 * w)%Z /\ h' = (2 * h)%Z /\ w'' = (2 * w')%Z /\ h'' <> (2 * h')%Z.
Proof.
  do 6 eexists. split; [reflexivity|]. split; [reflexivity|]. split; [reflexivity|]. repeat split; discriminate.
Qed.

(** C129: the labels of a grid stand at the centres of the cells they belong to. *)
Lemma L_C129_labels_partial :
  forall x y z u (dx dy dz : dinput R) (G : geo R) (b : bool) (opacity : R), geo_new x y z u dx dy dz = Ok G -> opacity < 1 ->
    exists ids points, get_cells_id (gr G) b = Ok ids /\ Forall2 (fun id p => get_cell_center G (ById id) = Ok p) ids points /\
      (add_grid_labels G (Some "id"%string) opacity b = Ok (Some (points, Some (LbIds ids)))) /\
      (exists cs, add_grid_labels G (Some "coords"%string) opacity b = Ok (Some (points, Some (LbCoords cs))) /\
         Forall2 (fun id c => get_cell_coords (gr G) id true = Ok c) ids cs) /\
      (forall a name, In (a, name) [(AX, "dx"); (AY, "dy"); (AZ, "dz")]%string ->
         exists vs, add_grid_labels G (Some name) opacity b = Ok (Some (points, Some (LbNumbers vs))) /\
           Forall2 (fun id v => get_cell_d G a (ById id) = Ok v) ids vs) /\
      (forall a name, In (a, name) [(AX, "Ax"); (AX, "area_x"); (AY, "Ay"); (AY, "area_y"); (AZ, "Az"); (AZ, "area_z")]%string ->
         exists vs, add_grid_labels G (Some name) opacity b = Ok (Some (points, Some (LbNumbers vs))) /\
           Forall2 (fun id v => get_cell_A G a (ById id) = Ok v) ids vs) /\
      (forall name, In name ["V"; "volume"]%string ->
         exists vs, add_grid_labels G (Some name) opacity b = Ok (Some (points, Some (LbNumbers vs))) /\
           Forall2 (fun id v => get_cell_V G (ById id) = Ok v) ids vs) /\
      (forall name, In name ["center"; "centers"]%string -> add_grid_labels G (Some name) opacity b = Ok (Some (points, Some (LbPoints points)))) /\
      add_grid_labels G (Some "sphere"%string) opacity b = Ok (Some (points, None)) /\
      add_grid_labels G None opacity b = Ok None.
Proof.
  intros x y z u dx dy dz G b opacity E O. destruct (L_C12_arrays_follow_ids x y z u dx dy dz G b E) as (ids & Ei & Ha & (vs & Ev & Fv) & (ps & Ep & Fp)).
  assert (W : wf (gr G)). exact (b_wf _ _ _ _ _ _ _ _ (geo_new_built _ _ _ _ _ _ _ _ E)).
  destruct (cells_coords_mem (gr G) b W) as (cs & Ec & _). assert (Fc : Forall2 (fun id c => get_cell_coords (gr G) id true = Ok c) ids cs). { unfold get_cells_coords in Ec. rewrite Ei in Ec. cbn [rbind] in Ec. now apply rmapM_Forall2. }
  assert (L : nltb opacity n1 = true). { change (Rltb opacity 1 = true). now apply Rltb_true. }
  exists ids, ps. split; [exact Ei|]. split; [exact Fp|]. unfold add_grid_labels. rewrite Ep, L. cbn [rbind].
  split; [cbn; now rewrite Ei|]. split; [exists cs; split; [cbn; now rewrite Ec|exact Fc]|].
  split. { intros a name I. cbn in I. destruct I as [I|[I|[I|[]]]]; injection I as <- <-; match goal with |- context [get_cell_d G ?a] => destruct (Ha a ltac:(discriminate)) as ((ws & Ew & Fw) & _) end; exists ws; (split; [cbn; now rewrite Ew|exact Fw]). }
  split. { intros a name I. cbn in I. destruct I as [I|[I|[I|[I|[I|[I|[]]]]]]]; injection I as <- <-; match goal with |- context [get_cell_A G ?a] => destruct (Ha a ltac:(discriminate)) as (_ & (ws & Ew & Fw)) end; exists ws; (split; [cbn; now rewrite Ew|exact Fw]). }
  split. { intros name I. cbn in I. destruct I as [<-|[<-|[]]]; exists vs; (split; [cbn; now rewrite Ev|exact Fv]). }
  split. { intros name I. cbn in I. destruct I as [<-|[<-|[]]]; reflexivity. }
  split; reflexivity.
Qed.
Example ex_C129_labels_case :
  exists G : geo R, geo_new 2 1 1 true (Scalar 1) (Scalar 2) (Scalar 3) = Ok G /\ 1/2 < 1.
Proof.
  destruct (geo_new_ok 2 1 1 true (Scalar 1) (Scalar 2) (Scalar 3)) as (G & E); try exact I; try lia. exists G. split; [exact E|lra].
Qed.
Lemma icoords_shown g c : wf g -> in_grid g c -> (unify g = true \/ three_d g \/ interior g c) -> get_cell_icoords g c = Ok (shown_coords g c).
Proof.
  intros W I H. rewrite (icoords_in g c W I). destruct c as [[i j] k]. unfold shown_coords. destruct (unify g) eqn:U; [reflexivity|]. destruct H as [H|H]; [discriminate|]. cbn [negb andb].
  unfold get_D. cbn [map fold_left filter size]. unfold three_d, interior, flows, size in H.
  destruct H as [(Hx & Hy & Hz)|H].
  - apply Nat.ltb_lt in Hx, Hy, Hz. rewrite Hx, Hy, Hz. reflexivity.
  - pose proof (H AX ltac:(discriminate)) as Hx. pose proof (H AY ltac:(discriminate)) as Hy. pose proof (H AZ ltac:(discriminate)) as Hz. cbn [at_axis] in Hx, Hy, Hz. clear H.
    destruct (Nat.ltb_spec 1 (nx g)), (Nat.ltb_spec 1 (ny g)), (Nat.ltb_spec 1 (nz g)); cbn [Nat.add Nat.leb];
    repeat match goal with
    | |- context [filter (fun x => (0 <? x)%Z) (?a :: ?l)] => cbn [filter]
    | |- context [(0 <? ?a)%Z] => destruct (Z.ltb_spec 0 a); [|try lia]; try lia
    end; try reflexivity; exfalso; lia.
Qed.
(** C129: label "icoords" shows every cell's coordinates for numpy, for all cells if
    the grid has three flow directions or keeps three coordinates (unify), else for the
    interior cells. *)
Lemma L_C129_icoords_partial :
  forall x y z u (dx dy dz : dinput R) (G : geo R) (b : bool) (opacity : R), geo_new x y z u dx dy dz = Ok G -> opacity < 1 ->
    u = true \/ three_d (gr G) \/ b = false ->
    exists ids points ls, get_cells_id (gr G) b = Ok ids /\ Forall2 (fun id p => get_cell_center G (ById id) = Ok p) ids points /\
      (add_grid_labels G (Some "icoords"%string) opacity b = Ok (Some (points, Some (LbICoords ls)))) /\
      Forall2 (fun id l => exists c, get_cell_coords (gr G) id true = Ok c /\ l = shown_coords (gr G) c) ids ls.
Proof.
  intros x y z u dx dy dz G b opacity E O H. destruct (L_C12_arrays_follow_ids x y z u dx dy dz G b E) as (ids & Ei & _ & _ & (ps & Ep & Fp)).
  pose proof (geo_new_built _ _ _ _ _ _ _ _ E) as B. pose proof (b_wf _ _ _ _ _ _ _ _ B) as W. assert (U : unify (gr G) = u) by now rewrite (b_gr _ _ _ _ _ _ _ _ B).
  destruct (cells_coords_mem (gr G) b W) as (cs & Ec & K). assert (Fc : Forall2 (fun id c => get_cell_coords (gr G) id true = Ok c) ids cs). { unfold get_cells_coords in Ec. rewrite Ei in Ec. cbn [rbind] in Ec. now apply rmapM_Forall2. }
  assert (L : nltb opacity n1 = true). { change (Rltb opacity 1 = true). now apply Rltb_true. }
  exists ids, ps, (map (shown_coords (gr G)) cs). split; [exact Ei|]. split; [exact Fp|]. split.
  - unfold add_grid_labels. rewrite Ep, L. cbn [rbind]. cbn. rewrite Ec. cbn [rbind]. rewrite (rmapM_ok _ (shown_coords (gr G))); [reflexivity|].
    intros c Ic. assert (M : cmem c cs = true) by now apply cmem_In. rewrite K in M. apply icoords_shown; [exact W| |].
    + destruct b; [now apply gridb_true|apply interior_in_grid; [exact W|now apply interiorb_true]].
    + rewrite U. destruct H as [H|[H| ->]]; [now left|right; now left|right; right; now apply interiorb_true].
  - clear -Fc. induction Fc; constructor; eauto.
Qed.
Example ex_C129_icoords_case :
  exists G : geo R, geo_new 2 1 1 false (Scalar 1) (Scalar 2) (Scalar 3) = Ok G /\ 1/2 < 1 /\ shown_coords (gr G) (2, 0, 0)%Z = [2%Z].
Proof.
  destruct (geo_new_ok 2 1 1 false (Scalar 1) (Scalar 2) (Scalar 3)) as (G & E); try exact I; try lia. exists G. split; [exact E|]. split; [lra|]. rewrite (b_gr _ _ _ _ _ _ _ _ (geo_new_built _ _ _ _ _ _ _ _ E)). reflexivity.
Qed.
Lemma icoords_raise g : wf g -> unify g = false -> (1 <= get_D g <= 2)%nat -> exists cs, get_cells_coords g true = Ok cs /\ rmapM (get_cell_icoords g) cs = Err AssertionError.
Proof.
  intros H U D.
  destruct (cells_coords_mem g true H) as (cs & E & M). exists cs. split; [exact E|].
  assert (X : exists cs', cs = (0, 0, 0)%Z :: cs').
  { destruct (coords_inv _ _ _ E) as (l & El & Ec). rewrite cells_id_true in El. injection El as <-.
    assert (P0 : (0 < get_n g true)%nat).
    { rewrite get_n_true by auto. destruct H as (Hx & Hy & Hz). apply pad_pos in Hx, Hy, Hz. nia. }
    destruct (get_n g true) as [|n] eqn:En; [lia|]. cbn [arange seq map rmapM Z.of_nat] in Ec.
    replace (get_cell_coords g 0 true) with (Ok (0, 0, 0)%Z) in Ec.
    - cbn [rbind] in Ec. destruct (rmapM _ (map Z.of_nat (seq 1 n))); [|discriminate].
      injection Ec as <-. eauto.
    - symmetry. unfold get_cell_coords. unfold get_n in En. rewrite get_shape_true in * by auto.
      cbn [prodn fold_right] in En. unfold pv_cell_coords.
      destruct H as (Hx & Hy & Hz). apply pad_pos in Hx, Hy, Hz.
      destruct (Z.ltb_spec 0 (Z.of_nat (pad (nx g)) * Z.of_nat (pad (ny g)) * Z.of_nat (pad (nz g)))%Z) as [|X];
        [|exfalso; nia].
      reflexivity. }
  destruct X as [cs' ->]. cbn [rmapM].
  replace (get_cell_icoords g (0, 0, 0)%Z) with (@Err (list Z) AssertionError); [reflexivity|].
  unfold get_cell_icoords. rewrite E. cbn [rbind].
  replace (cmem (0, 0, 0)%Z ((0, 0, 0)%Z :: cs')) with true by (symmetry; apply cmem_In; simpl; auto).
  cbn [passert rbind]. rewrite U. cbn [negb andb].
  destruct (Nat.leb_spec (get_D g) 2); [|lia]. cbn [filter Z.ltb Z.compare length].
  destruct (get_D g); [lia|]. reflexivity.
Qed.
(** C129: label "icoords", which the documentation offers, cannot be shown for the
    boundary cells of a grid with one or two flow directions without unify. *)
Lemma L_C129_labels_refuted :
  forall x y z (dx dy dz : dinput R) (G : geo R) (opacity : R), geo_new x y z false dx dy dz = Ok G -> opacity < 1 ->
    has_flow (gr G) -> ~ three_d (gr G) -> add_grid_labels G (Some "icoords"%string) opacity true = Err AssertionError.
Proof.
  intros x y z dx dy dz G opacity E O Fl T. destruct (L_C12_arrays_follow_ids _ _ _ _ _ _ _ G true E) as (_ & _ & _ & _ & (ps & Ep & _)). pose proof (geo_new_built _ _ _ _ _ _ _ _ E) as B.
  assert (L : nltb opacity n1 = true). { change (Rltb opacity 1 = true). now apply Rltb_true. }
  assert (D : (1 <= get_D (gr G) <= 2)%nat). { clear -Fl T. unfold has_flow, three_d, flows, size in *. unfold get_D. cbn [map fold_left]. destruct (Nat.ltb_spec 1 (nx (gr G))), (Nat.ltb_spec 1 (ny (gr G))), (Nat.ltb_spec 1 (nz (gr G))); lia. }
  assert (U : unify (gr G) = false) by now rewrite (b_gr _ _ _ _ _ _ _ _ B).
  destruct (icoords_raise (gr G) (b_wf _ _ _ _ _ _ _ _ B) U D) as (cs & Ec & Ei). unfold add_grid_labels. rewrite Ep, L. cbn [rbind]. cbv zeta. change (String.eqb "icoords" "coords") with false. change (String.eqb "icoords" "icoords") with true. rewrite Ec. cbn [rbind]. rewrite Ei. reflexivity.
Qed.
Example ex_C129_labels_fail :
  exists G : geo R, geo_new 2 1 1 false (Scalar 1) (Scalar 2) (Scalar 3) = Ok G /\ 1/2 < 1 /\ has_flow (gr G) /\ ~ three_d (gr G).
Proof.
  destruct (geo_new_ok 2 1 1 false (Scalar 1) (Scalar 2) (Scalar 3)) as (G & E); try exact I; try lia. exists G. split; [exact E|]. split; [lra|]. rewrite (b_gr _ _ _ _ _ _ _ _ (geo_new_built _ _ _ _ _ _ _ _ E)). unfold has_flow, three_d, flows, size. cbn. split; [left|]; lia.
Qed.
Lemma follow_at {A} (P : Z -> A -> Prop) n vs id : Forall2 P (arange n) vs -> (0 <= id < Z.of_nat n)%Z -> exists v, P id v.
Proof.
  intros H R. assert (I : In id (arange n)). { unfold arange. apply in_map_iff. exists (Z.to_nat id). split; [lia|]. apply in_seq. lia. }
  induction H as [|a v l vs Pv F IH]; [contradiction|]. destruct I as [<-|I]; eauto.
Qed.
(** C129: every well is drawn as an upright cylinder with the well's radius, ten times
    as high as its cell, through the centre of its cell. *)
Lemma L_C129_wells :
  forall x y z u (dx dy dz : dinput R) (G : geo R) (half : R -> R) (wells : list (Z * well R)), geo_new x y z u dx dy dz = Ok G ->
    (forall id w, In (id, w) wells -> (0 <= id < Z.of_nat (get_n (gr G) true))%Z /\ w_r w <> None) ->
    exists cylinders, add_wells half G wells = Ok cylinders /\
      Forall2 (fun iw cyl => exists cx cy cz d r, get_cell_center G (ById (fst iw)) = Ok (cx, cy, cz) /\ get_cell_d G AZ (ById (fst iw)) = Ok d /\
        w_r (snd iw) = Some r /\ cyl = ((cx, cy, cz + half (d * 10)), r, d * 10)) wells cylinders.
Proof.
  intros x y z u dx dy dz G half wells E H. destruct (L_C12_arrays_follow_ids x y z u dx dy dz G true E) as (ids & Ei & Ha & _ & (ps & Ep & Fp)). injection Ei as <-.
  destruct (Ha AZ ltac:(discriminate)) as ((ds & Ed & Fd) & _). unfold add_wells. rewrite Ep. cbn [rbind].
  induction wells as [|[id w] l IH]; [exists []; split; [reflexivity|constructor]|].
  destruct IH as (cl & El & Fl); [intros; apply H; now right|]. destruct (H id w (or_introl eq_refl)) as (Ri & Rw). destruct (w_r w) as [r|] eqn:Er; [|congruence].
  destruct (follow_at _ _ _ id Fd Ri) as (d & Hd). destruct (follow_at _ _ _ id Fp Ri) as ([[cx cy] cz] & Hc).
  eexists. split.
  - cbn [rmapM fst snd]. pose proof Hd as Hd'. unfold get_cell_d, cell_lookup in Hd'. rewrite Hd'. cbn [rbind]. pose proof Hc as Hc'. unfold get_cell_center, cell_lookup in Hc'. rewrite Ep in Hc'. cbn [rbind] in Hc'. rewrite Hc'. cbn [rbind]. rewrite Er. cbn [keyE rbind]. rewrite El. cbn [rbind]. reflexivity.
  - constructor; [|exact Fl]. exists cx, cy, cz, d, r. auto.
Qed.
Example ex_C129_wells_case :
  exists G : geo R, geo_new 2 1 1 true (Scalar 1) (Scalar 2) (Scalar 3) = Ok G /\
  forall id w, In (id, w) [(1%Z, mkWell None None None None None (Some 3) None None None)] -> (0 <= id < Z.of_nat (get_n (gr G) true))%Z /\ w_r w <> None.
Proof.
  destruct (geo_new_ok 2 1 1 true (Scalar 1) (Scalar 2) (Scalar 3)) as (G & E); try exact I; try lia. exists G. split; [exact E|]. rewrite (b_gr _ _ _ _ _ _ _ _ (geo_new_built _ _ _ _ _ _ _ _ E)).
  intros id w [A|[]]. injection A as <- <-. split; [vm_compute; split; [discriminate|reflexivity]|discriminate].
Qed.
Lemma in_dget {A} (d : list (Z * A)) id w : NoDup (dkeys d) -> In (id, w) d -> dget id d = Some w.
Proof.
  induction d as [|[k v] d IH]; intros N I; [contradiction|]. cbn in *. inversion N as [|? ? N1 N2]; subst. destruct I as [I|I].
  - injection I as -> ->. now rewrite Z.eqb_refl.
  - destruct (Z.eqb_spec id k) as [->|]; [|auto]. exfalso. apply N1. apply in_map_iff. exists (k, w). auto.
Qed.
(** C129: all wells placed in any sequence of successful calls are drawn so. *)
Lemma L_C129_wells_drawn :
  forall x y z u (dx dy dz : dinput R) (half : R -> R) (m0 m : bo R) so l, geo_new x y z u dx dy dz = Ok (geom (b_grid m0)) ->
    get_cells_id (bgrid m0) false = Ok (b_ids m0) -> b_wells m0 = [] -> all_ok (m0, None) l -> after (m0, None) l = (m, so) ->
    let G := geom (b_grid m0) in
    exists cylinders, add_wells half G (b_wells m) = Ok cylinders /\
      Forall2 (fun iw cyl => exists cx cy cz d r, get_cell_center G (ById (fst iw)) = Ok (cx, cy, cz) /\ get_cell_d G AZ (ById (fst iw)) = Ok d /\
        w_r (snd iw) = Some r /\ cyl = ((cx, cy, cz + half (d * 10)), r, d * 10)) (b_wells m) cylinders.
Proof.
  intros x y z u dx dy dz half m0 m so l E Ei W0 A Ea G. apply (L_C129_wells x y z u dx dy dz G half (b_wells m) E).
  assert (W : wf (gr G)) by exact (b_wf _ _ _ _ _ _ _ _ (geo_new_built _ _ _ _ _ _ _ _ E)).
  assert (K : wkeys (b_ids m0) (m, so)). { rewrite <- Ea. apply wk_after. unfold wkeys. cbn [fst]. rewrite W0. split; [reflexivity|]. split; [constructor|intros id []]. }
  assert (Ra : radall (m, so)). { rewrite <- Ea. apply rad_after; [exact A|]. intros id w _. cbn [fst]. rewrite W0. discriminate. }
  destruct K as (_ & K2 & K3). cbn [fst] in *. intros id w I. split.
  - assert (J : In id (b_ids m0)) by (apply K3, in_map_iff; exists (id, w); auto). unfold bgrid in Ei. change (ggrid (b_grid m0)) with (gr G) in Ei. rewrite (cells_id_false (gr G) W) in Ei. injection Ei as Ei. rewrite <- Ei in J. now apply id_range.
  - apply (Ra id w Logic.I). cbn [fst]. now apply in_dget.
Qed.
Example ex_C129_wells_drawn_case :
  exists (m0 m : bo R) s, geo_new 3 1 1 true (Scalar 1) (Scalar 1) (Scalar 1) = Ok (geom (b_grid m0)) /\ get_cells_id (bgrid m0) false = Ok (b_ids m0) /\ b_wells m0 = [] /\
    all_ok (m0, None) [set_q; Compile] /\ after (m0, None) [set_q; Compile] = (m, Some s) /\ b_wells m <> [].
Proof.
  destruct line3q_built as (G & req & HG & E). exists (line3 (1 + 0) true (Some 10)), (line3q G req), (fdm_new (line3q G req)).
  split; [reflexivity|]. split; [reflexivity|]. split; [reflexivity|].
  assert (H : all_ok (line3 (1 + 0) true (Some 10), None) [set_q; Compile] /\ after (line3 (1 + 0) true (Some 10), None) [set_q; Compile] = (line3q G req, Some (fdm_new (line3q G req)))).
  { eapply exec_step; [exact E|]. eapply exec_step; [reflexivity|]. split; [exact Logic.I|reflexivity]. }
  destruct H as (Ha & Hb). split; [exact Ha|]. split; [exact Hb|discriminate].
Qed.
Lemma pyget_seq {A} (l : list A) : rmapM (fun t => pyget l (Z.of_nat t)) (seq 0 (length l)) = Ok l.
Proof.
  destruct l as [|d l0]; [reflexivity|]. set (l := d :: l0). rewrite (rmapM_ok _ (fun t => nth t l d)).
  - f_equal. clearbody l. clear l0. assert (H : forall k m, map (fun t => nth t (k ++ m) d) (seq (length k) (length m)) = m).
    { intros k m. revert k. induction m as [|a m IH]; intros k; [reflexivity|]. cbn [length seq map]. f_equal; [rewrite app_nth2 by lia; now rewrite Nat.sub_diag|]. specialize (IH (k ++ [a])). rewrite app_length, <- app_assoc in IH. cbn in IH. rewrite Nat.add_1_r in IH. exact IH. }
    exact (H [] l).
  - intros t I. apply in_seq in I. apply pyget_nth. lia.
Qed.
(** C129: the frames of an animation are all the steps of the simulation in their
    order, after calls without errors and without direct calls of solve. *)
Lemma L_C129_frames_partial :
  forall F (NF : Num F) (NT : NumT F) (m0 : bo F) l m s g prop b v, all_ok (m0, None) l -> after (m0, None) l = (m, Some s) -> Forall no_solve l ->
    get_model_values g s prop b = Ok v -> gif_frames g s prop b = Ok v /\ length v = length (s_p s).
Proof.
  intros F NF NT m0 l m s g prop b v A E N V. destruct (L_C50_rows_partial F NF NT m0 l m s A E) as (L1 & L2 & L3). specialize (L3 N).
  assert (L : length v = length (s_p s)).
  { unfold get_model_values in V. destruct (smem (lower prop) ["p"; "pressure"; "pressures"]%string); [|destruct (smem (lower prop) ["q"; "rate"; "rates"]%string); [|discriminate]]; cbn [rbind] in V; (destruct b; [injection V as <-; congruence|]); destruct (get_cells_id g false); cbn [rbind] in V; try discriminate; apply ScaleFacts.rmapM_len in V; congruence. }
  split; [|exact L]. unfold gif_frames. rewrite V. cbn [rbind]. replace (s_nsteps s) with (length v) by congruence. apply pyget_seq.
Qed.
Example ex_C129_frames_case :
  exists (m0 : bo R) m s, build 3 1 1 None 1%R (Some 10%R) None = Ok m0 /\
  let l := [Compile; Run (fun _ _ _ => Ok [Some 10%R; Some 10%R; Some 10%R]) one 3 9 true false true false false None] in
  all_ok (m0, None) l /\ Forall no_solve l /\ after (m0, None) l = (m, Some s) /\ s_tstep s = 3%nat.
Proof.
  exact ex_C50_case.
Qed.
(** C129: after a direct call of solve the animation lacks the last step. *)
Lemma L_C129_frames_refuted :
  exists (m0 : bo R) slv sc m s (v w : list (list (fl R))), build 3 1 1 None 1%R (Some 10%R) None = Ok m0 /\
  let l := [Compile; Solve slv sc 9 true (mkOpts false true false true false None)] in
  all_ok (m0, None) l /\ after (m0, None) l = (m, Some s) /\
  get_model_values (mkGrid 3 1 1 true) s "p" true = Ok v /\ gif_frames (mkGrid 3 1 1 true) s "p" true = Ok w /\ length v = 2%nat /\ length w = 1%nat.
Proof.
  destruct L_C50_nsteps_refuted as (m0 & slv & sc & m & s & B & A & E & L & _ & N). exists m0, slv, sc, m, s. destruct (s_p s) as [|r1 [|r2 [|r3 r]]] eqn:Ep; try discriminate L. exists [r1; r2], [r1]. split; [exact B|]. cbv zeta. split; [exact A|]. split; [exact E|]. unfold gif_frames, get_model_values. cbn [lower]. rewrite Ep, N. split; [reflexivity|]. split; [reflexivity|]. split; reflexivity.
Qed.
