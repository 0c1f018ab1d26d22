(** Proofs about the matrix of geometry factors. *)
From Coq Require Import String ZArith Bool Arith List Lia Reals Lra.
From Verif Require Import Prelude PreludeFacts Num GridModel GridSpec GridProofs GridNeighbors
  GeoModel GeoSpec TabFacts GeoProofs PropModel PropSpec PropProofs TransProofs.
Import ListNotations.
Close Scope R_scope.
Open Scope nat_scope.

(** ** Banded matrices *)
Definition band (v : nat -> R) (k p q : nat) : R := (if q =? p + k then v p else 0)%R.

Lemma mat_add_ok (a b : mat (F:=R)) : msize a = msize b ->
  mat_add a b = Ok (mkMat (msize a) (fun i j => (ment a i j + ment b i j)%R)).
Proof. intros H. unfold mat_add. now rewrite H, Nat.eqb_refl. Qed.

Lemma zero_at_one (l : list R) n : n < length l -> zero_at [n] l = Ok (upd l n 0%R).
Proof. intros. unfold zero_at. cbn [fold_left rbind]. now apply pyset_nat. Qed.

Lemma radix_succ m u v u' v' : u < m -> u' < m -> u' + m * v' = u + m * v + 1 ->
  (v' = v /\ u' = u + 1) \/ (v' = v + 1 /\ u' = 0 /\ u + 1 = m).
Proof.
  intros Hu Hu' E. destruct (Nat.eq_dec (u + 1) m) as [Em|Em].
  - right. destruct (Nat.div_mod_unique m v' (v + 1) u' 0 Hu' ltac:(lia) ltac:(lia)). lia.
  - left. destruct (Nat.div_mod_unique m v' v u' (u + 1) Hu' ltac:(lia) ltac:(lia)). lia.
Qed.
Lemma radix_mod m u v : u < m -> (S (u + m * v) mod m =? 0) = (u + 1 =? m).
Proof.
  intros Hu. destruct (Nat.eqb_spec (u + 1) m) as [E|E].
  - replace (S (u + m * v)) with (0 + (v + 1) * m) by nia. rewrite Nat.mod_add by lia. rewrite Nat.mod_small by lia. reflexivity.
  - replace (S (u + m * v)) with (S u + v * m) by nia. rewrite Nat.mod_add by lia. rewrite Nat.mod_small by lia. reflexivity.
Qed.
Lemma radix_add m u v u' v' : u < m -> u' < m -> u' + m * v' = u + m * v + m -> u' = u /\ v' = v + 1.
Proof.
  intros Hu Hu' E. destruct (Nat.div_mod_unique m v' (v + 1) u' u Hu' Hu ltac:(lia)). lia.
Qed.
Lemma radix_eq m u v u' v' : u < m -> u' < m -> u' + m * v' = u + m * v -> u' = u /\ v' = v.
Proof. intros Hu Hu' E. destruct (Nat.div_mod_unique m v' v u' u Hu' Hu ltac:(lia)). lia. Qed.
Section mat.
Context (o : gobj R) (x y z : nat) (u : bool) (dx dy dz : dinput R) (K : rock o x y z u dx dy dz).
Let g := gr (geom o).
Context (b : bool).
Let N := get_n g b.
Definition cnt (a : axis) : nat := count (size g a) b.
Definition strd (a : axis) : nat :=
  match a with AX => 1 | AY => count (nx g) b | _ => count (nx g) b * count (ny g) b end.
Definition dflt : R * R * R := (0, 0, 0)%R.
Definition arr (a : axis) : list (R * R * R) := per_in g b (cv o dx dy dz a).
(** Entries cleared by the code. *)
Definition cleared (fd : list axis) (a : axis) (p : nat) : bool :=
  match fd with
  | [AX; AY; AZ] => match a with
                    | AX => S p mod cnt AX =? 0
                    | AY => p =? cnt AX * cnt AY - cnt AX
                    | _ => false end
  | a0 :: _ => match a0, a with
               | AX, AX | AY, AY => S p mod cnt a =? 0
               | _, _ => false end
  | [] => false
  end.
Context (f : R * R * R -> R * R * R -> R) (Ef : G_vect o = Ok f).
Definition vent (a : axis) (p : nat) : R :=
  if cleared (get_fdir g) a p then 0%R else f (nth p (arr a) dflt) (nth (p + strd a) (arr a) dflt).
Definition sent (a : axis) (p q : nat) : R := (band (vent a) (strd a) p q + band (vent a) (strd a) q p)%R.
Fixpoint sumR (l : list R) : R := match l with [] => 0 | r :: l => r + sumR l end%R.

Lemma arr_length a : length (arr a) = N.
Proof. unfold arr. apply per_in_length. apply (rk_wf _ _ _ _ _ _ _ _ K). Qed.
Lemma cnt_N : wf g -> N = cnt AX * cnt AY * cnt AZ.
Proof. intros. unfold N. now rewrite get_n_count. Qed.
Lemma cnt_pos a : wf g -> a <> ADash -> 1 <= cnt a.
Proof. intros (?&?&?) ?. unfold cnt. destruct a; try congruence; now apply count_pos. Qed.
Lemma cnt_one a : wf g -> a <> ADash -> ~ flows g a -> cnt a = 1.
Proof.
  intros (?&?&?) ? Hn. unfold cnt, flows in *. destruct a; try congruence; apply count_one; cbn [size] in *; auto.
Qed.
Lemma cnt_flow a : flows g a -> 1 < cnt a.
Proof. intros. unfold cnt. now apply count_flow. Qed.

(** A diagonal, as a banded matrix. *)
Lemma bands_ok (v : list R) k (w : nat -> R) : 1 <= k -> k <= N -> length v = N - k ->
  (forall p, p + k < N -> nth p v 0%R = w p) ->
  msize (diag_up v k) = N /\ msize (diag_dn v k) = N /\
  forall p q, p < N -> q < N ->
    ment (diag_up v k) p q = band w k p q /\ ment (diag_dn v k) p q = band w k q p.
Proof.
  intros Hk Hn L H. unfold diag_up, diag_dn, band. cbn [msize ment]. split; [lia|]. split; [lia|].
  intros p q Hp Hq. split.
  - destruct (Nat.eqb_spec q (p + k)); auto. apply H. lia.
  - destruct (Nat.eqb_spec p (q + k)); auto. apply H. lia.
Qed.

Lemma diag_1_ok a0 fd : get_fdir g = a0 :: fd -> flows g a0 -> 1 <= N -> exists v,
  get_cells_G_diag_1 o b = Ok v /\ length v = N - 1 /\
  forall p, p + 1 < N -> nth p v 0%R = f (nth p (arr a0) dflt) (nth (p + 1) (arr a0) dflt).
Proof.
  intros E Fl HN. unfold get_cells_G_diag_1, get_cells_G_diag_1_with, ggrid. change (G_vect_with (is_isotropic o) o) with (G_vect o). fold g. rewrite E. cbn [nth].
  rewrite (kAd_canon _ _ _ _ _ _ _ _ K) by auto. fold g. cbn [rbind]. rewrite Ef. cbn [rbind]. unfold cellv in *.
  fold (arr a0). destruct (slices_1 (arr a0)) as (-> & ->). eexists. split; [reflexivity|].
  rewrite diag_length, arr_length. split; auto. intros p Hp.
  rewrite <- (arr_length a0). apply (nth_diag f (arr a0) 1 p dflt 0%R); rewrite arr_length; lia.
Qed.
Lemma diag_2_ok a0 a1 fd v : wf g -> get_fdir g = a0 :: a1 :: fd -> (a0 = AX \/ a0 = AY) -> flows g a1 -> 2 <= get_D g ->
  length v = N - 1 -> cnt a0 <= N -> exists v1 v2,
  get_cells_G_diag_2 o b (Some v) = Ok (Some v1, v2, cnt a0) /\
  length v1 = N - 1 /\ length v2 = N - cnt a0 /\
  (forall p, p + 1 < N -> nth p v1 0%R = if S p mod cnt a0 =? 0 then 0%R else nth p v 0%R) /\
  (forall p, p + cnt a0 < N -> nth p v2 0%R = f (nth p (arr a1) dflt) (nth (p + cnt a0) (arr a1) dflt)).
Proof.
  intros W E Ha0 Fl HD L HN. unfold get_cells_G_diag_2, get_cells_G_diag_2_with, ggrid. change (G_vect_with (is_isotropic o) o) with (G_vect o). fold g. rewrite E. cbn [nth].
  destruct (Nat.leb_spec 2 (get_D g)); [|lia]. cbn [passert rbind].
  assert (Em : (match a0 with
            | AX => Ok (if b then nx_b g else nx g)
            | AY => Ok (if b then ny_b g else ny g)
            | _ => Err UnboundLocalError
            end) = Ok (cnt a0)).
  { unfold cnt, count. destruct Ha0; subst a0; cbn [size]; destruct b; auto; f_equal;
    rewrite ?nx_b_spec, ?ny_b_spec by auto; rewrite <- pad_padded; lia. }
  rewrite Em. cbn [rbind]. rewrite (kAd_canon _ _ _ _ _ _ _ _ K) by auto. fold g. cbn [rbind]. rewrite Ef. cbn [rbind]. unfold cellv in *.
  fold (arr a1). cbn [option_map]. fold N. exists (zero_every (cnt a0 - 1) (cnt a0) v). eexists.
  split; [reflexivity|]. split; [now rewrite zero_every_length|].
  rewrite <- (arr_length a1), diag_length. split; auto. rewrite !arr_length.
  assert (1 <= cnt a0) by (apply cnt_pos; auto; destruct Ha0; subst; congruence).
  split.
  - intros p Hp. change 0%R with (@n0 R Num_R). rewrite nth_zero_every by lia. now rewrite zero_every_mod.
  - intros p Hp. rewrite <- (arr_length a1) at 1. apply (nth_diag f (arr a1)); rewrite arr_length; lia.
Qed.

Lemma diag_3_ok v : wf g -> get_fdir g = [AX; AY; AZ] -> flows g AX -> flows g AY -> flows g AZ -> get_D g = 3 ->
  length v = N - cnt AX -> exists v2 v3,
  get_cells_G_diag_3 o b (Some v) = Ok (Some v2, v3, cnt AX * cnt AY) /\
  length v2 = N - cnt AX /\ length v3 = N - cnt AX * cnt AY /\
  (forall p, p + cnt AX < N -> nth p v2 0%R = if p =? cnt AX * cnt AY - cnt AX then 0%R else nth p v 0%R) /\
  (forall p, p + cnt AX * cnt AY < N ->
     nth p v3 0%R = f (nth p (arr AZ) dflt) (nth (p + cnt AX * cnt AY) (arr AZ) dflt)).
Proof.
  intros W E Fx Fy Fz HD L. unfold get_cells_G_diag_3, get_cells_G_diag_3_with, ggrid. change (G_vect_with (is_isotropic o) o) with (G_vect o). fold g. rewrite E, HD. cbn [Nat.eqb passert rbind].
  unfold py_last. cbn [length Nat.sub nth].
  assert (Ex : (if b then nx_b g else nx g) = cnt AX).
  { unfold cnt, count. destruct b; auto. rewrite nx_b_spec by auto. rewrite <- pad_padded. cbn [size]. lia. }
  assert (Ey : (if b then ny_b g else ny g) = cnt AY).
  { unfold cnt, count. destruct b; auto. rewrite ny_b_spec by auto. rewrite <- pad_padded. cbn [size]. lia. }
  assert (Ez : (if b then nz_b g else nz g) = cnt AZ).
  { unfold cnt, count. destruct b; auto. rewrite nz_b_spec by auto. rewrite <- pad_padded. cbn [size]. lia. }
  rewrite Ex, Ey, Ez. pose proof (cnt_flow _ Fx). pose proof (cnt_flow _ Fy). pose proof (cnt_flow _ Fz).
  pose proof (cnt_N W) as EN.
  set (cx := cnt AX) in *. set (cy := cnt AY) in *. set (cz := cnt AZ) in *.
  assert (cx <= cx * cy) by nia.
  rewrite arange_step_one by lia. cbn [map rmap]. rewrite Nat.add_0_r.
  assert (Hlt : cx * cy - cx < length v) by (rewrite L; nia).
  rewrite zero_at_one by auto. cbn [rmap rbind].
  rewrite (kAd_canon _ _ _ _ _ _ _ _ K) by auto. fold g. cbn [rbind]. rewrite Ef. cbn [rbind]. unfold cellv in *.
  fold (arr AZ). exists (upd v (cx * cy - cx) 0%R). eexists. split; [reflexivity|].
  split; [now rewrite upd_length|]. rewrite <- EN. rewrite <- (arr_length AZ), diag_length. split; auto.
  rewrite !arr_length. split.
  - intros p Hp. destruct (Nat.eqb_spec p (cx * cy - cx)) as [->|Ne].
    + apply nth_upd_same. auto.
    + apply nth_upd_other. auto.
  - intros p Hp. rewrite <- (arr_length AZ) at 1. apply (nth_diag f (arr AZ)); rewrite arr_length; lia.
Qed.

(** The matrix entries. *)
Lemma mat_canon : has_flow g -> exists M, get_cells_G o b = Ok M /\ msize M = N /\
  forall p q, p < N -> q < N -> ment M p q = sumR (map (fun a => sent a p q) (get_fdir g)).
Proof.
  intros HF. pose proof (rk_wf _ _ _ _ _ _ _ _ K) as W. fold g in W.
  pose proof (cnt_N W) as EN.
  pose proof (cnt_pos AX W ltac:(congruence)) as Px. pose proof (cnt_pos AY W ltac:(congruence)) as Py.
  pose proof (cnt_pos AZ W ltac:(congruence)) as Pz.
  assert (HN : 1 <= N) by nia.
  assert (Fd : get_fdir g = flow_axes g /\ get_D g = length (flow_axes g)).
  { rewrite get_fdir_spec, get_D_spec by auto. split; auto. unfold has_flow, flows in HF. cbn [size] in HF.
    unfold flow_axes. destruct (Nat.ltb_spec 1 (nx g)), (Nat.ltb_spec 1 (ny g)), (Nat.ltb_spec 1 (nz g)); try lia; reflexivity. }
  destruct Fd as (Fd & HD).
  assert (P : (exists a0, flow_axes g = [a0] /\ flows g a0 /\ strd a0 = 1 /\ cnt a0 = N) \/
    (exists a0 a1, flow_axes g = [a0; a1] /\ (a0 = AX /\ (a1 = AY \/ a1 = AZ) \/ a0 = AY /\ a1 = AZ) /\
       flows g a0 /\ flows g a1 /\ strd a0 = 1 /\ strd a1 = cnt a0) \/
    (flow_axes g = [AX; AY; AZ] /\ flows g AX /\ flows g AY /\ flows g AZ)).
  { pose proof (cnt_one AX W ltac:(congruence)) as Ox. pose proof (cnt_one AY W ltac:(congruence)) as Oy.
    pose proof (cnt_one AZ W ltac:(congruence)) as Oz.
    unfold flow_axes, has_flow, flows, cnt, strd in *. cbn [size] in *.
    destruct (Nat.ltb_spec 1 (nx g)), (Nat.ltb_spec 1 (ny g)), (Nat.ltb_spec 1 (nz g)); cbn [app] in *; try lia;
    repeat match goal with h : _ <= 1, h' : ~ _ -> _ |- _ => specialize (h' ltac:(lia)) end.
    - right; right. auto.
    - right; left. exists AX, AY. repeat split; auto.
    - right; left. exists AX, AZ. repeat split; auto. rewrite Oy. cbn [size]. lia.
    - left. exists AX. repeat split; auto. cbn [size]. lia.
    - right; left. exists AY, AZ. repeat split; auto. rewrite Ox. cbn [size]. lia.
    - left. exists AY. repeat split; auto. cbn [size]. lia.
    - left. exists AZ. repeat split; auto. rewrite Ox, Oy. lia. cbn [size]. lia. }
  unfold get_cells_G, get_cells_G_with, ggrid. fold g. rewrite HD.
  change (get_cells_G_diag_1_with (is_isotropic o) o) with (get_cells_G_diag_1 o).
  change (get_cells_G_diag_2_with (is_isotropic o) o) with (get_cells_G_diag_2 o).
  change (get_cells_G_diag_3_with (is_isotropic o) o) with (get_cells_G_diag_3 o).
  destruct P as [(a0 & E & F0 & S0 & C0)|[(a0 & a1 & E & A01 & F0 & F1 & S0 & S1)|(E & Fx & Fy & Fz)]].
  - rewrite E in *. cbn [length Nat.eqb]. rewrite Fd.
    destruct (diag_1_ok a0 [] Fd F0 HN) as (v & -> & L & H). cbn [rbind].
    pose proof (cnt_flow _ F0).
    destruct (bands_ok v 1 (vent a0) ltac:(lia) HN L) as (M1 & M2 & Hb).
    { intros p Hp. rewrite H by auto. unfold vent. rewrite Fd, S0.
      assert (Cl : cleared [a0] a0 p = false).
      { unfold cleared. destruct a0; auto; rewrite Nat.mod_small by lia; reflexivity. }
      now rewrite Cl. }
    rewrite mat_add_ok by congruence. eexists. split; [reflexivity|]. cbn [msize ment]. split; auto.
    intros p q Hp Hq. destruct (Hb p q Hp Hq) as (-> & ->). cbn [map sumR]. unfold sent. rewrite S0. lra.
  - rewrite E in *. cbn [length Nat.eqb]. rewrite Fd.
    destruct (diag_1_ok a0 _ Fd F0 HN) as (v & -> & L & H). cbn [rbind].
    assert (CN : cnt a0 <= N).
    { assert (Le : forall a b c, 1 <= a -> 1 <= b -> 1 <= c -> a <= a * b * c /\ b <= a * b * c).
      { clear. intros a b c Ha Hb Hc. assert (1 <= a * b) by nia. split; nia. }
      rewrite EN. destruct A01 as [(-> & _)|(-> & _)]; apply Le; auto. }
    destruct (diag_2_ok a0 a1 [] v W Fd ltac:(tauto) F1 ltac:(rewrite HD; simpl; lia) L CN)
      as (v1 & v2 & -> & L1 & L2 & H1 & H2). cbn [rbind].
    assert (P0 : 1 <= cnt a0) by (pose proof (cnt_flow _ F0); lia).
    destruct (bands_ok v1 1 (vent a0) ltac:(lia) HN L1) as (M1 & M2 & Hb).
    { intros p Hp. rewrite H1, H by auto. unfold vent. rewrite Fd, S0.
      unfold cleared. destruct A01 as [(-> & [-> | ->])|(-> & ->)]; reflexivity. }
    destruct (bands_ok v2 (cnt a0) (vent a1) P0 CN L2) as (M3 & M4 & Hb').
    { intros p Hp. rewrite H2 by auto. unfold vent. rewrite Fd, S1.
      unfold cleared. destruct A01 as [(-> & [-> | ->])|(-> & ->)]; reflexivity. }
    rewrite mat_add_ok by congruence. cbn [rbind]. rewrite mat_add_ok by (cbn [msize]; congruence). cbn [rbind msize ment].
    rewrite mat_add_ok by (cbn [msize]; congruence).
    eexists. split; [reflexivity|]. cbn [msize ment]. split; auto.
    intros p q Hp Hq. destruct (Hb p q Hp Hq) as (-> & ->). destruct (Hb' p q Hp Hq) as (-> & ->).
    cbn [map sumR]. unfold sent. rewrite S0, S1. lra.
  - rewrite E in *. cbn [length Nat.eqb]. rewrite Fd.
    destruct (diag_1_ok AX _ Fd Fx HN) as (v & -> & L & H). cbn [rbind].
    assert (P3 : 1 <= cnt AX * cnt AY) by (clear - Px Py; nia).
    assert (C3 : cnt AX * cnt AY <= N) by (rewrite EN; clear - Pz P3; nia).
    assert (CN : cnt AX <= N) by (apply (Nat.le_trans _ (cnt AX * cnt AY)); auto; clear - Px Py; nia).
    destruct (diag_2_ok AX AY [AZ] v W Fd ltac:(tauto) Fy ltac:(rewrite HD; simpl; lia) L CN)
      as (v1 & v2 & -> & L1 & L2 & H1 & H2). cbn [rbind].
    destruct (diag_3_ok v2 W Fd Fx Fy Fz HD L2) as (w2 & v3 & -> & L2' & L3 & H2' & H3). cbn [rbind].
    destruct (bands_ok v1 1 (vent AX) ltac:(lia) HN L1) as (M1 & M2 & Hb).
    { intros p Hp. rewrite H1, H by auto. unfold vent. rewrite Fd. reflexivity. }
    destruct (bands_ok w2 (cnt AX) (vent AY) Px CN L2') as (M3 & M4 & Hb').
    { intros p Hp. rewrite H2', H2 by auto. unfold vent. rewrite Fd. reflexivity. }
    destruct (bands_ok v3 (cnt AX * cnt AY) (vent AZ) P3 C3 L3) as (M5 & M6 & Hb'').
    { intros p Hp. rewrite H3 by auto. unfold vent. rewrite Fd. reflexivity. }
    rewrite mat_add_ok by congruence. cbn [rbind]. rewrite mat_add_ok by (cbn [msize]; congruence). cbn [rbind msize ment].
    rewrite mat_add_ok by (cbn [msize]; congruence). cbn [rbind msize ment].
    rewrite mat_add_ok by (cbn [msize]; congruence). cbn [rbind msize ment].
    rewrite mat_add_ok by (cbn [msize]; congruence).
    eexists. split; [reflexivity|]. cbn [msize ment]. split; auto.
    intros p q Hp Hq. destruct (Hb p q Hp Hq) as (-> & ->). destruct (Hb' p q Hp Hq) as (-> & ->).
    destruct (Hb'' p q Hp Hq) as (-> & ->).
    cbn [map sumR]. unfold sent. 
    change (strd AX) with 1. change (strd AY) with (cnt AX). change (strd AZ) with (cnt AX * cnt AY). lra.
Qed.

(** ** Positions and coordinates *)
Definition inb (i j k : nat) : Prop := i < cnt AX /\ j < cnt AY /\ k < cnt AZ.
Definition stepb (a : axis) (i j k i' j' k' : nat) : bool :=
  match a with
  | AX => (i' =? i + 1) && (j' =? j) && (k' =? k)
  | AY => (i' =? i) && (j' =? j + 1) && (k' =? k)
  | _ => (i' =? i) && (j' =? j) && (k' =? k + 1)
  end.
Definition cvp (a : axis) (i j k : nat) : R * R * R :=
  cv o dx dy dz a (first_cell (nx g) b + i) (first_cell (ny g) b + j) (first_cell (nz g) b + k).
Definition wrapped (i j k i' j' k' : nat) : Prop := i' = i /\ j + 1 = cnt AY /\ j' = 0 /\ k' = k + 1.

Lemma arr_at a i j k : inb i j k -> nth (at3 g b i j k) (arr a) dflt = cvp a i j k.
Proof. intros (?&?&?). unfold arr, cvp. now rewrite nth_per_in. Qed.
Lemma at3_eq i j k : at3 g b i j k = i + cnt AX * (j + cnt AY * k).
Proof. reflexivity. Qed.

Lemma fdir_cases : wf g -> has_flow g ->
  (get_fdir g = [AX] /\ flows g AX /\ cnt AY = 1 /\ cnt AZ = 1) \/
  (get_fdir g = [AY] /\ flows g AY /\ cnt AX = 1 /\ cnt AZ = 1) \/
  (get_fdir g = [AZ] /\ flows g AZ /\ cnt AX = 1 /\ cnt AY = 1) \/
  (get_fdir g = [AX; AY] /\ flows g AX /\ flows g AY /\ cnt AZ = 1) \/
  (get_fdir g = [AX; AZ] /\ flows g AX /\ flows g AZ /\ cnt AY = 1) \/
  (get_fdir g = [AY; AZ] /\ flows g AY /\ flows g AZ /\ cnt AX = 1) \/
  (get_fdir g = [AX; AY; AZ] /\ flows g AX /\ flows g AY /\ flows g AZ).
Proof.
  intros W HF. rewrite get_fdir_spec by auto.
  pose proof (cnt_one AX W ltac:(congruence)) as Ox. pose proof (cnt_one AY W ltac:(congruence)) as Oy.
  pose proof (cnt_one AZ W ltac:(congruence)) as Oz.
  unfold flow_axes, has_flow, flows in *. cbn [size] in *.
  destruct (Nat.ltb_spec 1 (nx g)), (Nat.ltb_spec 1 (ny g)), (Nat.ltb_spec 1 (nz g)); cbn [app] in *; try lia;
    repeat match goal with h : _ <= 1, h' : ~ _ -> _ |- _ => specialize (h' ltac:(lia)) end; intuition auto.
Qed.

Ltac beqs := repeat match goal with |- context [Nat.eqb ?p ?q] => destruct (Nat.eqb_spec p q); try subst; cbn [andb] end.

Lemma band_coords a i j k i' j' k' : wf g -> has_flow g -> In a (get_fdir g) -> inb i j k -> inb i' j' k' ->
  ~ (flows g AX /\ flows g AY /\ flows g AZ /\ a = AY /\ wrapped i j k i' j' k') ->
  band (vent a) (strd a) (at3 g b i j k) (at3 g b i' j' k') =
  if stepb a i j k i' j' k' then f (cvp a i j k) (cvp a i' j' k') else 0%R.
Proof.
  intros W HF Ia I I' NW. unfold band.
  assert (V : at3 g b i' j' k' = at3 g b i j k + strd a ->
    vent a (at3 g b i j k) = if cleared (get_fdir g) a (at3 g b i j k) then 0%R else f (cvp a i j k) (cvp a i' j' k')).
  { intros E. unfold vent. destruct (cleared _ _ _); auto. rewrite <- E. now rewrite !arr_at. }
  destruct (Nat.eqb_spec (at3 g b i' j' k') (at3 g b i j k + strd a)) as [E|E].
  - rewrite (V E). clear V. rewrite !at3_eq in *. 
    change (strd AX) with 1 in *. change (strd AY) with (cnt AX) in *. change (strd AZ) with (cnt AX * cnt AY) in *.
    destruct I as (Hi & Hj & Hk), I' as (Hi' & Hj' & Hk'). unfold wrapped in NW.
    destruct (fdir_cases W HF) as [(Ed & C)|[(Ed & C)|[(Ed & C)|[(Ed & C)|[(Ed & C)|[(Ed & C)|(Ed & C)]]]]]];
      rewrite Ed in *; decompose [and] C; clear C; cbn [In] in Ia;
      repeat match goal with
      | h : _ \/ _ |- _ => destruct h
      | h : False |- _ => destruct h
      end; subst a; cbn [cleared strd stepb] in *.
    + assert (j = 0) by lia. assert (k = 0) by lia. assert (j' = 0) by lia. assert (k' = 0) by lia. subst.
      replace (i + cnt AX * (0 + cnt AY * 0)) with (i + cnt AX * 0) by lia. rewrite radix_mod by auto.
      beqs; auto; lia.
    + assert (i = 0) by lia. assert (k = 0) by lia. assert (i' = 0) by lia. assert (k' = 0) by lia. subst.
      unfold strd in E. change (count (nx g) b) with (cnt AX) in E.
      replace (0 + cnt AX * (j + cnt AY * 0)) with (j + cnt AY * 0) in * by nia. rewrite radix_mod by auto.
      beqs; auto; nia.
    + assert (i = 0) by lia. assert (j = 0) by lia. assert (i' = 0) by lia. assert (j' = 0) by lia. subst.
      unfold strd in E. change (count (nx g) b) with (cnt AX) in E. change (count (ny g) b) with (cnt AY) in E.
      beqs; auto; nia.
    + assert (k = 0) by lia. assert (k' = 0) by lia. subst. rewrite radix_mod by auto.
      apply radix_succ in E; auto. destruct E as [(E1 & E2)|(E1 & E2 & E3)].
      * beqs; auto; lia.
      * beqs; auto; lia.
    + unfold strd in E. change (count (nx g) b) with (cnt AX) in E.
      assert (k = 0) by lia. assert (k' = 0) by lia. subst.
      apply radix_add in E; auto. beqs; auto; lia.
    + assert (j = 0) by lia. assert (j' = 0) by lia. subst. rewrite radix_mod by auto.
      apply radix_succ in E; auto. destruct E as [(E1 & E2)|(E1 & E2 & E3)].
      * beqs; auto; nia.
      * beqs; auto; nia.
    + unfold strd in E. change (count (nx g) b) with (cnt AX) in E. change (count (ny g) b) with (cnt AY) in E.
      assert (j = 0) by lia. assert (j' = 0) by lia. subst. replace (cnt AX * cnt AY) with (cnt AX) in E by nia.
      apply radix_add in E; auto. beqs; auto; nia.
    + assert (i = 0) by lia. assert (i' = 0) by lia. subst. replace (0 + cnt AX * (j + cnt AY * k)) with (j + cnt AY * k) in * by nia.
      unfold strd in E. change (count (nx g) b) with (cnt AX) in E. 
      rewrite radix_mod by auto.
      assert (E' : j' + cnt AY * k' = j + cnt AY * k + 1) by nia.
      apply radix_succ in E'; auto. destruct E' as [(E1 & E2)|(E1 & E2 & E3)].
      * beqs; auto; nia.
      * beqs; auto; nia.
    + assert (i = 0) by lia. assert (i' = 0) by lia. subst.
      unfold strd in E. change (count (nx g) b) with (cnt AX) in E. change (count (ny g) b) with (cnt AY) in E.
      assert (E' : j' + cnt AY * k' = j + cnt AY * k + cnt AY) by nia.
      apply radix_add in E'; auto. beqs; auto; nia.
    + rewrite radix_mod by auto.
      apply radix_succ in E; auto. destruct E as [(E1 & E2)|(E1 & E2 & E3)].
      * assert (j' = j /\ k' = k) as (-> & ->).
        { apply (radix_eq (cnt AY)); auto. }
        beqs; auto; lia.
      * beqs; auto; lia.
    + unfold strd in E. change (count (nx g) b) with (cnt AX) in E.
      apply radix_add in E; auto. destruct E as (-> & E).
      assert (E' : j' + cnt AY * k' = j + cnt AY * k + 1) by nia.
      apply radix_succ in E'; auto. destruct E' as [(E1 & E2)|(E1 & E2 & E3)].
      * subst. assert (Nc : i + cnt AX * (j + cnt AY * k) <> cnt AX * cnt AY - cnt AX).
        { intros Q. assert (Q' : i + cnt AX * (j + cnt AY * k) = 0 + cnt AX * (cnt AY - 1)) by nia.
          apply radix_eq in Q' as (_ & Q'); auto; [|lia].
          replace (cnt AY - 1) with ((cnt AY - 1) + cnt AY * 0) in Q' by lia.
          apply radix_eq in Q'; lia. }
        apply Nat.eqb_neq in Nc. rewrite Nc. rewrite !Nat.eqb_refl. reflexivity.
      * exfalso. apply NW. auto 10.
    + unfold strd in E. change (count (nx g) b) with (cnt AX) in E. change (count (ny g) b) with (cnt AY) in E.
      assert (E1 : i' + cnt AX * (j' + cnt AY * k') = i + cnt AX * (j + cnt AY * (k + 1))) by nia.
      assert (i' = i /\ j' + cnt AY * k' = j + cnt AY * (k + 1)) as (-> & E2).
      { apply (radix_eq (cnt AX)); auto. }
      assert (j' = j /\ k' = k + 1) as (-> & ->).
      { apply (radix_eq (cnt AY)); auto. }
      beqs; auto; lia.
  - destruct (stepb a i j k i' j' k') eqn:S; auto. exfalso. apply E. rewrite !at3_eq.
    unfold strd. change (count (nx g) b) with (cnt AX). change (count (ny g) b) with (cnt AY).
    assert (Nd : a <> ADash).
    { intros ->. destruct (fdir_cases W HF) as [(Ed & C)|[(Ed & C)|[(Ed & C)|[(Ed & C)|[(Ed & C)|[(Ed & C)|(Ed & C)]]]]]];
      rewrite Ed in *; cbn [In] in Ia; intuition congruence. }
    unfold stepb in S. destruct a; try congruence;
    apply andb_true_iff in S as (S & S3); apply andb_true_iff in S as (S1 & S2);
    apply Nat.eqb_eq in S1, S2, S3; subst; nia.
Qed.
(** In 3D the cells wrapping around the end of a layer are coupled, except the first pair. *)
Lemma band_wrapped i j k i' j' k' : wf g -> flows g AX -> flows g AY -> flows g AZ -> inb i j k -> inb i' j' k' ->
  wrapped i j k i' j' k' ->
  band (vent AY) (strd AY) (at3 g b i j k) (at3 g b i' j' k') =
  if (i =? 0) && (k =? 0) then 0%R else f (cvp AY i j k) (cvp AY i' j' k').
Proof.
  intros W Fx Fy Fz I I' (-> & Ej & -> & ->). unfold band.
  assert (E : at3 g b i 0 (k + 1) = at3 g b i j k + strd AY).
  { rewrite !at3_eq. change (strd AY) with (cnt AX). nia. }
  rewrite <- E, Nat.eqb_refl. unfold vent. rewrite <- E, !arr_at by auto.
  destruct (fdir_cases W ltac:(left; auto)) as [(Ed & C)|[(Ed & C)|[(Ed & C)|[(Ed & C)|[(Ed & C)|[(Ed & C)|(Ed & C)]]]]]];
    pose proof (cnt_flow _ Fx); pose proof (cnt_flow _ Fy); pose proof (cnt_flow _ Fz); try lia.
  rewrite Ed. cbn [cleared]. rewrite at3_eq.
  assert (X : (i + cnt AX * (j + cnt AY * k) =? cnt AX * cnt AY - cnt AX) = ((i =? 0) && (k =? 0))).
  { replace j with (cnt AY - 1) by lia. destruct I as (?&?&?).
    assert (Q : cnt AX * (cnt AY - 1 + cnt AY * k) = cnt AX * cnt AY - cnt AX + cnt AX * cnt AY * k) by nia.
    rewrite Q. assert (1 <= cnt AX * cnt AY) by nia.
    destruct (Nat.eqb_spec i 0), (Nat.eqb_spec k 0); cbn [andb]; 
    match goal with |- (?p =? ?q) = _ => destruct (Nat.eqb_spec p q) end; auto; nia. }
  rewrite X. reflexivity.
Qed.
End mat.
