(** The analytical solution: proofs. *)
From Coq Require Import String ZArith Bool Arith List Lia Reals Lra.
From Verif Require Import Prelude PreludeFacts TabFacts Num GridModel GridSpec GridProofs GeoModel GeoSpec GeoProofs PropModel PropSpec ScalerModel ScalerThm
  BlackOilModel FrameModel FrameFacts AnalyticModel AnalyticSpec.
Import ListNotations.
Local Open Scope R_scope.

(** ** Geometry *)
Lemma one_way_fdir g a : wf g -> one_way g a -> get_fdir g = [a].
Proof.
  intros W (H1 & H2). rewrite get_fdir_spec by auto. unfold flow_axes. pose proof (H2 AX) as X. pose proof (H2 AY) as Y. pose proof (H2 AZ) as Z. unfold flows, size in *.
  destruct (Nat.ltb_spec 1 (nx g)), (Nat.ltb_spec 1 (ny g)), (Nat.ltb_spec 1 (nz g)); cbn;
  repeat match goal with H : (_ < _)%nat -> _ = a |- _ => try (specialize (H ltac:(assumption))); revert H end; intros; subst; try congruence; destruct a; try lia.
Qed.
Lemma one_way_line {A} g a (f : nat -> nat -> nat -> A) h : wf g -> one_way g a ->
  (forall i, (i < pad (size g a))%nat -> match a with AX => f i 0%nat 0%nat | AY => f 0%nat i 0%nat | _ => f 0%nat 0%nat i end = h i) ->
  per_cell g f = map h (seq 0 (get_n g true)) /\ get_n g true = pad (size g a).
Proof.
  intros W (H1 & H2) Hf. unfold flows in *. destruct W as (Wx & Wy & Wz).
  assert (P : forall n, (1 <= n)%nat -> ~ (1 < n)%nat -> pad n = 1%nat) by (intros n A1 A2; unfold pad; destruct (Nat.ltb_spec 1 n); lia).
  assert (N : get_n g true = pad (size g a)).
  { rewrite get_n_true by (repeat split; auto).
    destruct a; cbn [size] in *; try lia;
    [rewrite (P (ny g)), (P (nz g))|rewrite (P (nx g)), (P (nz g))|rewrite (P (nx g)), (P (ny g))]; auto; try lia;
    intros K; first [discriminate (H2 AX K)|discriminate (H2 AY K)|discriminate (H2 AZ K)]. }
  split; auto. apply nth_ext with (d := f 0%nat 0%nat 0%nat) (d' := f 0%nat 0%nat 0%nat).
  { rewrite per_cell_length, map_length, seq_length; auto. repeat split; auto. }
  intros n Hn. rewrite per_cell_length in Hn by (repeat split; auto).
  rewrite (nth_indep (map h (seq 0 (get_n g true))) _ (h 0%nat)) by (rewrite map_length, seq_length; lia).
  rewrite map_nth, seq_nth by auto. cbn [Nat.add]. rewrite N in Hn.
  destruct a; cbn [size] in *; try lia.
  - replace n with (idx g n 0 0) at 1 by (unfold idx; lia). rewrite nth_per_cell; auto; apply pad_pos; auto.
  - assert (Q : pad (nx g) = 1%nat) by (apply P; auto; intros K; pose proof (H2 AX K); discriminate).
    replace n with (idx g 0 n 0) at 1 by (unfold idx; rewrite Q; lia). rewrite nth_per_cell; auto; apply pad_pos; auto.
  - assert (Q : pad (nx g) = 1%nat) by (apply P; auto; intros K; pose proof (H2 AX K); discriminate).
    assert (Q' : pad (ny g) = 1%nat) by (apply P; auto; intros K; pose proof (H2 AY K); discriminate).
    replace n with (idx g 0 0 n) at 1 by (unfold idx; rewrite Q, Q'; lia). rewrite nth_per_cell; auto; apply pad_pos; auto.
Qed.
(** ** Minima and maxima *)
Lemma inc_le (c : nat -> R) n : (forall i, (S i < n)%nat -> c i < c (S i)) -> forall j i, (i <= j)%nat -> (j < n)%nat -> c i <= c j.
Proof.
  intros H j. induction j as [|j IH]; intros i L J; [assert (i = 0%nat) by lia; subst; lra|].
  destruct (Nat.eq_dec i (S j)) as [->|]; [lra|]. apply Rle_trans with (c j); [apply IH; lia|]. apply Rlt_le, H. lia.
Qed.
Lemma inc_min (c : nat -> R) n : (1 <= n)%nat -> (forall i, (S i < n)%nat -> c i < c (S i)) -> reduce nmin (map c (seq 0 n)) = Ok (c 0%nat).
Proof.
  intros H I. destruct (reduce nmin (map c (seq 0 n))) as [v|e] eqn:E.
  - f_equal. apply reduce_min in E as (A & B). apply in_map_iff in B as (i & <- & B). apply in_seq in B. apply Rle_antisym.
    + apply A. apply in_map, in_seq. lia.
    + apply (inc_le c n); auto; lia.
  - destruct n; [lia|discriminate].
Qed.
Lemma inc_max (c : nat -> R) n : (1 <= n)%nat -> (forall i, (S i < n)%nat -> c i < c (S i)) -> reduce nmax (map c (seq 0 n)) = Ok (c (n - 1)%nat).
Proof.
  intros H I. destruct (reduce nmax (map c (seq 0 n))) as [v|e] eqn:E.
  - f_equal. apply reduce_max in E as (A & B). apply in_map_iff in B as (i & <- & B). apply in_seq in B. apply Rle_antisym.
    + apply (inc_le c n); auto; lia.
    + apply A. apply in_map, in_seq. lia.
  - destruct n; [lia|discriminate].
Qed.
Lemma fit_some f (l : list R) : l <> [] -> fit_all f (map Some l) = (let* v := reduce f l in Ok (Some v)).
Proof.
  destruct l as [|a l]; [congruence|]. intros _. cbn. f_equal. revert a. induction l as [|b l IH]; intros a; cbn; auto.
Qed.
Lemma fit_lo l lo : least l lo -> fit_all nmin (map Some l) = Ok (Some lo).
Proof.
  intros (I & H). rewrite fit_some by (intros ->; destruct I). destruct (reduce nmin l) as [v|] eqn:E; [|destruct l; [destruct I|discriminate]].
  cbn. apply reduce_min in E as (A & B). do 2 f_equal. apply Rle_antisym; auto.
Qed.
Lemma fit_hi l hi : greatest l hi -> fit_all nmax (map Some l) = Ok (Some hi).
Proof.
  intros (I & H). rewrite fit_some by (intros ->; destruct I). destruct (reduce nmax l) as [v|] eqn:E; [|destruct l; [destruct I|discriminate]].
  cbn. apply reduce_max in E as (A & B). do 2 f_equal. apply Rle_antisym; auto.
Qed.
(** ** Values *)
Lemma fdiv_some (a b : R) : b <> 0 -> fdiv (Some a) (Some b) = Some (a / b).
Proof. intros H. cbn. unfold Reqb. destruct (Req_EM_T b 0); [contradiction|reflexivity]. Qed.
Lemma unit_some lo hi v : lo < hi -> unit_of (Some lo) (Some hi) (Some v) = Some ((v - lo) / (hi - lo)).
Proof.
  intros H. unfold unit_of. change (fsub (Some hi) (Some lo)) with (Some (hi - lo)). change (fmul (Some (nsub n1 n0)) (fsub (Some v) (Some lo))) with (Some ((1 - 0) * (v - lo))).
  rewrite fdiv_some by lra. cbn. f_equal. field. lra.
Qed.
Lemma of_unit_some lo hi v : of_unit (Some lo) (Some hi) (Some v) = Some (lo + (hi - lo) * v).
Proof.
  unfold of_unit. change (fmul (fsub (Some hi) (Some lo)) (fsub (Some v) (Some n0))) with (Some ((hi - lo) * (v - 0))). change (nsub n1 n0) with (1 - 0).
  rewrite fdiv_some by lra. cbn. f_equal. field.
Qed.
Lemma clip_some v : clip (Some v) = Some (limited v).
Proof.
  unfold clip, limited, fltb. cbn [nltb n0 n1 Num_R]. unfold Rltb, Rmin, Rmax.
  destruct (Rlt_dec v 0), (Rle_dec 0 v); try lra; match goal with |- context [Rlt_dec 1 ?x] => destruct (Rlt_dec 1 x), (Rle_dec 1 x) end; try lra; f_equal; lra.
Qed.
Lemma limited_id v : 0 <= v <= 1 -> limited v = v.
Proof. intros H. unfold limited. rewrite Rmax_right, Rmin_right; lra. Qed.
Lemma limited_range v : 0 <= limited v <= 1.
Proof. unfold limited. split; [apply Rmin_glb; [lra|apply Rmax_l]|apply Rmin_l]. Qed.
(** ** The sum *)
Definition psum (f : nat -> R) (N : nat) : R := fold_left (fun s n => s + f n) (seq 1 N) 0.
Lemma psum_S f N : psum f (S N) = psum f N + f (S N).
Proof. unfold psum. rewrite seq_S, fold_left_app. reflexivity. Qed.
Lemma psum_zero f N : (forall n, f n = 0) -> psum f N = 0.
Proof. intros H. induction N as [|N IH]; [reflexivity|]. rewrite psum_S, IH, H. lra. Qed.
Lemma profile_sum N i a b x t : profile N i a b x t = a + (b - a) * x + 2 / PI * psum (term i a b x t) N.
Proof. unfold profile. cbn. change n2 with 2. reflexivity. Qed.
Definition coef (i a b : R) (n : nat) : R := (i - a) / IZR (Z.of_nat n) + (b - i) * (if Nat.even n then 1 else - 1) / IZR (Z.of_nat n).
Lemma term_R i a b x t n : term i a b x t n = coef i a b n * sin (INR n * (PI * x)) * exp (INR n * INR n * (- (PI * PI) * t)).
Proof. unfold term, coef. rewrite INR_IZR_INZ. cbn -[IZR PI]. reflexivity. Qed.
Lemma term_0 i a b t n : term i a b 0 t n = 0.
Proof. rewrite term_R. replace (INR n * (PI * 0)) with 0 by ring. rewrite sin_0. ring. Qed.
Lemma term_1 i a b t n : term i a b 1 t n = 0.
Proof.
  rewrite term_R. replace (sin (INR n * (PI * 1))) with 0; [ring|]. symmetry. apply sin_eq_0_1. exists (Z.of_nat n). rewrite <- INR_IZR_INZ. ring.
Qed.
Lemma profile_0 N i a b t : profile N i a b 0 t = a.
Proof. rewrite profile_sum, psum_zero by (intros; apply term_0). ring. Qed.
Lemma profile_1 N i a b t : profile N i a b 1 t = b.
Proof. rewrite profile_sum, psum_zero by (intros; apply term_1). ring. Qed.
(** *** Derivatives *)
Lemma dl_ext (f g : R -> R) x l : (forall y, f y = g y) -> derivable_pt_lim f x l -> derivable_pt_lim g x l.
Proof. intros E H eps He. destruct (H eps He) as (d & K). exists d. intros h H1 H2. rewrite <- !E. now apply K. Qed.
Lemma dl_eq (f : R -> R) x l l' : l = l' -> derivable_pt_lim f x l -> derivable_pt_lim f x l'.
Proof. now intros ->. Qed.
Lemma dl_lin k x : derivable_pt_lim (fun y => k * y) x k.
Proof. apply dl_eq with (k * 1); [ring|]. apply (derivable_pt_lim_scal id k x 1), derivable_pt_lim_id. Qed.
Lemma dl_sin c k x : derivable_pt_lim (fun y => c * sin (k * y)) x (c * k * cos (k * x)).
Proof.
  apply dl_eq with (c * (cos (k * x) * k)); [ring|]. apply (derivable_pt_lim_scal (fun y => sin (k * y)) c).
  apply (derivable_pt_lim_comp (fun y => k * y) sin); [apply dl_lin|apply derivable_pt_lim_sin].
Qed.
Lemma dl_cos c k x : derivable_pt_lim (fun y => c * cos (k * y)) x (- (c * k) * sin (k * x)).
Proof.
  apply dl_eq with (c * (- sin (k * x) * k)); [ring|]. apply (derivable_pt_lim_scal (fun y => cos (k * y)) c).
  apply (derivable_pt_lim_comp (fun y => k * y) cos); [apply dl_lin|apply derivable_pt_lim_cos].
Qed.
Lemma dl_exp c k x : derivable_pt_lim (fun y => c * exp (k * y)) x (c * k * exp (k * x)).
Proof.
  apply dl_eq with (c * (exp (k * x) * k)); [ring|]. apply (derivable_pt_lim_scal (fun y => exp (k * y)) c).
  apply (derivable_pt_lim_comp (fun y => k * y) exp); [apply dl_lin|apply derivable_pt_lim_exp].
Qed.
Lemma dl_psum (f f' : nat -> R -> R) N x : (forall n, derivable_pt_lim (f n) x (f' n x)) -> derivable_pt_lim (fun y => psum (fun n => f n y) N) x (psum (fun n => f' n x) N).
Proof.
  intros H. induction N as [|N IH].
  - apply dl_ext with (fun _ => 0); [reflexivity|]. apply derivable_pt_lim_const.
  - apply dl_ext with (fun y => psum (fun n => f n y) N + f (S N) y); [intros; now rewrite psum_S|]. rewrite psum_S.
    apply (derivable_pt_lim_plus (fun y => psum (fun n => f n y) N) (f (S N))); auto.
Qed.
Section heat.
Variables (i a b : R).
Definition tx (x t : R) (n : nat) : R := coef i a b n * exp (INR n * INR n * (- (PI * PI) * t)) * (INR n * PI) * cos (INR n * PI * x).
Definition txx (x t : R) (n : nat) : R := - (coef i a b n * exp (INR n * INR n * (- (PI * PI) * t)) * (INR n * PI) * (INR n * PI)) * sin (INR n * PI * x).
Lemma term_x x t n : derivable_pt_lim (fun x => term i a b x t n) x (tx x t n).
Proof.
  apply dl_ext with (fun x => coef i a b n * exp (INR n * INR n * (- (PI * PI) * t)) * sin (INR n * PI * x)).
  - intros y. rewrite term_R. replace (INR n * (PI * y)) with (INR n * PI * y) by ring. ring.
  - apply dl_sin.
Qed.
Lemma term_xx x t n : derivable_pt_lim (fun x => tx x t n) x (txx x t n).
Proof. apply dl_cos. Qed.
Lemma term_t x t n : derivable_pt_lim (fun t => term i a b x t n) t (txx x t n).
Proof.
  apply dl_ext with (fun t => coef i a b n * sin (INR n * PI * x) * exp (- (INR n * INR n * (PI * PI)) * t)).
  - intros y. rewrite term_R. replace (INR n * (PI * x)) with (INR n * PI * x) by ring.
    replace (INR n * INR n * (- (PI * PI) * y)) with (- (INR n * INR n * (PI * PI)) * y) by ring. ring.
  - apply dl_eq with (coef i a b n * sin (INR n * PI * x) * (- (INR n * INR n * (PI * PI))) * exp (- (INR n * INR n * (PI * PI)) * t)); [|apply dl_exp].
    unfold txx. replace (INR n * INR n * (- (PI * PI) * t)) with (- (INR n * INR n * (PI * PI)) * t) by ring. ring.
Qed.
Lemma profile_heat N : heat (fun x t => profile N i a b x t).
Proof.
  exists (fun x t => (b - a) + 2 / PI * psum (tx x t) N), (fun x t => 2 / PI * psum (txx x t) N). intros x t. split; [|split].
  - apply dl_ext with (fun x => (a + (b - a) * x) + 2 / PI * psum (term i a b x t) N); [intros; now rewrite profile_sum|].
    apply (derivable_pt_lim_plus (fun x => a + (b - a) * x) (fun x => 2 / PI * psum (term i a b x t) N)).
    + apply dl_eq with (0 + (b - a)); [ring|]. apply (derivable_pt_lim_plus (fun _ => a) (fun x => (b - a) * x)); [apply derivable_pt_lim_const|apply dl_lin].
    + apply (derivable_pt_lim_scal (fun x => psum (term i a b x t) N)). apply (dl_psum (fun n x => term i a b x t n) (fun n x => tx x t n)). intros n. apply term_x.
  - apply dl_eq with (0 + 2 / PI * psum (txx x t) N); [ring|].
    apply (derivable_pt_lim_plus (fun _ => b - a) (fun x => 2 / PI * psum (tx x t) N)); [apply derivable_pt_lim_const|].
    apply (derivable_pt_lim_scal (fun x => psum (tx x t) N)). apply (dl_psum (fun n x => tx x t n) (fun n x => txx x t n)). intros n. apply term_xx.
  - apply dl_ext with (fun t => (a + (b - a) * x) + 2 / PI * psum (term i a b x t) N); [intros; now rewrite profile_sum|].
    apply dl_eq with (0 + 2 / PI * psum (txx x t) N); [ring|].
    apply (derivable_pt_lim_plus (fun _ => a + (b - a) * x) (fun t => 2 / PI * psum (term i a b x t) N)); [apply derivable_pt_lim_const|].
    apply (derivable_pt_lim_scal (fun t => psum (term i a b x t) N)). apply (dl_psum (fun n t => term i a b x t n) (fun n t => txx x t n)). intros n. apply term_t.
Qed.
End heat.
(** *** Long times *)
Lemma psum_abs f N : Rabs (psum f N) <= psum (fun n => Rabs (f n)) N.
Proof. induction N as [|N IH]; [cbn; rewrite Rabs_R0; lra|]. rewrite !psum_S. eapply Rle_trans; [apply Rabs_triang|]. lra. Qed.
Lemma psum_le f g N : (forall n, (1 <= n)%nat -> f n <= g n) -> psum f N <= psum g N.
Proof. intros H. induction N as [|N IH]; [cbn; lra|]. rewrite !psum_S. specialize (H (S N)). lra || (assert (f (S N) <= g (S N)) by (apply H; lia); lra). Qed.
Lemma psum_scal f k N : psum (fun n => f n * k) N = psum f N * k.
Proof. induction N as [|N IH]; [cbn; lra|]. rewrite !psum_S, IH. ring. Qed.
Lemma term_decay i a b x t n : (1 <= n)%nat -> 0 <= t -> Rabs (term i a b x t n) <= Rabs (coef i a b n) * exp (- (PI * PI) * t).
Proof.
  intros Hn Ht. rewrite term_R, !Rabs_mult. rewrite (Rabs_right (exp _)) by (apply Rle_ge, Rlt_le, exp_pos).
  pose proof PI_RGT_0 as HP. assert (P2 : 0 <= PI * PI * t) by (apply Rmult_le_pos; auto; apply Rlt_le, Rmult_lt_0_compat; auto).
  assert (N1 : 1 <= INR n * INR n). { apply (le_INR 1) in Hn. cbn in Hn. nra. }
  assert (E : exp (INR n * INR n * (- (PI * PI) * t)) <= exp (- (PI * PI) * t)).
  { destruct (Req_dec (INR n * INR n * (- (PI * PI) * t)) (- (PI * PI) * t)) as [->|D]; [lra|]. apply Rlt_le, exp_increasing.
    assert (INR n * INR n * (- (PI * PI) * t) <= - (PI * PI) * t); [|lra]. nra. }
  assert (S1 : Rabs (sin (INR n * (PI * x))) <= 1) by (apply Rabs_le; apply SIN_bound).
  pose proof (Rabs_pos (coef i a b n)). pose proof (Rabs_pos (sin (INR n * (PI * x)))). pose proof (exp_pos (INR n * INR n * (- (PI * PI) * t))).
  apply Rle_trans with (Rabs (coef i a b n) * 1 * exp (INR n * INR n * (- (PI * PI) * t))).
  - apply Rmult_le_compat_r; [lra|]. apply Rmult_le_compat_l; auto.
  - rewrite Rmult_1_r. apply Rmult_le_compat_l; auto.
Qed.
Lemma profile_decay N i a b x t : 0 <= t -> Rabs (profile N i a b x t - (a + (b - a) * x)) <= 2 / PI * psum (fun n => Rabs (coef i a b n)) N * exp (- (PI * PI) * t).
Proof.
  intros Ht. rewrite profile_sum. replace (a + (b - a) * x + 2 / PI * psum (term i a b x t) N - (a + (b - a) * x)) with (2 / PI * psum (term i a b x t) N) by ring.
  pose proof PI_RGT_0 as HP. assert (P0 : 0 < 2 / PI) by (apply Rdiv_lt_0_compat; lra). rewrite Rabs_mult, (Rabs_right (2 / PI)) by lra.
  rewrite Rmult_assoc. apply Rmult_le_compat_l; [lra|]. eapply Rle_trans; [apply psum_abs|]. rewrite <- psum_scal. apply psum_le. intros n Hn. now apply term_decay.
Qed.
