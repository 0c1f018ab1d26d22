(** Sums, and discrete diffusion operators: maximum principle. *)
From Coq Require Import ZArith Bool Arith List Lia Reals Lra.
From Verif Require Import Prelude Num GeoModel GeoSpec GeoProofs.
Import ListNotations.
Close Scope R_scope.
Open Scope nat_scope.

Lemma rsum_plus f h lo n : rsum (fun i => (f i + h i)%R) lo n = (rsum f lo n + rsum h lo n)%R.
Proof. revert lo. induction n as [|n IH]; intros lo; cbn [rsum]; [lra|]. rewrite IH. lra. Qed.
Lemma rsum_minus f h lo n : rsum (fun i => (f i - h i)%R) lo n = (rsum f lo n - rsum h lo n)%R.
Proof. revert lo. induction n as [|n IH]; intros lo; cbn [rsum]; [lra|]. rewrite IH. lra. Qed.
Lemma rsum_zero f lo n : (forall i, lo <= i < lo + n -> f i = 0%R) -> rsum f lo n = 0%R.
Proof. intros H. rewrite (rsum_ext _ (fun _ => 0%R)) by auto. clear. revert lo. induction n as [|n IH]; intros lo; cbn [rsum]; [lra|]. rewrite IH. lra. Qed.
Lemma rsum_const c lo n : rsum (fun _ => c) lo n = (INR n * c)%R.
Proof. revert lo. induction n as [|n IH]; intros lo; [cbn; lra|]. rewrite S_INR. cbn [rsum]. rewrite IH. lra. Qed.
Lemma rsum_nonneg f lo n : (forall i, lo <= i < lo + n -> (0 <= f i)%R) -> (0 <= rsum f lo n)%R.
Proof.
  revert lo. induction n as [|n IH]; intros lo H; cbn [rsum]; [lra|]. assert (0 <= f lo)%R by (apply H; lia).
  assert (0 <= rsum f (S lo) n)%R by (apply IH; intros; apply H; lia). lra.
Qed.
Lemma rsum_nonneg_zero f lo n : (forall i, lo <= i < lo + n -> (0 <= f i)%R) -> (rsum f lo n <= 0)%R ->
  forall i, lo <= i < lo + n -> f i = 0%R.
Proof.
  revert lo. induction n as [|n IH]; intros lo H Z i Hi; [lia|]. cbn [rsum] in Z. assert (0 <= f lo)%R by (apply H; lia).
  assert (0 <= rsum f (S lo) n)%R by (apply rsum_nonneg; intros; apply H; lia).
  destruct (Nat.eq_dec i lo) as [->|Ne]; [lra|]. apply (IH (S lo)); try lia; try lra. intros; apply H; lia.
Qed.
Lemma rsum_swap f lo n lo' n' :
  rsum (fun i => rsum (fun j => f i j) lo' n') lo n = rsum (fun j => rsum (fun i => f i j) lo n) lo' n'.
Proof.
  revert lo. induction n as [|n IH]; intros lo; cbn [rsum].
  - symmetry. now apply rsum_zero.
  - rewrite IH, rsum_plus. reflexivity.
Qed.
(** Picking one term. *)
Lemma rsum_pick f lo n i c : lo <= i < lo + n -> rsum (fun j => if i =? j then c j else f j) lo n = (rsum f lo n - f i + c i)%R.
Proof.
  revert lo. induction n as [|n IH]; intros lo H; [lia|]. cbn [rsum]. destruct (Nat.eqb_spec i lo) as [->|Ne].
  - rewrite (rsum_ext _ f); [lra|]. intros j Hj. destruct (Nat.eqb_spec lo j); [lia|reflexivity].
  - rewrite IH by lia. lra.
Qed.
Lemma rsum_single lo n i c : lo <= i < lo + n -> rsum (fun j => if i =? j then c j else 0%R) lo n = c i.
Proof. intros H. rewrite (rsum_pick (fun _ => 0%R)) by auto. rewrite rsum_zero by auto. lra. Qed.

Lemma argmax (y : nat -> R) n : 0 < n -> exists p, p < n /\ forall q, q < n -> (y q <= y p)%R.
Proof.
  induction n as [|n IH]; [lia|]. intros _. destruct n as [|n].
  - exists 0. split; [lia|]. intros q Hq. assert (q = 0) by lia. subst. lra.
  - destruct IH as (p & Hp & Hm); [lia|]. destruct (Rle_dec (y p) (y (S n))).
    + exists (S n). split; [lia|]. intros q Hq. destruct (Nat.eq_dec q (S n)) as [->|Ne]; [lra|]. specialize (Hm q). assert (q < S n) by lia.
      specialize (Hm H). lra.
    + exists p. split; [lia|]. intros q Hq. destruct (Nat.eq_dec q (S n)) as [->|Ne]; [lra|]. apply Hm. lia.
Qed.

(** Row sums of differences. *)
Section diffusion.
Variables (n : nat) (T : nat -> nat -> R).
Hypothesis (Tn : forall p q, p < n -> q < n -> (0 <= T p q)%R).
Definition flux (y : nat -> R) (p : nat) : R := rsum (fun q => (T p q * (y q - y p))%R) 0 n.
Lemma flux_opp (y : nat -> R) p : flux (fun q => (- y q)%R) p = (- flux y p)%R.
Proof.
  unfold flux. replace (- rsum (fun q => T p q * (y q - y p)) 0 n)%R with ((-1) * rsum (fun q => T p q * (y q - y p)) 0 n)%R by lra.
  rewrite <- rsum_scal. apply rsum_ext. intros. lra.
Qed.
Lemma flux_max (y : nat -> R) p : p < n -> (forall q, q < n -> (y q <= y p)%R) -> (flux y p <= 0)%R.
Proof.
  intros Hp Hm. assert (0 <= flux (fun q => (- y q)%R) p)%R; [|rewrite flux_opp in H; lra].
  unfold flux. apply rsum_nonneg. intros q Hq. apply Rmult_le_pos; [apply Tn; lia|]. specialize (Hm q ltac:(lia)). lra.
Qed.
(** Where the balance is c_p (y_p - x_p) with c_p > 0, y stays below the bound of x. *)
Lemma max_principle (y x c : nat -> R) M : (forall p, p < n -> (0 < c p)%R) ->
  (forall p, p < n -> flux y p = (c p * (y p - x p))%R) -> (forall p, p < n -> (x p <= M)%R) ->
  forall p, p < n -> (y p <= M)%R.
Proof.
  intros Hc E Hx p Hp. destruct (argmax y n) as (p0 & H0 & Hm); [lia|]. pose proof (flux_max y p0 H0 Hm) as L. rewrite E in L by auto.
  specialize (Hm p Hp). specialize (Hx p0 H0). specialize (Hc p0 H0).
  destruct (Rle_dec (y p0) (x p0)); [lra|]. assert (0 < c p0 * (y p0 - x p0))%R by (apply Rmult_lt_0_compat; lra). lra.
Qed.
Lemma min_principle (y x c : nat -> R) M : (forall p, p < n -> (0 < c p)%R) ->
  (forall p, p < n -> flux y p = (c p * (y p - x p))%R) -> (forall p, p < n -> (M <= x p)%R) ->
  forall p, p < n -> (M <= y p)%R.
Proof.
  intros Hc E Hx p Hp. assert (- y p <= - M)%R; [|lra].
  apply (max_principle (fun q => - y q)%R (fun q => - x q)%R c); auto.
  - intros q Hq. rewrite flux_opp, E by auto. lra.
  - intros q Hq. specialize (Hx q Hq). lra.
Qed.
(** Connected: a set of cells containing with p all q with T p q > 0 is empty or
    everything. *)
Hypothesis (conn : forall S : nat -> Prop, (exists p, p < n /\ S p) ->
  (forall p q, p < n -> q < n -> S p -> (0 < T p q)%R -> S q) -> forall p, p < n -> S p).
Lemma tied_max (y e : nat -> R) p0 : (forall p, p < n -> (0 <= e p)%R) -> p0 < n -> (0 < e p0)%R ->
  (forall p, p < n -> flux y p = (e p * y p)%R) -> forall p, p < n -> (y p <= 0)%R.
Proof.
  intros He H0 E0 E p Hp. destruct (argmax y n) as (pm & Hpm & Hm); [lia|].
  destruct (Rle_dec (y pm) 0) as [L|L]; [specialize (Hm p Hp); lra|]. exfalso.
  assert (A : forall q, q < n -> y q = y pm).
  { apply (conn (fun q => y q = y pm)); [eauto|]. intros q r Hq Hr Eq Tp.
    assert (Z : (flux (fun q => (- y q)%R) q <= 0)%R).
    { rewrite flux_opp, E by auto. rewrite Eq. assert (0 <= e q * y pm)%R by (apply Rmult_le_pos; [auto|lra]). lra. }
    pose proof (rsum_nonneg_zero (fun r => T q r * (- y r - - y q))%R 0 n) as Hz. cbv beta in Hz.
    assert (Q : (T q r * (- y r - - y q) = 0)%R).
    { apply Hz; try lia; auto. intros i Hi. apply Rmult_le_pos; [apply Tn; lia|]. specialize (Hm i ltac:(lia)). lra. }
    apply Rmult_integral in Q as [Q|Q]; lra. }
  assert (F0 : flux y p0 = 0%R) by (apply rsum_zero; intros i Hi; rewrite (A i), (A p0) by lia; lra).
  rewrite E, A in F0 by auto. assert (0 < e p0 * y pm)%R by (apply Rmult_lt_0_compat; lra). lra.
Qed.
Lemma tied_zero (y e : nat -> R) p0 : (forall p, p < n -> (0 <= e p)%R) -> p0 < n -> (0 < e p0)%R ->
  (forall p, p < n -> flux y p = (e p * y p)%R) -> forall p, p < n -> y p = 0%R.
Proof.
  intros He H0 E0 E p Hp. apply Rle_antisym; [now apply (tied_max y e p0)|].
  assert (- y p <= 0)%R; [|lra]. apply (tied_max (fun q => - y q)%R e p0); auto.
  intros q Hq. rewrite flux_opp, E by auto. lra.
Qed.
(** Symmetric couplings: all fluxes together cancel. *)
Lemma flux_total (y : nat -> R) : (forall p q, p < n -> q < n -> T p q = T q p) -> rsum (flux y) 0 n = 0%R.
Proof.
  intros Sy. assert (E : rsum (flux y) 0 n = (- rsum (flux y) 0 n)%R); [|lra].
  replace (- rsum (flux y) 0 n)%R with ((-1) * rsum (flux y) 0 n)%R by lra. rewrite <- rsum_scal. unfold flux. rewrite rsum_swap.
  apply rsum_ext. intros p Hp. rewrite <- rsum_scal. apply rsum_ext. intros q Hq. rewrite (Sy q p) by lia. lra.
Qed.
End diffusion.
