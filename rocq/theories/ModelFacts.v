(** Facts about models: cell numbering, transmissibility matrix. *)
From Coq Require Import String ZArith Bool Arith List Lia Reals Lra Sorting.Sorted.
From Verif Require Import Prelude PreludeFacts Num GridModel GridSpec GridProofs GridNeighbors GridThm GeoModel GeoSpec GeoProofs GeoThm
  PropModel PropSpec PropProofs TransProofs MatrixProofs AgreeProofs PropThm BlackOilModel FdmModel MonadFacts FaceFacts ModelSpec.
Import ListNotations.
Close Scope R_scope.
Open Scope nat_scope.

(** ** Cell numbering *)
Lemma dget_combine (l : list Z) : NoDup l -> forall s p id, nth_error l p = Some id ->
  dget id (combine l (seq s (length l))) = Some (s + p).
Proof.
  induction l as [|a l IH]; intros N s p id H; [destruct p; discriminate|]. inversion N; subst. cbn [length seq combine dget].
  destruct p as [|p]; cbn [nth_error] in H.
  - inversion H; subst. rewrite Z.eqb_refl. f_equal. lia.
  - destruct (Z.eqb_spec id a) as [->|Ne].
    + apply nth_error_In in H. contradiction.
    + rewrite (IH H3 (S s) p id H). f_equal. lia.
Qed.
Lemma rmapM_pyget {A} (l : list A) ids (d : A) : (forall id, In id ids -> (0 <= id < Z.of_nat (length l))%Z) ->
  rmapM (pyget l) ids = Ok (map (fun id => nth (Z.to_nat id) l d) ids).
Proof.
  induction ids as [|i ids IH]; intros H; [reflexivity|]. cbn [rmapM map].
  assert (Hi : (0 <= i < Z.of_nat (length l))%Z) by (apply H; now left).
  rewrite <- (Z2Nat.id i) at 1 by lia. rewrite (pyget_nth l (Z.to_nat i) d) by lia. cbn [rbind].
  rewrite IH by (intros; apply H; now right). reflexivity.
Qed.

Section model.
Context {m : bo R} {x y z : nat} {u : bool} {dx dy dz : dinput R} (K : model m x y z u dx dy dz).
Notation g := (gr (geom (b_grid m))).
Notation N := (length (b_ids m)).

Lemma md_wf : wf g. Proof. eapply rk_wf, K. Qed.
Lemma md_N : N = get_n g false.
Proof.
  pose proof (md_ids _ _ _ _ _ _ _ _ K) as E. rewrite ids_per_in in E by apply md_wf. inversion E as [E'].
  now rewrite per_in_length by apply md_wf.
Qed.
Lemma md_pos : 1 <= N.
Proof.
  rewrite md_N, get_n_count by apply md_wf. destruct md_wf as (?&?&?). cbn [count].
  assert (1 <= nx g * ny g) by nia. nia.
Qed.
Lemma ids_facts : NoDup (b_ids m) /\ (forall id, In id (b_ids m) -> (0 <= id < Z.of_nat (get_n g true))%Z) /\
  (forall id, In id (b_ids m) <-> exists c, interior g c /\ id = natural_id g c).
Proof.
  destruct (L_C03_interior_boundary_partition g md_wf (md_flow _ _ _ _ _ _ _ _ K)) as (inner & bound & E1 & E2 & S1 & _ & H1 & _ & Rg & _).
  rewrite (md_ids _ _ _ _ _ _ _ _ K) in E1. inversion E1; subst inner. split; [|split; auto].
  - clear -S1. induction S1 as [|a l H IH F]; constructor; auto. intros I. rewrite Forall_forall in F. specialize (F a I). lia.
  - intros id I. apply Rg. auto.
Qed.
Lemma cell_i_ok p id : nth_error (b_ids m) p = Some id -> cell_i m id = Ok p.
Proof. intros H. unfold cell_i, dgetE. now rewrite (dget_combine _ (proj1 ids_facts) 0 p id H). Qed.
Lemma cell_i_pos id : In id (b_ids m) -> exists p, p < N /\ nth_error (b_ids m) p = Some id /\ cell_i m id = Ok p.
Proof.
  intros I. apply In_nth_error in I as (p & H). exists p. split; [|split; auto using cell_i_ok]. apply nth_error_Some. congruence.
Qed.
Lemma nth_id p : p < N -> exists id, nth_error (b_ids m) p = Some id /\ In id (b_ids m).
Proof.
  intros H. destruct (nth_error (b_ids m) p) as [id|] eqn:E; [|apply nth_error_None in E; lia].
  exists id. split; auto. eapply nth_error_In; eauto.
Qed.
Lemma ids_inj p q id : nth_error (b_ids m) p = Some id -> nth_error (b_ids m) q = Some id -> p = q.
Proof. intros H1 H2. apply cell_i_ok in H1, H2. congruence. Qed.
Lemma at_ids_ok {A} (l : list A) (d : A) : length l = get_n g true ->
  at_ids (b_ids m) l = Ok (map (fun id => nth (Z.to_nat id) l d) (b_ids m)).
Proof. intros L. apply rmapM_pyget. rewrite L. apply ids_facts. Qed.
Lemma pyget_id {A} (l : list A) (d : A) id : length l = get_n g true -> In id (b_ids m) -> pyget l id = Ok (nth (Z.to_nat id) l d).
Proof.
  intros L I. apply (proj1 (proj2 ids_facts)) in I. rewrite <- (Z2Nat.id id) at 1 by lia. apply pyget_nth. lia.
Qed.
Lemma acc_ok p id : nth_error (b_ids m) p = Some id -> acc m p = nth (Z.to_nat id) (b_RHS m) 0%R.
Proof.
  intros H. unfold acc. rewrite H. rewrite (pyget_id _ 0%R); auto; [apply K|]. eapply nth_error_In; eauto.
Qed.
Lemma acc_sign p : p < N -> if b_cmp m then (0 < acc m p)%R else acc m p = 0%R.
Proof.
  intros H. destruct (nth_id p H) as (id & E & I). rewrite (acc_ok p id E).
  pose proof (md_acc _ _ _ _ _ _ _ _ K) as F. rewrite Forall_forall in F. apply F, nth_In.
  rewrite (md_RHS _ _ _ _ _ _ _ _ K). apply (proj1 (proj2 ids_facts)) in I. lia.
Qed.
Lemma acc_nonneg p : p < N -> (0 <= acc m p)%R.
Proof. intros H. pose proof (acc_sign p H). destruct (b_cmp m); lra. Qed.

(** ** The transmissibility matrix *)
Lemma muB_pos : (0 < muB m)%R.
Proof. unfold muB. cbn. apply Rmult_lt_0_compat; apply K. Qed.
Lemma f_pos f a i j k i' j' k' : G_vect (b_grid m) = Ok f -> flows g a -> i < pad x -> j < pad y -> k < pad z ->
  i' < pad x -> j' < pad y -> k' < pad z ->
  (0 < f (cv (b_grid m) dx dy dz a i j k) (cv (b_grid m) dx dy dz a i' j' k'))%R.
Proof.
  intros Ef Fa ? ? ? ? ? ?. pose proof (md_rock _ _ _ _ _ _ _ _ K) as Rk.
  destruct (pos_all _ _ _ _ _ _ _ _ Rk a i j k) as (? & ? & ?); auto.
  destruct (pos_all _ _ _ _ _ _ _ _ Rk a i' j' k') as (? & ? & ?); auto. pose proof (rk_T _ _ _ _ _ _ _ _ Rk).
  unfold G_vect, G_vect_with in Ef. destruct (is_isotropic (b_grid m)) as [iso|]; cbn [rbind] in Ef; [|discriminate].
  assert (f = G_arith (tfac (b_grid m)) \/ f = G_harm (tfac (b_grid m))) as [->| ->].
  { destruct iso; [|inversion Ef; auto]. destruct (is_regular (b_grid m)) as [r|]; cbn [rbind] in Ef; [|discriminate].
    inversion Ef. destruct r; auto. }
  - now apply G_arith_pos.
  - now apply series_pos.
Qed.
Lemma sizes : nx g = x /\ ny g = y /\ nz g = z.
Proof. pose proof (rk_gr _ _ _ _ _ _ _ _ (md_rock _ _ _ _ _ _ _ _ K)) as E. rewrite E. auto. Qed.
Lemma arr_cv a p : p < N -> exists i j k, inb (b_grid m) false i j k /\ p = at3 g false i j k /\
  nth p (arr (b_grid m) dx dy dz false a) dflt = cv (b_grid m) dx dy dz a (first_inner x + i) (first_inner y + j) (first_inner z + k) /\
  first_inner x + i < pad x /\ first_inner y + j < pad y /\ first_inner z + k < pad z.
Proof.
  intros H. rewrite md_N in H. destruct (at3_surj g false p md_wf H) as (i & j & k & Hi & Hj & Hk & ->).
  assert (I : inb (b_grid m) false i j k) by (repeat split; auto).
  exists i, j, k. split; auto. split; auto. rewrite arr_at by auto. unfold cvp, first_cell. destruct sizes as (-> & -> & ->).
  split; auto. cbn [count] in Hi, Hj, Hk. destruct sizes as (Ex & Ey & Ez). rewrite Ex in Hi. rewrite Ey in Hj. rewrite Ez in Hk.
  unfold first_inner, pad. destruct (Nat.ltb_spec 1 x), (Nat.ltb_spec 1 y), (Nat.ltb_spec 1 z); repeat split; lia.
Qed.
Lemma trans_ok : exists M, get_cells_trans m false = Ok M /\ msize M = N /\
  (forall p q, ment M p q = coupling m p q) /\
  (forall p q, p < N -> q < N -> ment M p q = ment M q p /\ ment M p p = 0%R /\ (0 <= ment M p q)%R) /\
  (forall a i j k i' j' k', flows g a -> inb (b_grid m) false i j k -> inb (b_grid m) false i' j' k' -> stepb a i j k i' j' k' = true ->
     (0 < ment M (at3 g false i j k) (at3 g false i' j' k'))%R).
Proof.
  pose proof (md_rock _ _ _ _ _ _ _ _ K) as Rk. pose proof (md_flow _ _ _ _ _ _ _ _ K) as HF.
  destruct (vect_ok _ _ _ _ _ _ _ _ Rk) as (iso & f & Ei & Ef).
  destruct (mat_canon _ _ _ _ _ _ _ _ Rk false f Ef HF) as (M & EM & SM & H).
  destruct (L_C24_matrix_symmetric _ _ _ _ _ _ _ _ false Rk HF) as (M' & EM' & _ & Sy).
  rewrite EM in EM'. inversion EM'; subst M'. clear EM'.
  pose proof muB_pos as P. assert (Pi : (0 < / muB m)%R) by now apply Rinv_0_lt_compat.
  assert (V0 : forall a p, In a (get_fdir g) -> p + strd (b_grid m) false a < N -> (0 <= vent (b_grid m) dx dy dz false f a p)%R).
  { intros a p Ia Hp. pose proof (fdir_flows _ _ _ _ _ _ _ _ Rk a HF Ia) as Fa. unfold vent. destruct (cleared _ _ _ _ _); [lra|]. apply Rlt_le.
    destruct (arr_cv a p) as (i & j & k & _ & _ & -> & ? & ? & ?); [lia|].
    destruct (arr_cv a (p + strd (b_grid m) false a)) as (i' & j' & k' & _ & _ & -> & ? & ? & ?); auto.
    now apply f_pos. }
  exists (mkMat (msize M) (fun p q => ndiv (ment M p q) (muB m))). split; [unfold get_cells_trans; rewrite EM; reflexivity|].
  cbn [msize ment]. rewrite <- md_N in SM. split; auto. split.
  { intros p q. unfold coupling, get_cells_trans. rewrite EM. reflexivity. }
  assert (S1 : forall a p q, In a (get_fdir g) -> p < N -> q < N -> (0 <= sent (b_grid m) dx dy dz false f a p q)%R).
  { intros a p q Ia Hp Hq. unfold sent, band. pose proof (V0 a) as V.
    destruct (Nat.eqb_spec q (p + strd (b_grid m) false a)); destruct (Nat.eqb_spec p (q + strd (b_grid m) false a));
    repeat match goal with |- context [vent _ _ _ _ _ _ a ?r] => pose proof (V r Ia ltac:(lia)); generalize dependent (vent (b_grid m) dx dy dz false f a r); intros end; lra. }
  assert (Sp : forall l, (forall r, In r l -> (0 <= r)%R) -> (0 <= sumR l)%R).
  { induction l as [|r l IH]; intros Hl; cbn [sumR]; [lra|]. pose proof (Hl r (or_introl eq_refl)). specialize (IH (fun r' h => Hl r' (or_intror h))). lra. }
  split.
  - intros p q Hp Hq. destruct (Sy p q) as (E1 & E2); [congruence|congruence|]. cbn [ndiv Num_R]. rewrite E1, E2. split; auto. split; [lra|].
    rewrite <- E1, H by (rewrite <- md_N; auto). unfold Rdiv. apply Rmult_le_pos; [|lra]. apply Sp. intros r Ir.
    apply in_map_iff in Ir as (a & <- & Ia). now apply S1.
  - intros a i j k i' j' k' Fa I I' St.
    assert (Lt : forall i j k, inb (b_grid m) false i j k -> at3 g false i j k < get_n g false).
    { intros i0 j0 k0 (h1 & h2 & h3). apply at3_lt; auto using md_wf. }
    pose proof (Lt _ _ _ I) as L1. pose proof (Lt _ _ _ I') as L2.
    cbn [ndiv Num_R]. unfold Rdiv. apply Rmult_lt_0_compat; auto. rewrite H by auto. pose proof (flows_fdir _ _ _ _ _ _ _ _ Rk a Fa) as Ia.
    assert (Pa : (0 < sent (b_grid m) dx dy dz false f a (at3 g false i j k) (at3 g false i' j' k'))%R).
    { assert (Eq : at3 g false i' j' k' = at3 g false i j k + strd (b_grid m) false a).
      { rewrite !at3_eq. unfold stepb, strd, cnt in *. cbn [size]. pose proof (flow_dash _ a Fa).
        destruct a; try congruence; rewrite !andb_true_iff, !Nat.eqb_eq in St; destruct St as ((-> & ->) & ->); lia. }
      unfold sent, band. rewrite Eq, Nat.eqb_refl.
      assert (Sd : 1 <= strd (b_grid m) false a).
      { unfold strd. destruct md_wf as (?&?&?). cbn [count]. destruct a; nia. }
      destruct (Nat.eqb_spec (at3 g false i j k) (at3 g false i j k + strd (b_grid m) false a + strd (b_grid m) false a)); [lia|].
      rewrite Rplus_0_r. unfold vent.
      assert (Cl : cleared (b_grid m) false (get_fdir g) a (at3 g false i j k) = false).
      { unfold cleared, cnt. rewrite at3_eq. unfold cnt. cbn [size count].
        destruct I as (Hi & Hj & Hk). destruct I' as (Hi' & Hj' & Hk'). unfold cnt, count, stepb in *. cbn [size] in *.
        assert (Md : forall c u v, u + 1 < c -> (S (u + c * v) mod c =? 0) = false).
        { intros c0 u0 v0 Hc. replace (S (u0 + c0 * v0)) with (S u0 + v0 * c0) by lia. rewrite Nat.mod_add by lia. rewrite Nat.mod_small by lia. reflexivity. }
        assert (W := md_wf). unfold flows in Fa.
        rewrite get_fdir_spec by auto. unfold flow_axes.
        destruct W as (?&?&?). destruct (Nat.ltb_spec 1 (nx g)), (Nat.ltb_spec 1 (ny g)), (Nat.ltb_spec 1 (nz g)); cbn [app];
        destruct a; cbn [size] in Fa; try lia; try reflexivity;
        rewrite !andb_true_iff, !Nat.eqb_eq in St; destruct St as ((-> & ->) & ->); cbn [size];
        first [ solve [apply Md; lia]
              | solve [apply Nat.eqb_neq; destruct k as [|k]; [|nia]; intros E; assert (i + nx g * j = nx g * (ny g - 1)) by nia;
                       assert (j + 1 < ny g) by lia; assert (nx g * j + nx g <= nx g * (ny g - 1)) by nia; lia]
              | solve [assert (i = 0) by lia; subst i; assert (E1 : nx g = 1) by lia; rewrite E1, Nat.mul_1_l, Nat.add_0_l; apply Md; lia]
              | idtac]. }
      rewrite Cl.
      destruct (arr_cv a (at3 g false i j k)) as (i0 & j0 & k0 & _ & _ & -> & ? & ? & ?); [rewrite md_N; auto|].
      destruct (arr_cv a (at3 g false i j k + strd (b_grid m) false a)) as (i1 & j1 & k1 & _ & _ & -> & ? & ? & ?); [rewrite md_N, <- Eq; auto|].
      now apply f_pos. }
    rewrite <- md_N in L1, L2. clear -Pa Ia S1 L1 L2. revert Ia S1. generalize (get_fdir g) as l.
    assert (Sp : forall l, (forall r, In r l -> (0 <= r)%R) -> (0 <= sumR l)%R).
    { induction l as [|r l IH]; intros Hl; cbn [sumR]; [lra|]. pose proof (Hl r (or_introl eq_refl)). specialize (IH (fun r' h => Hl r' (or_intror h))). lra. }
    induction l as [|b l IH]; intros Ia S1; [destruct Ia|]. cbn [map sumR].
    destruct Ia as [->|Ia].
    + assert (0 <= sumR (map (fun a0 => sent (b_grid m) dx dy dz false f a0 (at3 g false i j k) (at3 g false i' j' k')) l))%R; [|lra].
      apply Sp. intros r Ir. apply in_map_iff in Ir as (a' & <- & Ia'). apply S1; auto. now right.
    + specialize (IH Ia (fun a p q h => S1 a p q (or_intror h))). pose proof (S1 b _ _ (or_introl eq_refl) L1 L2). lra.
Qed.
Lemma cp_sym p q : p < N -> q < N -> coupling m p q = coupling m q p /\ coupling m p p = 0%R /\ (0 <= coupling m p q)%R.
Proof. intros. destruct trans_ok as (M & _ & _ & E & H' & _). rewrite <- !E. now apply H'. Qed.
Lemma init_A_ok : exists A, init_A m = Ok A /\ msize A = N /\
  forall p q, p < N -> q < N -> ment A p q = if p =? q then (- rsum (coupling m p) 0 N - acc m p)%R else coupling m p q.
Proof.
  destruct trans_ok as (M & EM & SM & E & _). unfold init_A. rewrite EM. cbn [rbind].
  rewrite (at_ids_ok _ 0%R (md_RHS _ _ _ _ _ _ _ _ K)). cbn [rbind]. eexists. split; [reflexivity|]. cbn [msize ment]. split; auto.
  intros p q Hp Hq. rewrite SM. destruct (Nat.eqb_spec p q); [|apply E]. rewrite nsum_map_seq. cbn [nsub nopp Num_R]. f_equal.
  - f_equal. apply rsum_ext. intros. apply E.
  - destruct (nth_id p Hp) as (id & Ei & I). rewrite (acc_ok p id Ei). change (@n0 R Num_R) with 0%R.
    rewrite (nth_map' _ _ _ 0%Z) by auto. rewrite (nth_error_nth _ _ 0%Z Ei). reflexivity.
Qed.
End model.
