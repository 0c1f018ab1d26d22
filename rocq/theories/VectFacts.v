(** The vectorised matrix: its form in every reachable state, regularity. *)
From Coq Require Import String ZArith Bool Arith List Lia Reals Lra.
From Verif Require Import Prelude PreludeFacts Num GridModel GridSpec GridProofs GridNeighbors GridThm GeoModel GeoSpec GeoProofs GeoThm
  PropModel PropSpec PropProofs TransProofs MatrixProofs PropThm BlackOilModel FdmModel MonadFacts FaceFacts HistSpec InvFacts SumFacts ModelSpec ModelFacts.
Import ListNotations.
Close Scope R_scope.
Open Scope nat_scope.

(** ** Functions of the core *)
Section core.
Context {F : Type} {NF : Num F}.
Implicit Types m : bo F.
Lemma core_cell_i m m' id : core m = core m' -> cell_i m id = cell_i m' id.
Proof. intros E. apply core_fields in E as (_ & E & _). unfold cell_i. now rewrite E. Qed.
Lemma core_trans m m' id b : core m = core m' -> get_cell_trans m id b = get_cell_trans m' id b.
Proof. intros E. apply core_fields in E as (E1 & _ & E2 & E3 & _). unfold get_cell_trans, muB. now rewrite E1, E2, E3. Qed.
Lemma core_ctrans m m' b : core m = core m' -> get_cells_trans m b = get_cells_trans m' b.
Proof. intros E. apply core_fields in E as (E1 & _ & E2 & E3 & _). unfold get_cells_trans, muB. now rewrite E1, E2, E3. Qed.
Lemma core_init_A m m' : core m = core m' -> init_A m = init_A m'.
Proof.
  intros E. unfold init_A. rewrite (core_ctrans _ _ _ E). apply core_fields in E as (_ & E1 & _ & _ & _ & _ & _ & _ & _ & _ & E2). now rewrite E1, E2.
Qed.
Lemma core_z m m' : core m = core m' -> gz m = gz m'.
Proof. intros E. apply core_fields in E as (E & _). unfold gz. now rewrite E. Qed.
Lemma core_dz m m' id idn : core m = core m' -> dz m id idn = dz m' id idn.
Proof. intros E. unfold dz. now rewrite (core_z _ _ E). Qed.
Lemma core_sub_d m m' d id v : core m = core m' -> sub_d m d id v = sub_d m' d id v.
Proof. intros E. unfold sub_d. now rewrite (core_cell_i _ _ _ E). Qed.
End core.
Lemma model_core m m' x y z u dx dy dz : core m = core m' -> model m x y z u dx dy dz -> model m' x y z u dx dy dz.
Proof.
  intros E K. pose proof (core_z _ _ E) as Ez. apply core_fields in E as (E1 & E2 & E3 & E4 & _ & _ & _ & _ & _ & E5 & E6).
  destruct K. rewrite E1, ?E2, ?E3, ?E4, ?E5, ?E6, ?Ez in *. constructor; auto.
Qed.
Lemma coupling_core m m' p q : core m = core m' -> coupling m p q = coupling m' p q.
Proof. intros E. unfold coupling. now rewrite (core_ctrans _ _ _ E). Qed.
Lemma acc_core m m' p : core m = core m' -> acc m p = acc m' p.
Proof. intros E. apply core_fields in E as (_ & E1 & _ & _ & _ & _ & _ & _ & _ & _ & E2). unfold acc. now rewrite E1, E2. Qed.

Definition boundary_id (m : bo R) (id : Z) : Prop :=
  exists c, boundary_cell (gr (geom (b_grid m))) c /\ id = natural_id (gr (geom (b_grid m))) c.

Section vect.
Context {m : bo R} {x y z : nat} {u : bool} {dx dy dz : dinput R} (K : model m x y z u dx dy dz).
Notation g := (gr (geom (b_grid m))).
Notation N := (length (b_ids m)).

(** Diffusion, accumulation and an additional diagonal. *)
Definition form (A : @mat R) (e : nat -> R) : Prop := msize A = N /\
  forall p q, p < N -> q < N ->
  ment A p q = if p =? q then (- rsum (coupling m p) 0 N - acc m p - e p)%R else coupling m p q.

Lemma form_init : exists A, init_A m = Ok A /\ form A (fun _ => 0%R).
Proof.
  destruct (init_A_ok K) as (A & E & S & H). exists A. split; auto. split; auto. intros p q Hp Hq. rewrite H by auto.
  destruct (p =? q); auto. lra.
Qed.
Lemma form_addto A e i v : form A e -> i < N -> form (mat_addto A i v) (fun p => if i =? p then (e p - v)%R else e p).
Proof.
  intros (S & H) Hi. split; [exact S|]. intros p q Hp Hq. unfold mat_addto, mat_set. cbn [ment].
  destruct (Nat.eqb_spec p i), (Nat.eqb_spec q i); subst; cbn [andb]; rewrite ?Nat.eqb_refl; cbn [nadd Num_R]; rewrite ?H by auto; rewrite ?Nat.eqb_refl; try lra.
  - destruct (Nat.eqb_spec i q); [congruence|lra].
  - destruct (Nat.eqb_spec p i); [congruence|lra].
  - destruct (Nat.eqb_spec p q); auto. destruct (Nat.eqb_spec i p); [congruence|lra].
Qed.
Lemma form_ext A e e' : (forall p, p < N -> e p = e' p) -> form A e -> form A e'.
Proof. intros E (S & H). split; auto. intros p q Hp Hq. rewrite H, E by auto. reflexivity. Qed.
Lemma times_form A e v p : form A e -> p < N ->
  times A v p = (flux N (coupling m) (fun q => nth q v 0) p - (acc m p + e p) * nth p v 0)%R.
Proof.
  intros (S & H) Hp. unfold times. rewrite S.
  rewrite (rsum_ext _ (fun q => if p =? q then (- rsum (coupling m p) 0 N - acc m p - e p) * nth q v 0 else coupling m p q * nth q v 0))%R.
  2:{ intros q Hq. rewrite H by lia. destruct (p =? q); reflexivity. }
  rewrite rsum_pick by lia. destruct (cp_sym K p p Hp Hp) as (_ & -> & _). unfold flux.
  rewrite (rsum_ext (fun q => coupling m p q * (nth q v 0 - nth p v 0))%R (fun q => coupling m p q * nth q v 0 - nth p v 0 * coupling m p q)%R) by (intros; lra).
  rewrite rsum_minus, rsum_scal. lra.
Qed.
Lemma cp_nonneg p q : p < N -> q < N -> (0 <= coupling m p q)%R.
Proof. intros. now apply (cp_sym K). Qed.
Lemma form_regular A e : form A e -> (forall p, p < N -> (0 < acc m p + e p)%R) -> regular A.
Proof.
  intros Fm Hp. assert (S : msize A = N) by apply Fm. intros v L Z p Hpp. rewrite S in *.
  assert (E : forall p, p < N -> flux N (coupling m) (fun q => nth q v 0%R) p = ((acc m p + e p) * (nth p v 0 - 0))%R).
  { intros q Hq. specialize (Z q Hq). rewrite (times_form A e) in Z by auto. lra. }
  apply Rle_antisym.
  - apply (max_principle N (coupling m) cp_nonneg (fun q => nth q v 0%R) (fun _ => 0%R) (fun p => acc m p + e p)%R); auto. intros; lra.
  - apply (min_principle N (coupling m) cp_nonneg (fun q => nth q v 0%R) (fun _ => 0%R) (fun p => acc m p + e p)%R); auto. intros; lra.
Qed.
(** ** All interior cells are connected *)
Lemma connected (S : nat -> Prop) : (exists p, p < N /\ S p) ->
  (forall p q, p < N -> q < N -> S p -> (0 < coupling m p q)%R -> S q) -> forall p, p < N -> S p.
Proof.
  intros (p0 & H0 & S0) Cl. destruct (trans_ok K) as (M & _ & _ & Ec & _ & St).
  assert (W := md_wf K).
  assert (Lt : forall i j k, inb (b_grid m) false i j k -> at3 g false i j k < N).
  { intros i j k (? & ? & ?). rewrite (md_N K). apply at3_lt; auto. }
  assert (Both : forall a i j k i' j' k', flows g a -> inb (b_grid m) false i j k -> inb (b_grid m) false i' j' k' -> stepb a i j k i' j' k' = true ->
     (S (at3 g false i j k) <-> S (at3 g false i' j' k'))).
  { intros a i j k i' j' k' Fa I I' E. pose proof (St a i j k i' j' k' Fa I I' E) as P. rewrite Ec in P.
    split; intros Sx; [eapply Cl; [| |exact Sx|]|eapply Cl; [| |exact Sx|]]; auto.
    destruct (cp_sym K (at3 g false i j k) (at3 g false i' j' k')) as (<- & _); auto. }
  assert (Org : forall i j k, inb (b_grid m) false i j k -> (S (at3 g false i j k) <-> S (at3 g false 0 0 0))).
  { assert (Fl : forall a n, a <> ADash -> n + 1 < cnt (b_grid m) false a -> flows g a).
    { intros a n Na Hn. unfold cnt in Hn. cbn [count] in Hn. unfold flows. lia. }
    assert (X : forall i j k, inb (b_grid m) false i j k -> (S (at3 g false i j k) <-> S (at3 g false 0 j k))).
    { induction i as [|i IH]; intros j k I; [tauto|]. assert (I' : inb (b_grid m) false i j k) by (destruct I as (?&?&?); repeat split; auto; lia).
      rewrite <- (IH j k I'). symmetry. apply (Both AX); auto; [|unfold stepb; rewrite !Nat.eqb_refl, Nat.add_1_r, Nat.eqb_refl; reflexivity].
      destruct I as (?&?&?). eapply (Fl AX i); [discriminate|lia]. }
    assert (Y : forall j k, inb (b_grid m) false 0 j k -> (S (at3 g false 0 j k) <-> S (at3 g false 0 0 k))).
    { induction j as [|j IH]; intros k I; [tauto|]. assert (I' : inb (b_grid m) false 0 j k) by (destruct I as (?&?&?); repeat split; auto; lia).
      rewrite <- (IH k I'). symmetry. apply (Both AY); auto; [|unfold stepb; rewrite !Nat.eqb_refl, Nat.add_1_r, Nat.eqb_refl; reflexivity].
      destruct I as (?&?&?). eapply (Fl AY j); [discriminate|lia]. }
    assert (Zz : forall k, inb (b_grid m) false 0 0 k -> (S (at3 g false 0 0 k) <-> S (at3 g false 0 0 0))).
    { induction k as [|k IH]; intros I; [tauto|]. assert (I' : inb (b_grid m) false 0 0 k) by (destruct I as (?&?&?); repeat split; auto; lia).
      rewrite <- (IH I'). symmetry. apply (Both AZ); auto; [|unfold stepb; rewrite !Nat.eqb_refl, Nat.add_1_r, Nat.eqb_refl; reflexivity].
      destruct I as (?&?&?). eapply (Fl AZ k); [discriminate|lia]. }
    intros i j k I. rewrite X by auto. destruct I as (?&?&?). rewrite Y by (repeat split; auto; lia). rewrite Zz by (repeat split; auto; lia). tauto. }
  intros p Hp. rewrite (md_N K) in Hp, H0.
  destruct (at3_surj g false p W Hp) as (i & j & k & ? & ? & ? & ->). destruct (at3_surj g false p0 W H0) as (i0 & j0 & k0 & ? & ? & ? & ->).
  apply Org; [repeat split; auto|]. apply (Org i0 j0 k0); [repeat split; auto|exact S0].
Qed.
Lemma form_tied A e p0 : form A e -> (forall p, p < N -> (0 <= e p)%R) -> p0 < N -> (0 < e p0)%R -> regular A.
Proof.
  intros Fm He H0 E0. assert (S : msize A = N) by apply Fm. intros v L Z p Hpp. rewrite S in *.
  apply (tied_zero N (coupling m) cp_nonneg connected (fun q => nth q v 0%R) (fun p => acc m p + e p)%R p0); auto.
  - intros q Hq. pose proof (acc_nonneg K q Hq). specialize (He q Hq). lra.
  - pose proof (acc_nonneg K p0 H0). lra.
  - intros q Hq. specialize (Z q Hq). rewrite (times_form A e) in Z by auto. lra.
Qed.

(** ** Boundary cells *)
Lemma edge_ok idb id T : boundary_id m idb -> (let* T := get_cell_trans m idb false in the_only T) = Ok (id, T) ->
  (0 < T)%R /\ In id (b_ids m) /\ exists nb, get_cell_neighbors g idb false = Ok nb /\ dirs_list nb = [id].
Proof.
  intros (c & B & ->) E. pose proof (md_rock _ _ _ _ _ _ _ _ K) as Rk. pose proof (md_flow _ _ _ _ _ _ _ _ K) as HF.
  destruct B as (I & NI). destruct (L_C11_boundary_cell_one_neighbor g c (md_wf K) HF (conj I NI)) as (d & Ed & Le & H1).
  assert (OF : on_one_face g c).
  { apply H1. destruct (total d) as [|n] eqn:Et; [exfalso|lia].
    assert (Ed' := neighbors_id_canon g c false (md_wf K) HF I). cbv iota in Ed'. rewrite Ed in Ed'. inversion Ed' as [E1]. clear Ed'.
    destruct (cell_G_pairs _ _ _ _ _ _ _ _ Rk HF c false I) as (iso & Ei & EG); [discriminate|].
    unfold get_cell_trans in E. rewrite EG in E. cbn [rbind] in E.
    assert (Nil : Gpairs (b_grid m) dx dy dz iso false c = []).
    { unfold Gpairs. rewrite E1 in Et. unfold total, dirs_of in Et. cbn [d_x d_y d_z] in Et. apply length_zero_iff_nil in Et.
      apply app_eq_nil in Et as (Ex & Et). apply app_eq_nil in Et as (Ey & Ez). apply map_eq_nil in Ex, Ey, Ez.
      assert (Q : forall a, a <> ADash -> nbrs (b_grid m) false a c = []) by (intros [] Na; try congruence; assumption).
      assert (Q2 : forall l, (forall a, In a l -> a <> ADash) -> flat_map (fun a => map (fun c' => (natural_id g c', Gf (b_grid m) dx dy dz iso a c c')) (nbrs (b_grid m) false a c)) l = []).
      { induction l as [|a l IH]; intros Ha; [reflexivity|]. cbn [flat_map]. rewrite Q, IH; auto; [intros; apply Ha; now right|apply Ha; now left]. }
      apply Q2. intros a Ia. apply (flow_dash (b_grid m)). now apply (fdir_flows _ _ _ _ _ _ _ _ Rk). }
    rewrite Nil in E. discriminate. }
  destruct (face_cell _ _ _ _ _ _ _ _ Rk HF c (conj I NI) OF) as (a & c' & iso & Fa & Ic & _ & _ & En & EG & Ps).
  unfold get_cell_trans in E. rewrite EG in E. cbn in E. inversion E; subst. clear E.
  pose proof (muB_pos K) as Pm. split.
  - apply Rmult_lt_0_compat; [exact Ps|]. now apply Rinv_0_lt_compat.
  - split; [apply (ids_facts K); eauto|]. eexists. split; [exact En|]. pose proof (flow_dash (b_grid m) a Fa).
    destruct a; try congruence; reflexivity.
Qed.
End vect.
