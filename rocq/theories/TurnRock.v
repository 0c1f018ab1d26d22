(** Grids turned round have the same transmissibilities. *)
From Coq Require Import String ZArith Bool Arith List Lia Reals Lra Permutation.
From Verif Require Import Prelude PreludeFacts Num GridModel GridSpec GridProofs GridNeighbors GridThm GeoModel GeoSpec GeoProofs GeoThm
  PropModel PropSpec PropProofs TransProofs MatrixProofs BlackOilModel FdmModel ModelSpec ModelFacts NbrFacts InvFacts BalanceSpec LocalSpec TurnSpec TurnGeo.
Import ListNotations.
Close Scope R_scope.
Open Scope nat_scope.

(** What turned and raised reservoirs have in common. *)
Record aligned (r : bool * bool * bool) (h ee : R) (o o' : gobj R) : Prop := {
  al_e : (0 < ee)%R;
  al_shape : gr (geom o') = gr (geom o);
  al_T : tfac o' = tfac o;
  al_d : forall a c, a <> ADash -> in_grid (gr (geom o)) c ->
    get_cell_d (geom o') a (ById (natural_id (gr (geom o)) (turn (gr (geom o)) r c))) = get_cell_d (geom o) a (ById (natural_id (gr (geom o)) c));
  al_k : forall n c, In n [KX; KY; KZ] -> in_grid (gr (geom o)) c -> reading o' n (natural_id (gr (geom o)) (turn (gr (geom o)) r c)) = let* k := reading o n (natural_id (gr (geom o)) c) in Ok (ee * k)%R;
  al_z : forall c, in_grid (gr (geom o)) c -> held o' ZED (natural_id (gr (geom o)) (turn (gr (geom o)) r c)) = let* v := held o ZED (natural_id (gr (geom o)) c) in Ok (v + h)%R }.
Lemma by_one (x : res R) : x = let* k := x in Ok (1 * k)%R.
Proof. destruct x; cbn [rbind]; auto. now rewrite Rmult_1_l. Qed.
Lemma aligned_turned r o o' : turned r o o' -> aligned r 0 1 o o'.
Proof.
  intros [S T C D P A]. constructor; auto; [lra| |].
  - intros n c _ I. rewrite <- by_one. auto.
  - intros c I. rewrite (A ZED c I). destruct (held o ZED (natural_id (gr (geom o)) c)); cbn [rbind]; auto. now rewrite Rplus_0_r.
Qed.
Lemma turn_id g c : turn g (false, false, false) c = c.
Proof. destruct c as [[i j] k]. reflexivity. Qed.
Lemma aligned_eased ee h o o' : eased ee h o o' -> aligned (false, false, false) h ee o o'.
Proof.
  intros [E S T D P A]. constructor; auto.
  - intros a c. rewrite turn_id. auto.
  - intros a c. rewrite turn_id. auto.
  - intros c I. rewrite turn_id. destruct (A c I) as (v & -> & ->). reflexivity.
Qed.
Lemma raised_eased h o o' : raised h o o' -> eased 1 h o o'.
Proof. intros [S T D P A]. constructor; auto; [lra|]. intros n c Hn I. rewrite <- by_one. auto. Qed.
Lemma aligned_raised h o o' : raised h o o' -> aligned (false, false, false) h 1 o o'.
Proof. intros T. now apply aligned_eased, raised_eased. Qed.
Lemma aligned_sym r h ee o o' : aligned r h ee o o' -> aligned r (- h) (/ ee) o' o.
Proof.
  intros [E S T D P A]. constructor.
  - now apply Rinv_0_lt_compat.
  - now symmetry.
  - now symmetry.
  - intros a c N I. rewrite S in I |- *. specialize (D a (turn (gr (geom o)) r c) N (turn_in_grid _ r c I)). rewrite turn_invol in D. now symmetry.
  - intros n c Hn I. rewrite S in I |- *. specialize (P n (turn (gr (geom o)) r c) Hn (turn_in_grid _ r c I)). rewrite turn_invol in P. rewrite P.
    destruct (reading o n _) as [v|]; cbn [rbind]; auto. f_equal. field. lra.
  - intros c I. rewrite S in I |- *. specialize (A (turn (gr (geom o)) r c) (turn_in_grid _ r c I)). rewrite turn_invol in A. rewrite A.
    destruct (held o ZED _) as [v|]; cbn [rbind]; auto. f_equal. lra.
Qed.

(** ** Isotropy *)
Lemma all_same_true (l : list R) : all_same l = Ok true <-> l <> [] /\ forall u v, In u l -> In v l -> u = v.
Proof.
  unfold all_same. destruct l as [|a l]; [split; [discriminate|intros (H & _); congruence]|]. split.
  - intros H. assert (Q : forallb (fun x => neqb x a) (a :: l) = true) by congruence. clear H. split; [discriminate|]. rename Q into H. rewrite forallb_forall in H. intros u v Hu Hv. apply H, Reqb_true in Hu. apply H, Reqb_true in Hv. congruence.
  - intros (_ & H). f_equal. apply forallb_forall. intros v Hv. apply Reqb_true. apply H; auto. now left.
Qed.
Lemma all_const_true (ls : list (res (list R))) : all_const ls = Ok true <-> Forall (fun l => exists v, l = Ok v /\ all_same v = Ok true) ls.
Proof.
  induction ls as [|l ls IH]; cbn [all_const]; [split; auto|]. split.
  - intros H. destruct l as [v|]; [|discriminate]. cbn [rbind] in H. destruct (all_same v) as [b|] eqn:E; [|discriminate]. cbn [rbind] in H. destruct b; [|discriminate]. constructor; [eauto|now apply IH].
  - intros H. inversion H as [|? ? (v & -> & E) Q]; subst. cbn [rbind]. rewrite E. cbn [rbind]. now apply IH.
Qed.
Lemma rmapM_in {A B} (f : A -> res B) l v b : rmapM f l = Ok v -> (In b v <-> exists a, In a l /\ f a = Ok b).
Proof.
  intros E. apply rmapM_Forall2 in E. induction E as [|a b' l v E F IH]; cbn [In]; [split; [intros []|intros (? & [] & _)]|]. rewrite IH. split.
  - intros [<-|(a' & I & Ea)]; eauto.
  - intros (a' & [<-|I] & Ea); [left; congruence|eauto].
Qed.

Lemma n_some g : wf g -> 0 < get_n g true.
Proof.
  intros W. rewrite get_n_true by auto. destruct W as (? & ? & ?).
  assert (P : forall n, 1 <= n -> 0 < pad n) by (intros n ?; unfold pad; destruct (1 <? n); lia). pose proof (P _ H). pose proof (P _ H0). pose proof (P _ H1).
  repeat apply Nat.mul_pos_pos; auto.
Qed.
Section rocks.
Context (r : bool * bool * bool) (h ee : R) (o o' : gobj R) (x y z : nat) (u : bool) (dx dy dz : dinput R) (K : rock o x y z u dx dy dz).
Context (x' y' z' : nat) (u' : bool) (dx' dy' dz' : dinput R) (K' : rock o' x' y' z' u' dx' dy' dz') (T : aligned r h ee o o').
Notation g := (gr (geom o)).
Notation nid := (natural_id g).
Notation tn := (turn g r).
Lemma defined_turned n : In n [KX; KY; KZ] -> has_flow g -> defined o n = true -> defined o' n = true.
Proof.
  intros Kn Hf. pose proof (rk_wf _ _ _ _ _ _ _ _ K) as W. unfold defined. destruct (cur (pget n (prs o))) as [l|] eqn:E; [|discriminate]. intros _.
  set (c := (0, 0, 0)%Z : coord). assert (I : in_grid g c).
  { intros a Na. assert (1 <= size g a) by (destruct W as (? & ? & ?); destruct a; cbn; congruence || lia). unfold c, padded. destruct (Nat.ltb_spec 1 (size g a)); destruct a; cbn [at_axis size] in *; try congruence; lia. }
  pose proof (al_k _ _ _ _ _ T n c Kn I) as P. unfold reading, get_prop in P. rewrite E in P. cbn [rbind] in P. destruct (cur (pget n (prs o'))); auto. exfalso. cbn [rbind] in P.
  pose proof (rk_len _ _ _ _ _ _ _ _ K n l E) as L. assert (nid c = 0%Z) as Z0 by (cbn; lia). rewrite Z0 in P.
  assert (0 < length l). { rewrite L. now apply n_some. }
  destruct l as [|v l]; [cbn in H; lia|]. rewrite (pyget_nth _ 0 v) in P by (cbn; lia). discriminate.
Qed.
Lemma const_turned n v : In n [KX; KY; KZ] -> has_flow g -> get_prop o n false = Ok v -> all_same v = Ok true -> defined o' n = true -> exists v', get_prop o' n false = Ok v' /\ all_same v' = Ok true.
Proof.
  intros Kn Hf E A D. pose proof (rk_wf _ _ _ _ _ _ _ _ K) as W. unfold get_prop in *. destruct (cur (pget n (prs o))) as [l|] eqn:El; [|discriminate]. unfold defined in D. destruct (cur (pget n (prs o'))) as [l'|] eqn:El'; [|discriminate].
  unfold at_cells_id in *. unfold ggrid in *. rewrite (al_shape _ _ _ _ _ T). destruct (get_cells_id g false) as [ids|] eqn:Ei; [|discriminate]. cbn [rbind] in *.
  assert (Q : forall id, In id ids <-> exists c, interior g c /\ id = nid c).
  { destruct (L_C03_interior_boundary_partition g W Hf) as (inner & bound & Q1 & _ & _ & _ & H1 & _). rewrite Ei in Q1. injection Q1 as <-. exact H1. }
  assert (P : forall c, interior g c -> pyget l' (nid (tn c)) = let* k := pyget l (nid c) in Ok (ee * k)%R).
  { intros c I. pose proof (al_k _ _ _ _ _ T n c Kn (interior_in_grid _ _ W I)) as P. unfold reading, get_prop in P. now rewrite El, El' in P. }
  pose proof (fun b => rmapM_in _ _ _ b E) as M. 
  assert (Ex : exists v', rmapM (pyget l') ids = Ok v').
  { pose proof (rk_len _ _ _ _ _ _ _ _ K' n l' El') as L. rewrite (al_shape _ _ _ _ _ T) in L. destruct l' as [|d l']; [|eexists; apply (rmapM_pyget _ _ d)].
    - exfalso. cbn [length] in L. pose proof (n_some _ W). lia.
    - intros id Hid. rewrite L. destruct (L_C03_interior_boundary_partition g W Hf) as (inner & bound & Q1 & _ & _ & _ & _ & _ & Rg & _). rewrite Ei in Q1. injection Q1 as <-. apply Rg. auto. }
  destruct Ex as (v' & Ev'). exists v'. split; auto. apply all_same_true in A as (A1 & A2). apply all_same_true.
  pose proof (fun b => rmapM_in _ _ _ b Ev') as M'.
  assert (S : forall b, In b v' -> exists b0, In b0 v /\ b = (ee * b0)%R).
  { intros b. rewrite M'. intros (id & I & Eb). apply Q in I as (c & I & ->). rewrite <- (turn_invol g r c), P in Eb; [|now apply turn_interior].
    destruct (pyget l (nid (tn c))) as [b0|] eqn:E0; [|discriminate]. cbn [rbind] in Eb. exists b0. split; [|congruence]. apply M. exists (nid (tn c)). split; auto. apply Q. exists (tn c). split; auto. now apply turn_interior. }
  split.
  - intros ->. destruct v as [|b v]; [congruence|]. destruct (proj1 (M b) (or_introl eq_refl)) as (id & I & Eb). apply Q in I as (c & I & ->). pose proof (P c I) as Pc. rewrite Eb in Pc. cbn [rbind] in Pc.
    apply (proj2 (M' (ee * b)%R)). exists (nid (tn c)). split; auto. apply Q. exists (tn c). split; auto. now apply turn_interior.
  - intros a b Ha Hb. apply S in Ha as (a0 & Ha & ->). apply S in Hb as (b0 & Hb & ->). f_equal. auto.
Qed.
End rocks.
Lemma iso_half r h ee o o' x y z u dx dy dz x' y' z' u' dx' dy' dz' : rock o x y z u dx dy dz -> rock o' x' y' z' u' dx' dy' dz' -> aligned r h ee o o' -> has_flow (gr (geom o)) ->
  is_isotropic o = Ok true -> is_isotropic o' = Ok true.
Proof.
  intros K K' T Hf E. unfold is_isotropic in *. rewrite all_const_true in *. rewrite Forall_map in *. rewrite Forall_forall in *. intros n I. apply filter_In in I as (I & D).
  assert (D' : defined o n = true).
  { apply (defined_turned r (- h) (/ ee) o' o _ _ _ _ _ _ _ K' (aligned_sym _ _ _ _ _ T) n); auto. now rewrite (al_shape _ _ _ _ _ T). }
  destruct (E n) as (v & Ev & A); [apply filter_In; auto|]. exact (const_turned r h ee o o' _ _ _ _ _ _ _ K _ _ _ _ _ _ _ K' T n v I Hf Ev A D).
Qed.
Lemma iso_turned r h ee o o' x y z u dx dy dz x' y' z' u' dx' dy' dz' b b' : rock o x y z u dx dy dz -> rock o' x' y' z' u' dx' dy' dz' -> aligned r h ee o o' -> has_flow (gr (geom o)) ->
  is_isotropic o = Ok b -> is_isotropic o' = Ok b' -> b = b'.
Proof.
  intros K K' T Hf E E'. destruct b.
  - rewrite (iso_half _ _ _ _ _ _ _ _ _ _ _ _ _ _ _ _ _ _ _ K K' T Hf E) in E'. congruence.
  - destruct b'; auto. rewrite (iso_half _ _ _ _ _ _ _ _ _ _ _ _ _ _ _ _ _ _ _ K' K (aligned_sym _ _ _ _ _ T)) in E; [congruence|now rewrite (al_shape _ _ _ _ _ T)|exact E'].
Qed.

(** ** Geometry *)
Section geo.
Context (r : bool * bool * bool) (h ee : R) (o o' : gobj R) (x y z : nat) (u : bool) (dx dy dz : dinput R) (K : rock o x y z u dx dy dz).
Context (x' y' z' : nat) (u' : bool) (dx' dy' dz' : dinput R) (K' : rock o' x' y' z' u' dx' dy' dz') (T : aligned r h ee o o').
Notation g := (gr (geom o)).
Notation nid := (natural_id g).
Notation tn := (turn g r).
Lemma dval_turned a c : a <> ADash -> in_grid g c -> dval dx' dy' dz' a (pos AX (tn c)) (pos AY (tn c)) (pos AZ (tn c)) = dval dx dy dz a (pos AX c) (pos AY c) (pos AZ c).
Proof.
  intros N I. pose proof (al_d _ _ _ _ _ T a c N I) as D. unfold get_cell_d in D. pose proof (rk_built _ _ _ _ _ _ _ _ K) as B. pose proof (rk_built _ _ _ _ _ _ _ _ K') as B'.
  rewrite (cd_canon _ _ _ _ _ _ _ _ B), (cd_canon _ _ _ _ _ _ _ _ B') in D by auto. rewrite (at_id _ _ _ _ _ _ _ _ B) in D by auto. rewrite <- (al_shape _ _ _ _ _ T) in D at 1.
  rewrite (at_id _ _ _ _ _ _ _ _ B') in D by (rewrite (al_shape _ _ _ _ _ T); now apply turn_in_grid). injection D as D. unfold dval. destruct a; try congruence; exact D.
Qed.
Lemma sps_turned c : in_grid g c -> sp dx' (pos AX (tn c)) = sp dx (pos AX c) /\ sp dy' (pos AY (tn c)) = sp dy (pos AY c) /\ sp dz' (pos AZ (tn c)) = sp dz (pos AZ c).
Proof. intros I. split; [exact (dval_turned AX c ltac:(discriminate) I)|split; [exact (dval_turned AY c ltac:(discriminate) I)|exact (dval_turned AZ c ltac:(discriminate) I)]]. Qed.
Lemma kad_turned a c : flows g a -> in_grid g c -> cv o' dx' dy' dz' a (pos AX (tn c)) (pos AY (tn c)) (pos AZ (tn c)) = match cv o dx dy dz a (pos AX c) (pos AY c) (pos AZ c) with (k, A, d) => ((ee * k)%R, A, d) end.
Proof.
  intros Fa I. pose proof (flow_dash o a Fa) as Na. destruct (sps_turned c I) as (Sx & Sy & Sz). unfold cv. rewrite (dval_turned a c Na I). unfold Aval. rewrite Sx, Sy, Sz. do 2 f_equal. 
  assert (Ck : forall a' , a' = a -> get_cell_k o' a' (ById (nid (tn c))) = let* k := get_cell_k o a' (ById (nid c)) in Ok (ee * k)%R).
  { intros a' ->. unfold get_cell_k, get_cells_k, cell_lookup. destruct (kname a) as [n|] eqn:Ek; [|reflexivity]. apply (al_k _ _ _ _ _ T n c); auto. destruct a; try discriminate; injection Ek as <-; cbn; auto. }
  specialize (Ck a eq_refl). pose proof (cell_kAd_canon o x y z u dx dy dz K a c Fa I) as E. pose proof (cell_kAd_canon o' x' y' z' u' dx' dy' dz' K' a (tn c)) as E'. rewrite (al_shape _ _ _ _ _ T) in E'. specialize (E' Fa (turn_in_grid _ _ _ I)).
  unfold cell_kAd in E, E'. rewrite Ck in E'.
  destruct (get_cell_d (geom o) a (ById (nid c))); [|discriminate]. destruct (get_cell_d (geom o') a (ById (nid (tn c)))); [|discriminate]. cbn [rbind] in E, E'.
  destruct (get_cell_A (geom o) a (ById (nid c))); [|discriminate]. destruct (get_cell_A (geom o') a (ById (nid (tn c)))); [|discriminate]. cbn [rbind] in E, E'.
  destruct (get_cell_k o a (ById (nid c))) as [k|]; [|discriminate]. cbn [rbind] in E, E'. unfold cv in E, E'. congruence.
Qed.
Lemma Gf_turned iso a c c' : flows g a -> in_grid g c -> in_grid g c' -> Gf o' dx' dy' dz' iso a (tn c) (tn c') = (ee * Gf o dx dy dz iso a c c')%R.
Proof.
  intros Fa I I'. unfold Gf. rewrite !kad_turned by auto. rewrite (al_T _ _ _ _ _ T). pose proof (al_e _ _ _ _ _ T) as He.
  destruct (cv o dx dy dz a (pos AX c) (pos AY c) (pos AZ c)) as [[k A] d], (cv o dx dy dz a (pos AX c') (pos AY c') (pos AZ c')) as [[k' A'] d'].
  destruct iso; unfold G_arith, G_harm; cbn -[Rdiv Rinv].
  - unfold Rdiv. ring.
  - replace (d / (A * (ee * k)) + d' / (A' * (ee * k')))%R with (/ ee * (d / (A * k) + d' / (A' * k')))%R by (unfold Rdiv; rewrite !Rinv_mult; ring).
    unfold Rdiv at 1. rewrite Rinv_mult, Rinv_inv. unfold Rdiv. ring.
Qed.
Lemma cV_turned c : in_grid g c -> pyget (cV (geom o')) (nid (tn c)) = pyget (cV (geom o)) (nid c).
Proof.
  intros I. pose proof (rk_built _ _ _ _ _ _ _ _ K) as B. pose proof (rk_built _ _ _ _ _ _ _ _ K') as B'. rewrite (cV_canon _ _ _ _ _ _ _ _ B), (cV_canon _ _ _ _ _ _ _ _ B').
  pose proof (fun f => at_id (A := R) _ _ _ _ _ _ _ _ B f c I) as Q. pose proof (fun f => at_id (A := R) _ _ _ _ _ _ _ _ B' f (tn c)) as Q'. unfold cell_lookup in Q, Q'. rewrite (al_shape _ _ _ _ _ T) in *.
  rewrite Q, Q' by now apply turn_in_grid. destruct (sps_turned c I) as (-> & -> & ->). reflexivity.
Qed.
End geo.
