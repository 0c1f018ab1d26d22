(** Histories of closed reservoirs. *)
From Coq Require Import String ZArith Bool Arith List Lia Reals Lra.
From Verif Require Import Prelude PreludeFacts Num GridModel GridSpec GridProofs GeoModel GeoSpec GeoProofs
  PropModel PropSpec MatrixProofs BlackOilModel FdmModel MonadFacts HistSpec InvFacts SumFacts ModelSpec ModelFacts VectFacts FaceFacts AsmFacts BalanceSpec
  StepSpec SolverSpec StepFacts WellStepFacts FdmSpec CanonFacts LinFacts NbrFacts SymbFacts BalFacts FormFacts ClosedSpec MixFacts.
Import ListNotations.
Close Scope R_scope.
Open Scope nat_scope.

Section hist.
Context {m0 : bo R} {x y z : nat} {u : bool} {dx dy dz : dinput R} (K : model m0 x y z u dx dy dz).
Notation N := (length (b_ids m0)).
Context (okv : bool -> Prop) (Q : list (fl R) -> list (fl R) -> Prop).
Hypothesis HQ : forall v r r' yy old Cp w, okv v ->
  (forall p id, nth_error (b_ids m0) p = Some id -> value r' id = Some (nth p yy 0%R)) ->
  (forall p q, p < N -> q < N -> (0 <= Cp p q)%R) -> (if v then forall p, w p = 0%R else w = weight (m := m0)) ->
  (forall p id, nth_error (b_ids m0) p = Some id -> value r id = Some (old p)) ->
  (forall p, p < N -> flux N Cp (fun q => nth q yy 0 - w q)%R p = (acc m0 p * (nth p yy 0 - old p))%R) -> Q r r'.
Hypothesis Cm : b_cmp m0 = true.

Definition HI (m : bo R) (s : fs R) : Prop := (exists T, m = set_terms T m0) /\ closed m /\ CI (m := m) s /\
  nth_error (s_p s) 0 = Some (b_ip m0) /\
  forall k r r', nth_error (s_p s) k = Some r -> nth_error (s_p s) (S k) = Some r' -> Q r r'.
Definition good (sc : Z -> R) (o : sopts) : Prop := o_upd o = true /\ o_print o = false /\ (o_vect o = true \/ (o_thr o = false /\ forall id, sc id <> 0%R)) /\ okv (o_vect o).

Lemma hi_solve slv sc fuel sparse o m s X : exact slv -> good sc o -> HI m s -> solve slv sc fuel sparse o (m, s) = (X, Ok tt) -> HI (fst X) (snd X).
Proof.
  intros Ex (U & Pr & Pa & Ok) ((T & ET) & Cl & Ci & Z0 & Ch) E.
  assert (C : core m0 = core m) by (subst m; now rewrite core_terms).
  pose proof (model_core _ _ _ _ _ _ _ _ _ C K) as K'.
  destruct (closed_step K' slv sc fuel sparse o s X Cl Ci Ex U Pr Pa E) as ((T' & G1 & G1') & G2 & G3 & prow & yy & Cp & w & G4 & G5 & G6 & G7 & G8 & G9).
  destruct Ci as (Sh & _). destruct (last_at s Sh) as (La & _). destruct Sh as (Sh1 & Sh2).
  assert (NE : s_p s <> []) by (intros E0; rewrite E0 in Sh1; discriminate).
  split; [exists T'; rewrite G1, ET; destruct m0; reflexivity|]. split; [rewrite G1; destruct m; exact Cl|]. split; [rewrite G1; now apply CI_terms|].
  split; [rewrite G4, nth_error_app1 by lia; exact Z0|].
  intros k r r' Hk Hk'. rewrite G4 in Hk, Hk'. destruct (Nat.eq_dec (S k) (length (s_p s))) as [Ek|Ek].
  - rewrite nth_error_app2 in Hk' by lia. rewrite Ek, Nat.sub_diag in Hk'. inversion Hk'; subst r'.
    rewrite nth_error_app1 in Hk by lia. replace k with (s_tstep s) in Hk by lia. rewrite La in Hk. inversion Hk; subst r.
    assert (Ei : b_ids m = b_ids m0) by (subst m; destruct m0; reflexivity).
    rewrite Ei in *. apply (HQ (o_vect o) _ _ yy (oldp (m := m) s) Cp w Ok G5 G6).
    + destruct (o_vect o); auto. rewrite G7. subst m. destruct m0; reflexivity.
    + apply G8. subst m. destruct m0; exact Cm.
    + intros p Hp. rewrite (G9 p Hp). now rewrite (acc_core _ _ _ C).
  - assert (S k < length (s_p s)) by (assert (S k < length (s_p s ++ [prow])) by (apply nth_error_Some; congruence); rewrite app_length in *; cbn in *; lia).
    rewrite nth_error_app1 in Hk, Hk' by lia. eauto.
Qed.
Lemma hi_loop slv sc fuel sparse o n : exact slv -> good sc o -> forall m s X, HI m s -> run_loop slv sc n fuel sparse o (m, s) = (X, Ok tt) -> HI (fst X) (snd X).
Proof.
  intros Ex G. induction n as [|n IH]; intros m s X H E; cbn [run_loop] in E; [inversion E; subst; exact H|].
  apply mbind_ok in E as ([] & [m1 s1] & E1 & E). apply (hi_solve _ _ _ _ _ _ _ _ Ex G H) in E1. exact (IH _ _ _ E1 E).
Qed.
Lemma hi_call c m s X : direct c -> (forall v, path v c -> okv v) -> HI m s -> exec c (m, Some s) = (X, Ok tt) -> exists s', snd X = Some s' /\ HI (fst X) s'.
Proof.
  intros D P H E. destruct c; try contradiction; cbn [exec] in E; unfold of_solution in E; cbn [fst snd] in E.
  - destruct (solve slv sc fuel sparse o (m, s)) as [[m1 s1] r] eqn:Es. cbn [fst snd] in E. inversion E; subst X r; clear E. exists s1. split; auto.
    destruct D as (D1 & D2 & D3 & D4). apply (hi_solve slv sc fuel sparse o m s _ D1) in Es; auto. split; auto. split; auto. split; auto. apply P. reflexivity.
  - destruct (run slv sc n fuel sparse thr vect mb pr iso (m, s)) as [[m1 s1] r] eqn:Es. cbn [fst snd] in E. inversion E; subst X r; clear E. exists s1. split; auto.
    destruct D as (D1 & D2 & D3). unfold run in Es. apply mbind_ok in Es as ([] & X1 & E1 & Es). apply mset_ok in E1. cbn [fst snd] in E1. inversion E1; subst X1; clear E1.
    apply mbind_ok in Es as ([] & X2 & E2 & Es). assert (X2 = (m1, s1)) as -> by (destruct mb; cbn [mwhen] in Es; [apply mread_ok in Es as (-> & _); auto|inversion Es; auto]).
    apply (hi_loop slv sc fuel sparse _ n D1) in E2; [exact E2| |].
    + split; [reflexivity|]. split; [exact D2|]. split; [exact D3|]. apply P. reflexivity.
    + destruct s. exact H.
Qed.
Lemma hi_calls l : Forall direct l -> forall m s m' s', HI m s -> (forall c, In c l -> forall v, path v c -> okv v) -> all_ok (m, Some s) l -> after (m, Some s) l = (m', Some s') -> HI m' s'.
Proof.
  intros D. induction D as [|c l D1 D2 IH]; intros m s m' s' H P A E; cbn [after fold_left all_ok] in *; [inversion E; subst; exact H|].
  destruct A as (A1 & A2). destruct (exec c (m, Some s)) as [X r] eqn:Ec. cbn [fst snd] in *. subst r.
  destruct (hi_call c m s X D1 (P c (or_introl eq_refl)) H Ec) as (s1 & Es & H1). destruct X as [m1 o1]. cbn [fst snd] in *. subst o1.
  apply (IH m1 s1 m' s' H1); auto. intros c' I. apply P. now right.
Qed.
Lemma hi_start : fresh m0 -> HI m0 (fdm_new m0).
Proof.
  intros (Cl & Tm). split; [exists (b_terms m0); now destruct m0|]. split; auto. split; [|split; [reflexivity|]].
  - split; [split; reflexivity|]. split; [intros id t; rewrite Tm; discriminate|]. split; left; reflexivity.
  - intros [|[|k]] r r' H H'; discriminate.
Qed.
End hist.

Section closed.
Context {m0 : bo R} {x y z : nat} {u : bool} {dx dy dz : dinput R} (K : model m0 x y z u dx dy dz).
Notation N := (length (b_ids m0)).
(** What one step does. *)
Lemma level_weight : level m0 -> forall p q, p < N -> q < N -> weight (m := m0) p = weight (m := m0) q.
Proof.
  intros L p q Hp Hq. destruct (nth_id p Hp) as (id & E & I). destruct (nth_id q Hq) as (j & E' & I'). unfold weight.
  rewrite (nth_error_nth _ _ _ E), (nth_error_nth _ _ _ E'). now rewrite (level_height id j L I I').
Qed.
Lemma flux_shift Cp (f : nat -> R) w p : (forall p q, p < N -> q < N -> w p = w q) -> p < N -> flux N Cp (fun q => f q - w q)%R p = flux N Cp f p.
Proof. intros W Hp. unfold flux. apply rsum_ext. intros q Hq. rewrite (W q p) by lia. ring. Qed.
Lemma closed_history l m s (okv : bool -> Prop) (Q : list (fl R) -> list (fl R) -> Prop) : fresh m0 -> b_cmp m0 = true -> Forall direct l ->
  (forall c v, In c l -> path v c -> okv v) ->
  (forall v r r' yy old Cp w, okv v ->
  (forall p id, nth_error (b_ids m0) p = Some id -> value r' id = Some (nth p yy 0%R)) ->
  (forall p q, p < N -> q < N -> (0 <= Cp p q)%R) -> (if v then forall p, w p = 0%R else w = weight (m := m0)) ->
  (forall p id, nth_error (b_ids m0) p = Some id -> value r id = Some (old p)) ->
  (forall p, p < N -> flux N Cp (fun q => nth q yy 0 - w q)%R p = (acc m0 p * (nth p yy 0 - old p))%R) -> Q r r') ->
  all_ok (m0, None) (Compile :: l) -> after (m0, None) (Compile :: l) = (m, Some s) ->
  nth_error (s_p s) 0 = Some (b_ip m0) /\ forall k r r', nth_error (s_p s) k = Some r -> nth_error (s_p s) (S k) = Some r' -> Q r r'.
Proof.
  intros Fr Cm D P HQ A E. cbn [all_ok after fold_left exec] in A, E. destruct A as (_ & A). cbn in A, E.
  destruct (hi_calls K okv Q HQ Cm l D m0 (fdm_new m0) m s) as (_ & _ & _ & H1 & H2); auto.
  - eapply hi_start; eauto.
  - intros c I v. now apply P.
Qed.
Lemma acc_pos p : b_cmp m0 = true -> p < N -> (0 < acc m0 p)%R.
Proof. intros C Hp. pose proof (acc_sign K p Hp) as A. now rewrite C in A. Qed.
Lemma bounds_step Cp w yy old lo hi : b_cmp m0 = true -> (forall p q, p < N -> q < N -> (0 <= Cp p q)%R) ->
  (forall p, p < N -> flux N Cp (fun q => nth q yy 0 - w q)%R p = (acc m0 p * (nth p yy 0 - old p))%R) ->
  (forall p, p < N -> (lo <= old p - w p <= hi)%R) -> forall p, p < N -> (lo <= nth p yy 0 - w p <= hi)%R.
Proof.
  intros Cm Cn Fx B p Hp. set (Y := fun q => (nth q yy 0 - w q)%R) in *. set (O := fun q => (old q - w q)%R).
  assert (E : forall q, q < N -> flux N Cp Y q = (acc m0 q * (Y q - O q))%R) by (intros q Hq; rewrite (Fx q Hq); unfold Y, O; ring).
  split.
  - apply (min_principle N Cp ltac:(intros; now apply Cn) Y O (acc m0)); auto; intros; [now apply acc_pos|now apply B].
  - apply (max_principle N Cp ltac:(intros; now apply Cn) Y O (acc m0)); auto; intros; [now apply acc_pos|now apply B].
Qed.
Lemma within_step v r r' yy old Cp w lo hi : b_cmp m0 = true -> (level m0 \/ v = true) ->
  (forall p id, nth_error (b_ids m0) p = Some id -> value r' id = Some (nth p yy 0%R)) ->
  (forall p q, p < N -> q < N -> (0 <= Cp p q)%R) -> (if v then forall p, w p = 0%R else w = weight (m := m0)) ->
  (forall p id, nth_error (b_ids m0) p = Some id -> value r id = Some (old p)) ->
  (forall p, p < N -> flux N Cp (fun q => nth q yy 0 - w q)%R p = (acc m0 p * (nth p yy 0 - old p))%R) ->
  within m0 lo hi r -> within m0 lo hi r'.
Proof.
  intros Cm Lv V' Cn W V Fx B id I.
  assert (Fx' : forall p, p < N -> flux N Cp (fun q => nth q yy 0 - 0)%R p = (acc m0 p * (nth p yy 0 - old p))%R).
  { intros p Hp. rewrite <- (Fx p Hp). assert (Ws : forall p q, p < N -> q < N -> w p = w q).
    { destruct v; [intros; now rewrite !W|]. destruct Lv as [Lv|]; [|discriminate]. rewrite W. now apply level_weight. }
    rewrite (flux_shift Cp (fun q => nth q yy 0%R) w p Ws Hp). apply (flux_shift Cp (fun q => nth q yy 0%R) (fun _ => 0%R) p); auto. }
  assert (B' : forall p, p < N -> (lo <= old p - 0 <= hi)%R).
  { intros p Hp. destruct (nth_id p Hp) as (j & E & J). destruct (B j J) as (v0 & Ev & L). rewrite (V p j E) in Ev. inversion Ev; subst. lra. }
  destruct (In_nth_error _ _ I) as (p & E). assert (Hp : p < N) by (apply nth_error_Some; congruence).
  exists (nth p yy 0%R). split; [now apply V'|]. pose proof (bounds_step Cp (fun _ => 0%R) yy old lo hi Cm Cn Fx' B' p Hp). lra.
Qed.
Lemma potential_step r r' yy old Cp w lo hi : b_cmp m0 = true ->
  (forall p id, nth_error (b_ids m0) p = Some id -> value r' id = Some (nth p yy 0%R)) ->
  (forall p q, p < N -> q < N -> (0 <= Cp p q)%R) -> w = weight (m := m0) ->
  (forall p id, nth_error (b_ids m0) p = Some id -> value r id = Some (old p)) ->
  (forall p, p < N -> flux N Cp (fun q => nth q yy 0 - w q)%R p = (acc m0 p * (nth p yy 0 - old p))%R) ->
  within_potential m0 lo hi r -> within_potential m0 lo hi r'.
Proof.
  intros Cm V' Cn W V Fx (zs & Ez & B). exists zs. split; auto. intros id I.
  assert (H : forall p j h, nth_error (b_ids m0) p = Some j -> pyget zs j = Ok h -> w p = (b_g m0 * h)%R).
  { intros p j h E G. rewrite W. unfold weight, height. now rewrite (nth_error_nth _ _ _ E), Ez, G. }
  assert (B' : forall p, p < N -> (lo <= old p - w p <= hi)%R).
  { intros p Hp. destruct (nth_id p Hp) as (j & E & J). destruct (B j J) as (v0 & h & Ev & G & L). rewrite (V p j E) in Ev. inversion Ev; subst v0. now rewrite (H p j h). }
  destruct (In_nth_error _ _ I) as (p & E). assert (Hp : p < N) by (apply nth_error_Some; congruence).
  destruct (B id I) as (v0 & h & _ & G & _). exists (nth p yy 0%R), h. split; [now apply V'|]. split; auto. rewrite <- (H p id h E G). eapply bounds_step; eauto.
Qed.
End closed.
