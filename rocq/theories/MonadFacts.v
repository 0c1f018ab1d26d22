(** Facts on methods: a small Hoare logic for [M], record fields. *)
From Coq Require Import String ZArith Bool Arith List Lia.
From Verif Require Import Prelude PreludeFacts Num GridModel GeoModel PropModel BlackOilModel FdmModel.
Import ListNotations.
Open Scope nat_scope.

(** If [P] holds before, then [Q a] holds after a return of [a] and [E] after
    an exception. *)
Definition hoare {S A} (P : S -> Prop) (c : M S A) (Q : A -> S -> Prop) (E : S -> Prop) : Prop :=
  forall s, P s -> match c s with (s', Ok a) => Q a s' | (s', Err _) => E s' end.

Section hoare.
Context {S : Type}.
Implicit Types (P E : S -> Prop).
Lemma h_bind {A B} P (c : M S A) (f : A -> M S B) Q R E :
  hoare P c Q E -> (forall a, hoare (Q a) (f a) R E) -> hoare P (mbind c f) R E.
Proof.
  intros Hc Hf s Ps. specialize (Hc s Ps). unfold mbind. destruct (c s) as [s' [a|e]]; [|exact Hc].
  exact (Hf a s' Hc).
Qed.
Lemma h_ret {A} (a : A) P (Q : A -> S -> Prop) E : (forall s, P s -> Q a s) -> hoare P (mret a) Q E.
Proof. intros H s Ps. apply H, Ps. Qed.
Lemma h_read {A} (f : S -> res A) P (Q : A -> S -> Prop) (E : S -> Prop) :
  (forall s a, P s -> f s = Ok a -> Q a s) -> (forall s, P s -> E s) -> hoare P (mread f) Q E.
Proof. intros H HE s Ps. unfold mread. destruct (f s) eqn:Ef; auto. Qed.
Lemma h_set (f : S -> res S) P (Q : unit -> S -> Prop) (E : S -> Prop) :
  (forall s s', P s -> f s = Ok s' -> Q tt s') -> (forall s, P s -> E s) -> hoare P (mset f) Q E.
Proof. intros H HE s Ps. unfold mset. destruct (f s) eqn:Ef; [eapply H|]; eauto. Qed.
Lemma h_when b (c : M S unit) P Q E : (b = true -> hoare P c Q E) -> (b = false -> forall s, P s -> Q tt s) ->
  hoare P (mwhen b c) Q E.
Proof. intros H H'. destruct b; [now apply H|]. apply h_ret. auto. Qed.
Lemma h_opt {A} (v : option A) (f : A -> M S unit) P Q E :
  (forall a, v = Some a -> hoare P (f a) Q E) -> (v = None -> forall s, P s -> Q tt s) -> hoare P (mopt v f) Q E.
Proof. intros H H'. destruct v; [now apply H|]. apply h_ret. auto. Qed.
Lemma h_iter {A} (f : A -> M S unit) l P E : (forall a, In a l -> hoare P (f a) (fun _ => P) E) ->
  hoare P (miter f l) (fun _ => P) E.
Proof.
  induction l as [|a l IH]; intros H; simpl; [now apply h_ret|].
  apply h_bind with (Q := fun _ => P); [apply H; now left|]. intros _. apply IH. intros; apply H; now right.
Qed.
Lemma h_weak {A} P P' (c : M S A) (Q Q' : A -> S -> Prop) E E' : hoare P c Q E -> (forall s, P' s -> P s) ->
  (forall a s, Q a s -> Q' a s) -> (forall s, E s -> E' s) -> hoare P' c Q' E'.
Proof. intros H Hp Hq He s Ps. specialize (H s (Hp s Ps)). destruct (c s) as [s' [a|e]]; auto. Qed.
Lemma h_if {A} (b : bool) (c d : M S A) P Q E : (b = true -> hoare P c Q E) -> (b = false -> hoare P d Q E) ->
  hoare P (if b then c else d) Q E.
Proof. destruct b; auto. Qed.
Lemma h_conj {A} (c : M S A) P Q E P' Q' E' : hoare P c Q E -> hoare P' c Q' E' ->
  hoare (fun s => P s /\ P' s) c (fun a s => Q a s /\ Q' a s) (fun s => E s /\ E' s).
Proof. intros H H' s (p & p'). specialize (H s p). specialize (H' s p'). destruct (c s) as [s' [a|e]]; auto. Qed.
Lemma h_false {A} (c : M S A) P Q E : (forall s, P s -> False) -> hoare P c Q E.
Proof. intros H s Ps. destruct (H s Ps). Qed.
Lemma h_err {A} e P (Q : A -> S -> Prop) (E : S -> Prop) : (forall s, P s -> E s) -> hoare P (mread (fun _ => Err e)) Q E.
Proof. intros H s Ps. apply H, Ps. Qed.

(** Running forward. *)
Lemma mbind_ok {A B} (c : M S A) (f : A -> M S B) s s' b :
  mbind c f s = (s', Ok b) -> exists a s1, c s = (s1, Ok a) /\ f a s1 = (s', Ok b).
Proof. unfold mbind. destruct (c s) as [s1 [a|e]]; [eauto|congruence]. Qed.
Lemma mbind_run {A B} (c : M S A) (f : A -> M S B) s s1 a : c s = (s1, Ok a) -> mbind c f s = f a s1.
Proof. unfold mbind. now intros ->. Qed.
Lemma mbind_fail {A B} (c : M S A) (f : A -> M S B) s s1 e : c s = (s1, Err e) -> mbind c f s = (s1, Err e).
Proof. unfold mbind. now intros ->. Qed.
Lemma mread_ok {A} (f : S -> res A) s s' a : mread f s = (s', Ok a) -> s' = s /\ f s = Ok a.
Proof. unfold mread. intros H. inversion H. auto. Qed.
Lemma mset_ok (f : S -> res S) s s' a : mset f s = (s', Ok a) -> f s = Ok s'.
Proof. unfold mset. destruct (f s); intros H; inversion H; auto. Qed.
Lemma mset_run (f : S -> res S) s s' : f s = Ok s' -> mset f s = (s', Ok tt).
Proof. unfold mset. now intros ->. Qed.
End hoare.

(** Fields of the records after an assignment. *)
Section fields.
Context {F : Type}.
Implicit Types (m : bo F) (s : fs F).
Lemma wells_set_wells v m : b_wells (set_wells v m) = v. Proof. now destruct m. Qed.
Lemma wells_set_wp v m : b_wells (set_wp v m) = b_wells m. Proof. now destruct m. Qed.
Lemma wp_set_wp v m : b_wp (set_wp v m) = v. Proof. now destruct m. Qed.
Lemma wp_set_wells v m : b_wp (set_wells v m) = b_wp m. Proof. now destruct m. Qed.
Lemma set_wells_twice v v' m : set_wells v (set_wells v' m) = set_wells v m. Proof. now destruct m. Qed.
Lemma ids_set_wells v m : b_ids (set_wells v m) = b_ids m. Proof. now destruct m. Qed.
Lemma ids_set_wp v m : b_ids (set_wp v m) = b_ids m. Proof. now destruct m. Qed.
End fields.

Lemma dget_dset_z {A} k k' (v : A) d : dget k (dset k' v d) = if Z.eqb k k' then Some v else dget k d.
Proof.
  induction d as [|[k0 v0] d IH]; simpl.
  - reflexivity.
  - destruct (Z.eqb_spec k' k0); simpl; destruct (Z.eqb_spec k k0); destruct (Z.eqb_spec k k'); subst; auto; congruence.
Qed.
Lemma dget_dset_same {A} k (v : A) d : dget k (dset k v d) = Some v.
Proof. now rewrite dget_dset_z, Z.eqb_refl. Qed.
Lemma dget_dset_other {A} k k' (v : A) d : k <> k' -> dget k (dset k' v d) = dget k d.
Proof. intros N. rewrite dget_dset_z. destruct (Z.eqb_spec k k'); congruence. Qed.
Lemma dkeys_dset {A} k (v : A) d : dget k d <> None -> dkeys (dset k v d) = dkeys d.
Proof.
  induction d as [|[k0 v0] d IH]; simpl; [congruence|]. unfold dkeys in *.
  destruct (Z.eqb_spec k k0); simpl; [now subst|]. intros H. now rewrite IH.
Qed.
Lemma dget_In {A} k (v : A) d : dget k d = Some v -> In (k, v) d.
Proof.
  induction d as [|[k0 v0] d IH]; simpl; [congruence|]. destruct (Z.eqb_spec k k0).
  - intros E. inversion E. subst. now left.
  - intros E. right; auto.
Qed.
Lemma dget_keys {A} k (d : list (Z * A)) : In k (dkeys d) <-> dget k d <> None.
Proof.
  induction d as [|[k0 v0] d IH]; simpl; [now intuition|]. unfold dkeys in IH.
  destruct (Z.eqb_spec k k0); subst; [split; [congruence|now left]|]. rewrite <- IH. intuition congruence.
Qed.

(** ** A method that does not see the difference between [s] and [phi s] *)
Definition eqv {S A} (P : S -> Prop) (phi : S -> S) (c : M S A) : Prop :=
  forall s, P s -> c (phi s) = (phi (fst (c s)), snd (c s)) /\ P (fst (c s)).
Section eqv.
Context {S : Type} (P : S -> Prop) (phi : S -> S).
Lemma e_bind {A B} (c : M S A) (f : A -> M S B) : eqv P phi c -> (forall a, eqv P phi (f a)) -> eqv P phi (mbind c f).
Proof.
  intros Hc Hf s Ps. unfold mbind. destruct (Hc s Ps) as (E & P'). rewrite E. destruct (c s) as [s' [a|e]]; cbn [fst snd] in *; auto.
  apply Hf, P'.
Qed.
Lemma e_ret {A} (a : A) : eqv P phi (mret a).
Proof. intros s Ps. split; auto. Qed.
Lemma e_read {A} (f : S -> res A) : (forall s, P s -> f (phi s) = f s) -> eqv P phi (mread f).
Proof. intros H s Ps. unfold mread. cbn [fst snd]. rewrite H by auto. auto. Qed.
Lemma e_set (f : S -> res S) :
  (forall s, P s -> match f s with Ok s' => f (phi s) = Ok (phi s') /\ P s' | Err e => f (phi s) = Err e end) -> eqv P phi (mset f).
Proof. intros H s Ps. specialize (H s Ps). unfold mset. destruct (f s); [destruct H as (-> & H')|rewrite H]; auto. Qed.
Lemma e_when b (c : M S unit) : (b = true -> eqv P phi c) -> eqv P phi (mwhen b c).
Proof. intros H. destruct b; [now apply H|apply e_ret]. Qed.
Lemma e_opt {A} (v : option A) (f : A -> M S unit) : (forall a, eqv P phi (f a)) -> eqv P phi (mopt v f).
Proof. intros H. destruct v; [apply H|apply e_ret]. Qed.
Lemma e_iter {A} (f : A -> M S unit) l : (forall a, In a l -> eqv P phi (f a)) -> eqv P phi (miter f l).
Proof.
  induction l as [|a l IH]; intros H; simpl; [apply e_ret|]. apply e_bind; [apply H; now left|]. intros _. apply IH. intros; apply H; now right.
Qed.
Lemma e_if {A} (b : bool) (c d : M S A) : eqv P phi c -> eqv P phi d -> eqv P phi (if b then c else d).
Proof. destruct b; auto. Qed.
End eqv.
