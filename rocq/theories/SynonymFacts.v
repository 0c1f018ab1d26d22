(** Facts about setting and reading synonyms. *)
From Coq Require Import String ZArith Bool List Lia.
From Verif Require Import Prelude Num UnitsModel BlackOilModel SynonymModel SynonymSpec.
Import ListNotations.
Local Open Scope string_scope.

Lemma sget_sset {A} n k (v : A) d : sget n (sset k v d) = if String.eqb n k then Some v else sget n d.
Proof.
  induction d as [|[k' v'] d IH]; cbn.
  - destruct (String.eqb n k); reflexivity.
  - destruct (String.eqb_spec k k') as [->|E]; cbn.
    + destruct (String.eqb n k'); reflexivity.
    + rewrite IH. destruct (String.eqb_spec n k') as [->|]; auto.
      destruct (String.eqb_spec k' k); congruence.
Qed.
Definition memb (n : string) (l : list string) : bool := existsb (String.eqb n) l.
Lemma memb_In n l : memb n l = true <-> In n l.
Proof.
  unfold memb. rewrite existsb_exists. split.
  - intros (x & I & E). apply String.eqb_eq in E as ->. exact I.
  - intros I. exists n. split; auto. apply String.eqb_refl.
Qed.
Lemma sget_fold {A} n (a : A) names : forall d,
  sget n (fold_left (fun d n => sset n a d) names d) = if memb n names then Some a else sget n d.
Proof.
  induction names as [|m names IH]; intros d; cbn; auto.
  rewrite IH, sget_sset. destruct (memb n names) eqn:E; unfold memb in E; cbn in E; rewrite ?E, ?orb_true_r, ?orb_false_r; auto.
Qed.

Section generic.
Context {F S : Type} (own : S -> string -> option (attr F)).
Implicit Types x y : S * syns F.
Definition news (tab : list (list string * string)) : list string := concat (map fst tab).
(** New names are new, and no statement reads a name another one sets. *)
Definition apart (tab : list (list string * string)) : bool :=
  forallb (fun p => negb (memb (snd p) (news tab))) tab.
Lemma apart_weak n ns old tab : memb n (news ((ns, old) :: tab)) = false -> memb n ns = false /\ memb n (news tab) = false.
Proof. unfold news, memb. cbn. rewrite existsb_app. now intros E%orb_false_iff. Qed.
Lemma assign_fst tab : forall x y r, assign_all own tab x = (y, r) -> fst y = fst x.
Proof.
  induction tab as [|[ns old] tab IH]; cbn; intros x y r E.
  - now inversion E.
  - destruct (getattr own x old); [|now inversion E]. now apply IH in E.
Qed.
Lemma assign_other tab : forall x y r n, assign_all own tab x = (y, r) ->
  memb n (news tab) = false -> sget n (snd y) = sget n (snd x).
Proof.
  induction tab as [|[ns old] tab IH]; cbn [assign_all]; intros x y r n E M.
  - now inversion E.
  - apply apart_weak in M as [M1 M2].
    destruct (getattr own x old) as [a|e]; [|now inversion E].
    rewrite (IH _ _ _ _ E M2). cbn. rewrite sget_fold, M1. reflexivity.
Qed.
Lemma getattr_same x y n : fst y = fst x -> sget n (snd y) = sget n (snd x) -> getattr own y n = getattr own x n.
Proof. intros E1 E2. unfold getattr. now rewrite E1, E2. Qed.
(** Whatever the outcome, the full name holds what it held or what the short name holds. *)
Lemma assign_any tab : forall all x y r, (forall p, In p tab -> memb (snd p) all = false) ->
  (forall n, memb n (news tab) = true -> memb n all = true) ->
  assign_all own tab x = (y, r) -> forall n, 
  sget n (snd y) = sget n (snd x) \/
  exists ns old a, In (ns, old) tab /\ In n ns /\ getattr own x old = Ok a /\ sget n (snd y) = Some a.
Proof.
  induction tab as [|[ns old] tab IH]; cbn [assign_all]; intros all x y r HA HS E n.
  - left. now inversion E.
  - destruct (getattr own x old) as [a|e] eqn:G; [|left; now inversion E].
    assert (HA' : forall p, In p tab -> memb (snd p) all = false) by (intros p I; apply HA; now right).
    assert (HN : forall m, memb m ns = true -> memb m all = true).
    { intros m M. apply HS. apply memb_In. unfold news. cbn. apply in_or_app. left. now apply memb_In. }
    assert (HS' : forall m, memb m (news tab) = true -> memb m all = true).
    { intros m M. apply HS. apply memb_In. unfold news. cbn. apply in_or_app. right. now apply memb_In. }
    destruct (IH all _ _ _ HA' HS' E n) as [K|(ns' & old' & a' & I & I' & G' & K)]; cbn [snd] in *.
    + rewrite sget_fold in K. destruct (memb n ns) eqn:M.
      * right. exists ns, old, a. repeat split; auto. now left. now apply memb_In.
      * left. exact K.
    + right. exists ns', old', a'. repeat split; auto. now right.
      rewrite <- G'. symmetry. apply getattr_same; auto. cbn. rewrite sget_fold.
      destruct (memb old' ns) eqn:M; auto. apply HN in M. specialize (HA' _ I). cbn in HA'. congruence.
Qed.
(** On success each full name holds what one of its short names holds. *)
Lemma assign_ok tab : forall all x y, (forall p, In p tab -> memb (snd p) all = false) ->
  (forall n, memb n (news tab) = true -> memb n all = true) ->
  assign_all own tab x = (y, Ok tt) -> forall n, In n (news tab) ->
  exists ns old a, In (ns, old) tab /\ In n ns /\ getattr own x old = Ok a /\ sget n (snd y) = Some a.
Proof.
  induction tab as [|[ns old] tab IH]; cbn [assign_all]; intros all x y HA HS E n I; [destruct I|].
  destruct (getattr own x old) as [a|e] eqn:G; [|discriminate E].
  assert (HA' : forall p, In p tab -> memb (snd p) all = false) by (intros p J; apply HA; now right).
  assert (HN : forall m, memb m ns = true -> memb m all = true).
  { intros m M. apply HS. apply memb_In. unfold news. cbn. apply in_or_app. left. now apply memb_In. }
  assert (HS' : forall m, memb m (news tab) = true -> memb m all = true).
  { intros m M. apply HS. apply memb_In. unfold news. cbn. apply in_or_app. right. now apply memb_In. }
  destruct (memb n (news tab)) eqn:M.
  - apply memb_In in M. destruct (IH all _ _ HA' HS' E n M) as (ns' & old' & a' & J & J' & G' & K).
    exists ns', old', a'. repeat split; auto. now right.
    rewrite <- G'. symmetry. apply getattr_same; auto. cbn. rewrite sget_fold.
    destruct (memb old' ns) eqn:M2; auto. apply HN in M2. specialize (HA' _ J). cbn in HA'. congruence.
  - unfold news in I. cbn in I. apply in_app_or in I as [I|I].
    2: { apply memb_In in I. unfold news in M. congruence. }
    exists ns, old, a. repeat split; auto. now left.
    rewrite (assign_other _ _ _ _ n E M). cbn. rewrite sget_fold. apply memb_In in I. now rewrite I.
Qed.
Lemma assign_total tab : forall x, (forall p, In p tab -> own (fst x) (snd p) <> None) ->
  exists y, assign_all own tab x = (y, Ok tt).
Proof.
  induction tab as [|[ns old] tab IH]; intros x H; cbn; eauto.
  unfold getattr. destruct (own (fst x) old) as [a|] eqn:E.
  - apply IH. intros p I. apply H. now right.
  - exfalso. apply (H _ (or_introl eq_refl)). exact E.
Qed.
Lemma assign_err tab : forall x y e, assign_all own tab x = (y, Err e) -> e = AttributeError.
Proof.
  induction tab as [|[ns old] tab IH]; cbn; intros x y e E; [discriminate|].
  unfold getattr in E. destruct (own (fst x) old). now apply IH in E.
  destruct (sget old (snd x)). now apply IH in E. congruence.
Qed.
(** A short name that is nowhere makes it raise. *)
Lemma assign_raises tab : forall all x old, (forall p, In p tab -> memb (snd p) all = false) ->
  (forall n, memb n (news tab) = true -> memb n all = true) ->
  In old (map snd tab) -> getattr own x old = Err AttributeError ->
  snd (assign_all own tab x) = Err AttributeError.
Proof.
  induction tab as [|[ns o] tab IH]; cbn; intros all x old HA HS I G; [destruct I|].
  destruct I as [->|I].
  - rewrite G. reflexivity.
  - destruct (getattr own x o) as [a|e] eqn:E.
    + apply (IH all) with (old := old); auto.
      * intros n M. apply HS. apply memb_In. unfold news. cbn. apply in_or_app. right. now apply memb_In.
      * rewrite <- G. apply getattr_same; auto. cbn. rewrite sget_fold.
        destruct (memb old ns) eqn:M; auto.
        assert (A : memb old all = true).
        { apply HS. apply memb_In. unfold news. cbn. apply in_or_app. left. now apply memb_In. }
        apply in_map_iff in I as (p & <- & I). rewrite (HA p) in A; auto. discriminate.
    + cbn. f_equal. unfold getattr in E. destruct (own (fst x) o); [discriminate|].
      destruct (sget o (snd x)); congruence.
Qed.
End generic.

(** ** Fluids *)
Definition fluid_tab : list (list string * string) := [
    (["set_viscosity"], "set_mu"); (["viscosity"], "mu"); (["set_density"], "set_rho"); (["density"], "rho");
    (["gravity"], "g"); (["set_formation_volume_factor"; "set_FVF"], "set_B");
    (["formation_volume_factor"; "FVF"], "B"); (["set_properties"], "set_props")].
Definition well_tab : list (list string * string) := [
    (["set_properties"], "set_props"); (["set_rate"], "set_q"); (["rate"], "q"); (["set_skin"], "set_s");
    (["skin"], "s"); (["set_radius"], "set_r"); (["radius"], "r")].
Lemma fluid_apart : forall p, In p fluid_tab -> memb (snd p) (news fluid_tab) = false.
Proof. intros p I. repeat (destruct I as [<-|I]; [reflexivity|]). destruct I. Qed.
Lemma well_apart : forall p, In p well_tab -> memb (snd p) (news well_tab) = false.
Proof. intros p I. repeat (destruct I as [<-|I]; [reflexivity|]). destruct I. Qed.
Ltac tabs I := repeat (destruct I as [I|I]; [inversion I; subst; clear I|]); try (destruct I).

Section fluid.
Context {F : Type} {NF : Num F}.
Implicit Types x y : fobj F * syns F.
Lemma fluid_allow_eq x : fluid_allow x = assign_all fluid_own fluid_tab x. Proof. reflexivity. Qed.
Definition fluid_pairs := (fluid_values ++ fluid_methods)%list.
Lemma fluid_pair_tab s n : In (s, n) fluid_pairs -> exists ns, In (ns, n) fluid_tab /\ In s ns.
Proof.
  intros I. unfold fluid_pairs in I. cbn in I.
  tabs I; eexists; cbn; (split; [|shelve]); repeat (try (left; reflexivity); right).
  Unshelve. all: cbn; auto.
Qed.
Lemma fluid_tab_pair s n ns : In (s, n) fluid_pairs -> forall m, In (ns, m) fluid_tab -> In s ns -> m = n.
Proof.
  intros I m J K. unfold fluid_pairs in I. cbn in I, J.
  tabs I; tabs J; auto; exfalso; cbn in K; intuition congruence.
Qed.
Lemma fluid_syn_own s n (o : fobj F) : In (s, n) fluid_pairs -> fluid_own o s = None.
Proof. intros I. unfold fluid_pairs in I. cbn in I. tabs I; reflexivity. Qed.
Lemma fluid_short_new s n : In (s, n) fluid_pairs -> memb n (news fluid_tab) = false.
Proof. intros I. unfold fluid_pairs in I. cbn in I. tabs I; reflexivity. Qed.
Lemma fluid_get_syn x s n : In (s, n) fluid_pairs ->
  fluid_get x s = match sget s (snd x) with Some a => Ok a | None => Err AttributeError end.
Proof. intros I. unfold fluid_get, getattr. now rewrite (fluid_syn_own _ _ _ I). Qed.

Lemma fluid_allow_any x y r s n : fluid_allow x = (y, r) -> In (s, n) fluid_pairs ->
  fluid_get y s = fluid_get x s \/ (fluid_get y s = fluid_get x n /\ exists a, fluid_get x n = Ok a).
Proof.
  intros E I. rewrite fluid_allow_eq in E.
  destruct (assign_any fluid_own fluid_tab (news fluid_tab) x y r fluid_apart (fun _ H => H) E s)
    as [K|(ns & old & a & J & J' & G & K)]; rewrite (fluid_get_syn y _ _ I), K.
  - left. now rewrite (fluid_get_syn x _ _ I).
  - right. rewrite <- (fluid_tab_pair _ _ _ I _ J J'). unfold fluid_get. rewrite G. eauto.
Qed.
Lemma fluid_allow_ok x y s n : fluid_allow x = (y, Ok tt) -> In (s, n) fluid_pairs ->
  fluid_get y s = fluid_get x n /\ exists a, fluid_get x n = Ok a.
Proof.
  intros E I. rewrite fluid_allow_eq in E. destruct (fluid_pair_tab _ _ I) as (ns0 & I0 & I1).
  assert (IN : In s (news fluid_tab)).
  { unfold news. apply in_concat. exists ns0. split; auto. apply in_map_iff. exists (ns0, n). auto. }
  destruct (assign_ok fluid_own fluid_tab (news fluid_tab) x y fluid_apart (fun _ H => H) E s IN)
    as (ns & old & a & J & J' & G & K).
  rewrite (fluid_get_syn y _ _ I), K. rewrite <- (fluid_tab_pair _ _ _ I _ J J'). unfold fluid_get. rewrite G. eauto.
Qed.
Lemma fluid_allow_short x y r s n : fluid_allow x = (y, r) -> In (s, n) fluid_pairs -> fluid_get y n = fluid_get x n.
Proof.
  intros E I. rewrite fluid_allow_eq in E. apply getattr_same. eapply assign_fst; eauto.
  eapply assign_other; eauto. eapply fluid_short_new; eauto.
Qed.
Lemma fluid_allow_fst x y r : fluid_allow x = (y, r) -> fst y = fst x.
Proof. rewrite fluid_allow_eq. apply assign_fst. Qed.

Lemma fluid_op_syns x c : c <> FAllow -> snd (fluid_op x c) = snd x.
Proof.
  intros H. destruct c as [n a|u|]; cbn; try congruence.
  - unfold fluid_call. destruct (getattr fluid_own x n) as [[v|m]|e]; auto.
    destruct (fluid_method m a (fst x)); reflexivity.
  - unfold fluid_units. destruct (fset_units (fst x) u); reflexivity.
Qed.
Lemma fluid_ops_app x l l' : fluid_ops x (l ++ l') = fluid_ops (fluid_ops x l) l'.
Proof. unfold fluid_ops. apply fold_left_app. Qed.
(** A method's full name stays bound to the method. *)
Lemma fluid_method_stays l : forall x s n, In (s, n) fluid_methods -> fluid_get x s = Ok (Method n) ->
  fluid_get (fluid_ops x l) s = Ok (Method n).
Proof.
  induction l as [|c l IH]; intros x s n I H; auto. cbn. apply IH; auto.
  assert (IP : In (s, n) fluid_pairs) by (unfold fluid_pairs; apply in_or_app; now right).
  assert (O : forall z : fobj F * syns F, fluid_get z n = Ok (Method n)).
  { intros z. unfold fluid_get, getattr. cbn in I. tabs I; reflexivity. }
  destruct c as [m a|u|].
  - rewrite (fluid_get_syn _ _ _ IP), fluid_op_syns, <- (fluid_get_syn _ _ _ IP); auto; discriminate.
  - rewrite (fluid_get_syn _ _ _ IP), fluid_op_syns, <- (fluid_get_syn _ _ _ IP); auto; discriminate.
  - cbn [fluid_op]. destruct (fluid_allow x) as [y r] eqn:E. cbn [fst].
    destruct (fluid_allow_any _ _ _ _ _ E IP) as [->|[-> _]]; auto.
Qed.
Lemma fluid_frozen l : forall x s n, In (s, n) fluid_pairs -> (forall c, In c l -> c <> FAllow) ->
  fluid_get (fluid_ops x l) s = fluid_get x s.
Proof.
  induction l as [|c l IH]; intros x s n I H; auto. change (fluid_ops x (c :: l)) with (fluid_ops (fluid_op x c) l). rewrite (IH _ _ _ I).
  - rewrite !(fluid_get_syn _ _ _ I), fluid_op_syns; auto. apply H. now left.
  - intros d J. apply H. now right.
Qed.
(** Own attributes do not vanish. *)
Definition has_all (o : fobj F) : Prop := f_mu o <> None /\ f_B o <> None /\ f_rho o <> None /\ f_g o <> None.
Definition grows (o o' : fobj F) : Prop :=
  (f_mu o <> None -> f_mu o' <> None) /\ (f_B o <> None -> f_B o' <> None) /\
  (f_rho o <> None -> f_rho o' <> None) /\ (f_g o <> None -> f_g o' <> None).
Lemma grows_refl o : grows o o. Proof. unfold grows. tauto. Qed.
Lemma grows_trans a b c : grows a b -> grows b c -> grows a c. Proof. unfold grows. tauto. Qed.
Lemma grows_rho o v : grows o (fst (set_rho o v)).
Proof.
  unfold set_rho. cbn. destruct (factor _ _) as [a|]; cbn; [destruct (factor _ _) as [b|]; cbn|];
  unfold grows; cbn; repeat split; intros; auto; discriminate.
Qed.
Lemma grows_comp o v : grows o (fst (fset_comp o v)).
Proof. unfold fset_comp. destruct (cset v). unfold grows. cbn. tauto. Qed.
Lemma grows_mu o v : grows o (set_mu o v).
Proof. unfold grows. cbn. repeat split; intros; auto; discriminate. Qed.
Lemma grows_B o v : grows o (set_B o v).
Proof. unfold grows. cbn. repeat split; intros; auto; discriminate. Qed.
Lemma grows_andthen o (s : fobj F * res unit) f : grows o (fst s) -> (forall o, grows o (fst (f o))) -> grows o (fst (andthen s f)).
Proof. intros H K. destruct s as [o' [u|e]]; cbn in *; auto. eapply grows_trans; eauto. Qed.
Lemma grows_opt {A} (v : option A) f o : (forall a o, grows o (fst (f a o))) -> grows o (fst (opt v f o)).
Proof. intros H. destruct v; cbn; auto. apply grows_refl. Qed.
Lemma grows_props o a b c d : grows o (fst (fset_props o a b c d)).
Proof.
  unfold fset_props. repeat apply grows_andthen.
  - apply grows_opt. intros; apply grows_mu.
  - intros o'. apply grows_opt. intros; apply grows_B.
  - intros o'. apply grows_opt. intros; apply grows_rho.
  - intros o'. apply grows_opt. intros; apply grows_comp.
  - intros o'. destruct (f_rho o'); [apply grows_refl|apply grows_rho].
  - intros o'. destruct (c_comp (f_c o')); [apply grows_refl|apply grows_comp].
Qed.
Lemma grows_method m a o : grows o (fst (fluid_method m a o)).
Proof.
  unfold fluid_method. destruct a.
  - repeat (match goal with |- context [if ?b then _ else _] => destruct b end); cbn [fst];
    auto using grows_mu, grows_B, grows_rho, grows_comp, grows_props, grows_refl.
  - destruct (String.eqb m "set_props"); cbn [fst]; auto using grows_props, grows_refl.
Qed.
Lemma grows_op x c : grows (fst x) (fst (fluid_op x c)).
Proof.
  destruct c as [n a|u|]; cbn [fluid_op].
  - unfold fluid_call. destruct (getattr fluid_own x n) as [[v|m]|e]; try apply grows_refl.
    pose proof (grows_method m a (fst x)). destruct (fluid_method m a (fst x)). exact H.
  - unfold fluid_units, fset_units. destruct (set_units (f_u (fst x)) u). unfold grows. cbn. tauto.
  - destruct (fluid_allow x) eqn:E. cbn [fst]. rewrite (fluid_allow_fst _ _ _ E). apply grows_refl.
Qed.
Lemma grows_ops l : forall x, grows (fst x) (fst (fluid_ops x l)).
Proof.
  induction l as [|c l IH]; intros x; [apply grows_refl|]. cbn.
  eapply grows_trans; [apply grows_op|apply IH].
Qed.
Lemma has_all_grows o o' : grows o o' -> has_all o -> has_all o'.
Proof. unfold grows, has_all. tauto. Qed.
Lemma has_all_ok x : has_all (fst x) -> exists y, fluid_allow x = (y, Ok tt).
Proof.
  intros (H1 & H2 & H3 & H4). rewrite fluid_allow_eq. apply assign_total.
  intros p I. cbn in I. tabs I; try discriminate;
  unfold fluid_own, own_of; cbn; match goal with |- option_map _ ?v <> _ => destruct v; cbn; congruence end.
Qed.
(** No synonym hides a short name. *)
Definition clean x : Prop := forall n, memb n (news fluid_tab) = false -> sget n (snd x) = None.
Lemma clean_op x c : clean x -> clean (fluid_op x c).
Proof.
  intros H n M. destruct c as [m a|u|].
  - rewrite fluid_op_syns; auto. discriminate.
  - rewrite fluid_op_syns; auto. discriminate.
  - cbn [fluid_op]. destruct (fluid_allow x) as [y r] eqn:E. cbn [fst]. rewrite fluid_allow_eq in E.
    rewrite (assign_other _ _ _ _ _ _ E M). auto.
Qed.
Lemma clean_ops l : forall x, clean x -> clean (fluid_ops x l).
Proof. induction l as [|c l IH]; intros x H; auto. cbn. apply IH. now apply clean_op. Qed.
Lemma clean_new o : clean (o, []). Proof. intros n _. reflexivity. Qed.
Lemma clean_ok x y : clean x -> fluid_allow x = (y, Ok tt) -> has_all (fst x).
Proof.
  intros C E.
  assert (P : forall s n, In (s, n) fluid_values -> fluid_own (fst x) n <> None).
  { intros s n I. assert (IP : In (s, n) fluid_pairs) by (unfold fluid_pairs; apply in_or_app; now left).
    destruct (fluid_allow_ok _ _ _ _ E IP) as (_ & a & G). unfold fluid_get, getattr in G.
    destruct (fluid_own (fst x) n); [discriminate|]. rewrite (C n) in G; [discriminate|].
    eapply fluid_short_new; eauto. }
  unfold has_all.
  pose proof (P "viscosity" "mu" ltac:(cbn; tauto)) as P1.
  pose proof (P "FVF" "B" ltac:(cbn; tauto)) as P2.
  pose proof (P "density" "rho" ltac:(cbn; tauto)) as P3.
  pose proof (P "gravity" "g" ltac:(cbn; tauto)) as P4.
  unfold fluid_own, own_of in P1, P2, P3, P4. cbn in P1, P2, P3, P4.
  repeat split.
  - intros K. rewrite K in P1. now apply P1.
  - intros K. rewrite K in P2. now apply P2.
  - intros K. rewrite K in P3. now apply P3.
  - intros K. rewrite K in P4. now apply P4.
Qed.
(** A constructed fluid has rho and g. *)
Lemma set_rho_ok (o o' : fobj F) v : set_rho o v = (o', Ok tt) -> f_rho o' <> None /\ f_g o' <> None.
Proof.
  unfold set_rho. cbn. destruct (factor _ _); cbn; [destruct (factor _ _); cbn|]; intros E; inversion E; cbn; split; discriminate.
Qed.
Definition rg (o : fobj F) : Prop := f_rho o <> None -> f_g o <> None.
Definition rg_all (s : fobj F * res unit) : Prop := match s with (o, Ok _) => rg o | _ => True end.
Lemma rg_rho o v : rg_all (set_rho o v).
Proof. destruct (set_rho o v) as [o' [[]|e]] eqn:E; cbn; auto. apply set_rho_ok in E. unfold rg. tauto. Qed.
Lemma rg_andthen s f : rg_all s -> (forall o, rg o -> rg_all (f o)) -> rg_all (andthen s f).
Proof. destruct s as [o [u|e]]; cbn; auto. Qed.
Lemma new_has mu B rho comp u (o : fobj F) : fluid_new mu B rho comp u = Ok o -> f_rho o <> None /\ f_g o <> None.
Proof.
  unfold fluid_new. destruct (set_units uobj0 u) as [u' [[]|e]]; [|discriminate].
  set (o0 := mkFobj u' None None None None (mkCobj None None)).
  unfold fset_props.
  set (s := andthen (andthen (andthen (opt mu _ o0) _) _) _).
  assert (R : rg_all s).
  { subst s. apply rg_andthen; [apply rg_andthen; [apply rg_andthen|]|].
    - destruct mu; cbn; intros H; now apply H.
    - intros o1 H. destruct B; cbn; auto.
    - intros o1 H. destruct rho; cbn; auto. apply rg_rho.
    - intros o1 H. destruct comp as [c|]; cbn; auto. unfold fset_comp. destruct (cset c) as [? [[]|?]]; cbn; auto. }
  destruct s as [o1 [[]|e]]; cbn; [|discriminate].
  assert (Q : match (match f_rho o1 with None => set_rho o1 n0 | Some _ => (o1, Ok tt) end) with
              | (o2, Ok _) => f_rho o2 <> None /\ f_g o2 <> None | _ => True end).
  { destruct (f_rho o1) eqn:E.
    - split; [rewrite E; discriminate|]. apply R. rewrite E. discriminate.
    - destruct (set_rho o1 n0) as [o2 [[]|e]] eqn:E2; auto. eapply set_rho_ok; eauto. }
  destruct (match f_rho o1 with None => set_rho o1 n0 | Some _ => (o1, Ok tt) end) as [o2 [[]|e]]; [|discriminate].
  cbn. destruct (c_comp (f_c o2)).
  - intros E. injection E as <-. exact Q.
  - unfold fset_comp. destruct (cset n0) as [? [[]|?]]; [|discriminate]. intros E. injection E as <-. exact Q.
Qed.
End fluid.

(** ** Wells *)
Section wells.
Context {F : Type} {NF : Num F}.
Implicit Types x y : single_cell F * syns F.
Lemma well_allow_eq x : well_allow x = assign_all well_own well_tab x. Proof. reflexivity. Qed.
Definition well_pairs := (well_values ++ well_methods)%list.
Lemma well_pair_tab s n : In (s, n) well_pairs -> exists ns, In (ns, n) well_tab /\ In s ns.
Proof.
  intros I. unfold well_pairs in I. cbn in I.
  tabs I; eexists; cbn; (split; [|shelve]); repeat (try (left; reflexivity); right).
  Unshelve. all: cbn; auto.
Qed.
Lemma well_tab_pair s n ns : In (s, n) well_pairs -> forall m, In (ns, m) well_tab -> In s ns -> m = n.
Proof.
  intros I m J K. unfold well_pairs in I. cbn in I, J.
  tabs I; tabs J; auto; exfalso; cbn in K; intuition congruence.
Qed.
Lemma well_syn_own s n (o : single_cell F) : In (s, n) well_pairs -> well_own o s = None.
Proof. intros I. unfold well_pairs in I. cbn in I. tabs I; reflexivity. Qed.
Lemma well_short_new s n : In (s, n) well_pairs -> memb n (news well_tab) = false.
Proof. intros I. unfold well_pairs in I. cbn in I. tabs I; reflexivity. Qed.
Lemma well_get_syn x s n : In (s, n) well_pairs ->
  well_get x s = match sget s (snd x) with Some a => Ok a | None => Err AttributeError end.
Proof. intros I. unfold well_get, getattr. now rewrite (well_syn_own _ _ _ I). Qed.
Lemma well_allow_any x y r s n : well_allow x = (y, r) -> In (s, n) well_pairs ->
  well_get y s = well_get x s \/ (well_get y s = well_get x n /\ exists a, well_get x n = Ok a).
Proof.
  intros E I. rewrite well_allow_eq in E.
  destruct (assign_any well_own well_tab (news well_tab) x y r well_apart (fun _ H => H) E s)
    as [K|(ns & old & a & J & J' & G & K)]; rewrite (well_get_syn y _ _ I), K.
  - left. now rewrite (well_get_syn x _ _ I).
  - right. rewrite <- (well_tab_pair _ _ _ I _ J J'). unfold well_get. rewrite G. eauto.
Qed.
Lemma well_allow_ok x y s n : well_allow x = (y, Ok tt) -> In (s, n) well_pairs ->
  well_get y s = well_get x n /\ exists a, well_get x n = Ok a.
Proof.
  intros E I. rewrite well_allow_eq in E. destruct (well_pair_tab _ _ I) as (ns0 & I0 & I1).
  assert (IN : In s (news well_tab)).
  { unfold news. apply in_concat. exists ns0. split; auto. apply in_map_iff. exists (ns0, n). auto. }
  destruct (assign_ok well_own well_tab (news well_tab) x y well_apart (fun _ H => H) E s IN)
    as (ns & old & a & J & J' & G & K).
  rewrite (well_get_syn y _ _ I), K. rewrite <- (well_tab_pair _ _ _ I _ J J'). unfold well_get. rewrite G. eauto.
Qed.
Lemma well_allow_short x y r s n : well_allow x = (y, r) -> In (s, n) well_pairs -> well_get y n = well_get x n.
Proof.
  intros E I. rewrite well_allow_eq in E. apply getattr_same. eapply assign_fst; eauto.
  eapply assign_other; eauto. eapply well_short_new; eauto.
Qed.
Lemma well_allow_fst x y r : well_allow x = (y, r) -> fst y = fst x.
Proof. rewrite well_allow_eq. apply assign_fst. Qed.
Lemma well_op_syns x c : c <> WAllow -> snd (well_op x c) = snd x.
Proof.
  intros H. destruct c as [n a|]; cbn; try congruence.
  unfold well_call. destruct (getattr well_own x n) as [[v|m]|e]; auto.
  destruct (well_method m a (fst x)); reflexivity.
Qed.
Lemma well_method_stays l : forall x s n, In (s, n) well_methods -> well_get x s = Ok (Method n) ->
  well_get (well_ops x l) s = Ok (Method n).
Proof.
  induction l as [|c l IH]; intros x s n I H; auto. cbn. apply IH; auto.
  assert (IP : In (s, n) well_pairs) by (unfold well_pairs; apply in_or_app; now right).
  assert (O : forall z : single_cell F * syns F, well_get z n = Ok (Method n)).
  { intros z. unfold well_get, getattr. cbn in I. tabs I; reflexivity. }
  destruct c as [m a|].
  - rewrite (well_get_syn _ _ _ IP), well_op_syns, <- (well_get_syn _ _ _ IP); auto; discriminate.
  - cbn [well_op]. destruct (well_allow x) as [y r] eqn:E. cbn [fst].
    destruct (well_allow_any _ _ _ _ _ E IP) as [->|[-> _]]; auto.
Qed.
Lemma well_frozen l : forall x s n, In (s, n) well_pairs -> (forall c, In c l -> c <> WAllow) ->
  well_get (well_ops x l) s = well_get x s.
Proof.
  induction l as [|c l IH]; intros x s n I H; auto. change (well_ops x (c :: l)) with (well_ops (well_op x c) l). rewrite (IH _ _ _ I).
  - rewrite !(well_get_syn _ _ _ I), well_op_syns; auto. apply H. now left.
  - intros d J. apply H. now right.
Qed.
Definition wclean x : Prop := forall n, memb n (news well_tab) = false -> sget n (snd x) = None.
Lemma wclean_op x c : wclean x -> wclean (well_op x c).
Proof.
  intros H n M. destruct c as [m a|].
  - rewrite well_op_syns; auto. discriminate.
  - cbn [well_op]. destruct (well_allow x) as [y r] eqn:E. cbn [fst]. rewrite well_allow_eq in E.
    rewrite (assign_other _ _ _ _ _ _ E M). auto.
Qed.
Lemma wclean_ops l : forall x, wclean x -> wclean (well_ops x l).
Proof. induction l as [|c l IH]; intros x H; auto. cbn. apply IH. now apply wclean_op. Qed.
Lemma wclean_new o : wclean (o, []). Proof. intros n _. reflexivity. Qed.
Definition whas_all (w : single_cell F) : Prop := sc_q w <> None /\ sc_s w <> None /\ sc_r w <> None.
Lemma whas_all_ok x : whas_all (fst x) -> exists y, well_allow x = (y, Ok tt).
Proof.
  intros (H1 & H2 & H3). rewrite well_allow_eq. apply assign_total.
  intros p I. cbn in I. tabs I; try discriminate;
  unfold well_own, own_of; cbn; match goal with |- option_map _ ?v <> _ => destruct v; cbn; congruence end.
Qed.
Lemma wclean_ok x y : wclean x -> well_allow x = (y, Ok tt) -> whas_all (fst x).
Proof.
  intros C E.
  assert (P : forall s n, In (s, n) well_values -> well_own (fst x) n <> None).
  { intros s n I. assert (IP : In (s, n) well_pairs) by (unfold well_pairs; apply in_or_app; now left).
    destruct (well_allow_ok _ _ _ _ E IP) as (_ & a & G). unfold well_get, getattr in G.
    destruct (well_own (fst x) n); [discriminate|]. rewrite (C n) in G; [discriminate|].
    eapply well_short_new; eauto. }
  unfold whas_all.
  pose proof (P "rate" "q" ltac:(cbn; tauto)) as P1.
  pose proof (P "skin" "s" ltac:(cbn; tauto)) as P2.
  pose proof (P "radius" "r" ltac:(cbn; tauto)) as P3.
  unfold well_own, own_of in P1, P2, P3. cbn in P1, P2, P3.
  repeat split.
  - intros K. rewrite K in P1. now apply P1.
  - intros K. rewrite K in P2. now apply P2.
  - intros K. rewrite K in P3. now apply P3.
Qed.
Definition wgrows (w w' : single_cell F) : Prop :=
  (sc_q w <> None -> sc_q w' <> None) /\ (sc_s w <> None -> sc_s w' <> None) /\ (sc_r w <> None -> sc_r w' <> None).
Lemma keep_some {A} (a b : option A) : b <> None -> keep a b <> None.
Proof. destruct a; cbn; auto. discriminate. Qed.
Lemma wgrows_op x c : wgrows (fst x) (fst (well_op x c)).
Proof.
  destruct c as [n a|]; cbn [well_op].
  - unfold well_call. destruct (getattr well_own x n) as [[v|m]|e]; try (unfold wgrows; tauto).
    unfold well_method. destruct a;
    repeat (match goal with |- context [if ?b then _ else _] => destruct b end); unfold wgrows; cbn;
    repeat split; intros; auto using keep_some; discriminate.
  - destruct (well_allow x) eqn:E. cbn [fst]. rewrite (well_allow_fst _ _ _ E). unfold wgrows. tauto.
Qed.
Lemma wgrows_ops l : forall x, wgrows (fst x) (fst (well_ops x l)).
Proof.
  induction l as [|c l IH]; intros x; [unfold wgrows; tauto|]. cbn.
  pose proof (wgrows_op x c) as G. specialize (IH (well_op x c)). unfold wgrows in *. unfold well_ops in IH. tauto.
Qed.
End wells.
