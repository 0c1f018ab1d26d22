(** C121: full names and short names. *)
From Coq Require Import String ZArith QArith Reals Bool List Lia Lra.
From Verif Require Import Prelude Num UnitsModel BlackOilModel PropProofs SynonymModel SynonymSpec SynonymFacts.
Import ListNotations.
Local Open Scope string_scope.

(** C121: when allow_synonyms of a fluid returns, every full name reads exactly what
    its short name reads, both can be read, and the short names are as before. *)
Lemma L_C121_fluid_names :
  forall F (NF : Num F) (x y : fobj F * syns F) s n, fluid_allow x = (y, Ok tt) ->
  In (s, n) (fluid_values ++ fluid_methods) ->
  (exists a, fluid_get y s = Ok a /\ fluid_get y n = Ok a) /\ fst y = fst x.
Proof.
  intros F NF x y s n E I. destruct (fluid_allow_ok _ _ _ _ E I) as (G & a & K).
  split; [|eapply fluid_allow_fst; eauto]. exists a. rewrite G, K. split; auto.
  now rewrite (fluid_allow_short _ _ _ _ _ E I).
Qed.
Lemma L_C121_well_names :
  forall F (NF : Num F) (x y : single_cell F * syns F) s n, well_allow x = (y, Ok tt) ->
  In (s, n) (well_values ++ well_methods) ->
  (exists a, well_get y s = Ok a /\ well_get y n = Ok a) /\ fst y = fst x.
Proof.
  intros F NF x y s n E I. destruct (well_allow_ok _ _ _ _ E I) as (G & a & K).
  split; [|eapply well_allow_fst; eauto]. exists a. rewrite G, K. split; auto.
  now rewrite (well_allow_short _ _ _ _ _ E I).
Qed.
Example ex_C121_fluid_case :
  exists (o : fobj Q) y, fluid_new (Some (1#2)%Q) (Some 1%Q) (Some 50%Q) None "field" = Ok o /\
  fluid_allow (o, []) = (y, Ok tt) /\ fluid_get y "viscosity" = Ok (Value (1#2)%Q) /\
  fluid_get y "set_FVF" = Ok (Method "set_B").
Proof.
  set (t := fluid_new (Some (1#2)%Q) (Some 1%Q) (Some 50%Q) None "field").
  assert (H : exists o, t = Ok o) by (eexists; vm_compute; reflexivity).
  destruct H as (o & H). exists o. vm_compute in H. injection H as <-.
  match goal with |- exists y, _ /\ fluid_allow ?x = _ /\ _ => exists (fst (fluid_allow x)) end.
  repeat split; vm_compute; reflexivity.
Qed.
Example ex_C121_well_case :
  exists y, well_allow (single_cell_new (Some 4%Z) (Some (-600)%Q) (Some (3#2)%Q) (Some (7#2)%Q) None, []) = (y, Ok tt) /\
  well_get y "rate" = Ok (Value (-600)%Q).
Proof. eexists. split; reflexivity. Qed.

(** C121: after that, whatever is done with the object, calling a method by its full
    name does what calling it by its short name does: same object, same outcome. *)
Lemma L_C121_fluid_methods :
  forall F (NF : Num F) (x y : fobj F * syns F) ops s n a, fluid_allow x = (y, Ok tt) ->
  In (s, n) fluid_methods ->
  fluid_call (fluid_ops y ops) s a = fluid_call (fluid_ops y ops) n a.
Proof.
  intros F NF x y ops s n a E I.
  assert (IP : In (s, n) fluid_pairs) by (unfold fluid_pairs; apply in_or_app; now right).
  assert (O : forall z : fobj F * syns F, fluid_get z n = Ok (Method n)).
  { intros z. unfold fluid_get, getattr. cbn in I. tabs I; reflexivity. }
  destruct (fluid_allow_ok _ _ _ _ E IP) as (G & _). rewrite O in G.
  pose proof (fluid_method_stays ops y s n I G) as K. specialize (O (fluid_ops y ops)).
  unfold fluid_get in K, O. unfold fluid_call. now rewrite K, O.
Qed.
Lemma L_C121_well_methods :
  forall F (NF : Num F) (x y : single_cell F * syns F) ops s n a, well_allow x = (y, Ok tt) ->
  In (s, n) well_methods ->
  well_call (well_ops y ops) s a = well_call (well_ops y ops) n a.
Proof.
  intros F NF x y ops s n a E I.
  assert (IP : In (s, n) well_pairs) by (unfold well_pairs; apply in_or_app; now right).
  assert (O : forall z : single_cell F * syns F, well_get z n = Ok (Method n)).
  { intros z. unfold well_get, getattr. cbn in I. tabs I; reflexivity. }
  destruct (well_allow_ok _ _ _ _ E IP) as (G & _). rewrite O in G.
  pose proof (well_method_stays ops y s n I G) as K. specialize (O (well_ops y ops)).
  unfold well_get in K, O. unfold well_call. now rewrite K, O.
Qed.
Example ex_C121_methods_case :
  exists (o : fobj Q) y, fluid_new (Some (1#2)%Q) (Some 1%Q) (Some 50%Q) None "field" = Ok o /\
  fluid_allow (o, []) = (y, Ok tt) /\
  fluid_get (fst (fluid_call (fluid_ops y [FCall "set_density" (Pos 60%Q); FAllow]) "set_viscosity" (Pos 2%Q))) "mu" = Ok (Value 2%Q).
Proof.
  set (t := fluid_new (Some (1#2)%Q) (Some 1%Q) (Some 50%Q) None "field").
  assert (H : exists o, t = Ok o) by (eexists; vm_compute; reflexivity).
  destruct H as (o & H). exists o. vm_compute in H. injection H as <-.
  match goal with |- exists y, _ /\ fluid_allow ?x = _ /\ _ => exists (fst (fluid_allow x)) end.
  repeat split; vm_compute; reflexivity.
Qed.
Example ex_C121_well_methods_case :
  exists y, well_allow (single_cell_new (Some 4%Z) (Some (-600)%Q) (Some (3#2)%Q) (Some (7#2)%Q) None, []) = (y, Ok tt) /\
  well_get (fst (well_call (well_ops y [WAllow]) "set_rate" (WPos (-5)%Q))) "q" = Ok (Value (-5)%Q).
Proof. eexists. split; reflexivity. Qed.

(** C121: the full name of a number keeps the value the short name had when
    allow_synonyms was called, until allow_synonyms is called again. *)
Lemma L_C121_fluid_values_partial :
  forall F (NF : Num F) (x y : fobj F * syns F) ops s n, fluid_allow x = (y, Ok tt) ->
  In (s, n) fluid_values -> (forall c, In c ops -> c <> FAllow) ->
  fluid_get (fluid_ops y ops) s = fluid_get y n.
Proof.
  intros F NF x y ops s n E I H.
  assert (IP : In (s, n) fluid_pairs) by (unfold fluid_pairs; apply in_or_app; now left).
  rewrite (fluid_frozen _ _ _ _ IP H). destruct (fluid_allow_ok _ _ _ _ E IP) as (G & _).
  now rewrite (fluid_allow_short _ _ _ _ _ E IP).
Qed.
Lemma L_C121_well_values_partial :
  forall F (NF : Num F) (x y : single_cell F * syns F) ops s n, well_allow x = (y, Ok tt) ->
  In (s, n) well_values -> (forall c, In c ops -> c <> WAllow) ->
  well_get (well_ops y ops) s = well_get y n.
Proof.
  intros F NF x y ops s n E I H.
  assert (IP : In (s, n) well_pairs) by (unfold well_pairs; apply in_or_app; now left).
  rewrite (well_frozen _ _ _ _ IP H). destruct (well_allow_ok _ _ _ _ E IP) as (G & _).
  now rewrite (well_allow_short _ _ _ _ _ E IP).
Qed.
Example ex_C121_values_case :
  exists (o : fobj Q) y, fluid_new (Some (1#2)%Q) (Some 1%Q) (Some 50%Q) None "field" = Ok o /\
  fluid_allow (o, []) = (y, Ok tt) /\
  (forall c, In c [FCall "set_comp" (Pos 1%Q); FSetUnits "metric"] -> c <> FAllow).
Proof.
  set (t := fluid_new (Some (1#2)%Q) (Some 1%Q) (Some 50%Q) None "field").
  assert (H : exists o, t = Ok o) by (eexists; vm_compute; reflexivity).
  destruct H as (o & H). exists o. vm_compute in H. injection H as <-.
  match goal with |- exists y, _ /\ fluid_allow ?x = _ /\ _ => exists (fst (fluid_allow x)) end.
  split; [vm_compute; reflexivity|]. split; [vm_compute; reflexivity|]. intros c [<-|[<-|[]]]; discriminate.
Qed.
Example ex_C121_well_values_case :
  exists y, well_allow (single_cell_new (Some 4%Z) (Some (-600)%Q) (Some (3#2)%Q) (Some (7#2)%Q) None, []) = (y, Ok tt) /\
  (forall c, In c [WCall "set_q" (WPos 1%Q)] -> c <> WAllow).
Proof. eexists. split; [reflexivity|]. intros c [<-|[]]; discriminate. Qed.

(** C121: calling allow_synonyms once more always succeeds and makes all names agree
    again. *)
Lemma L_C121_fluid_again :
  forall F (NF : Num F) mu B rho comp u o y ops1 ops2, fluid_new (F := F) mu B rho comp u = Ok o ->
  fluid_allow (fluid_ops (o, []) ops1) = (y, Ok tt) ->
  exists z, fluid_allow (fluid_ops y ops2) = (z, Ok tt) /\
  forall s n, In (s, n) (fluid_values ++ fluid_methods) -> fluid_get z s = fluid_get z n.
Proof.
  intros F NF mu B rho comp u o y ops1 ops2 HN E.
  assert (A : has_all (fst y)).
  { rewrite (fluid_allow_fst _ _ _ E). eapply clean_ok; eauto. apply clean_ops, clean_new. }
  destruct (has_all_ok (fluid_ops y ops2)) as (z & Ez).
  { eapply has_all_grows; [apply grows_ops|exact A]. }
  exists z. split; auto. intros s n I. destruct (fluid_allow_ok _ _ _ _ Ez I) as (G & _).
  now rewrite (fluid_allow_short _ _ _ _ _ Ez I).
Qed.
Lemma L_C121_well_again :
  forall F (NF : Num F) cell q s0 r con y ops1 ops2,
  well_allow (well_ops (single_cell_new (F := F) cell q s0 r con, []) ops1) = (y, Ok tt) ->
  exists z, well_allow (well_ops y ops2) = (z, Ok tt) /\
  forall s n, In (s, n) (well_values ++ well_methods) -> well_get z s = well_get z n.
Proof.
  intros F NF cell q s0 r con y ops1 ops2 E.
  assert (A : whas_all (fst y)).
  { rewrite (well_allow_fst _ _ _ E). eapply wclean_ok; eauto. apply wclean_ops, wclean_new. }
  destruct (whas_all_ok (well_ops y ops2)) as (z & Ez).
  { pose proof (wgrows_ops ops2 y) as G. unfold wgrows, whas_all in *. tauto. }
  exists z. split; auto. intros s n I. destruct (well_allow_ok _ _ _ _ Ez I) as (G & _).
  now rewrite (well_allow_short _ _ _ _ _ Ez I).
Qed.
Example ex_C121_again_case :
  exists (o : fobj Q) y, fluid_new None (Some 1%Q) (Some 50%Q) None "field" = Ok o /\
  fluid_allow (fluid_ops (o, []) [FAllow; FCall "set_viscosity" (Pos 2%Q)]) = (y, Ok tt).
Proof.
  set (t := fluid_new None (Some 1%Q) (Some 50%Q) None "field").
  assert (H : exists o, t = Ok o) by (eexists; vm_compute; reflexivity).
  destruct H as (o & H). exists o. vm_compute in H. injection H as <-.
  match goal with |- exists y, _ /\ fluid_allow ?x = _ => exists (fst (fluid_allow x)) end.
  split; vm_compute; reflexivity.
Qed.
Example ex_C121_well_again_case :
  exists y, well_allow (well_ops (single_cell_new (Some 4%Z) (Some (-600)%Q) (Some (3#2)%Q) (Some (7#2)%Q) None, []) [WAllow]) = (y, Ok tt).
Proof. eexists. reflexivity. Qed.

(** C121: allow_synonyms of a fluid succeeds exactly when viscosity and formation
    volume factor have been given; otherwise it raises an AttributeError, the
    properties are as before, and set_viscosity can be called nevertheless. *)
Lemma L_C121_fluid_when :
  forall F (NF : Num F) mu B rho comp u o ops, fluid_new (F := F) mu B rho comp u = Ok o ->
  let x := fluid_ops (o, []) ops in
  (snd (fluid_allow x) = Ok tt <-> f_mu (fst x) <> None /\ f_B (fst x) <> None) /\
  (snd (fluid_allow x) <> Ok tt -> snd (fluid_allow x) = Err AttributeError /\ fst (fst (fluid_allow x)) = fst x) /\
  fluid_get (fst (fluid_allow x)) "set_viscosity" = Ok (Method "set_mu").
Proof.
  intros F NF mu B rho comp u o ops HN x.
  pose proof (new_has _ _ _ _ _ _ HN) as (H3 & H4).
  pose proof (grows_ops ops (o, [])) as (_ & _ & G3 & G4). cbn [fst] in G3, G4. fold x in G3, G4.
  destruct (fluid_allow x) as [y r] eqn:E. cbn [fst snd].
  split; [split|split].
  - intros ->. apply clean_ok in E; [|apply clean_ops, clean_new]. unfold has_all in E. tauto.
  - intros (H1 & H2). destruct (has_all_ok x) as (z & Ez); [unfold has_all; tauto|]. congruence.
  - intros N. split; [|eapply fluid_allow_fst; eauto]. destruct r as [[]|e]; [congruence|].
    rewrite fluid_allow_eq in E. now rewrite (assign_err _ _ _ _ _ E).
  - rewrite fluid_allow_eq in E. unfold fluid_tab in E. cbn [assign_all] in E.
    change (getattr fluid_own x "set_mu") with (Ok (Method (F := F) "set_mu")) in E. cbn [fst snd fold_left] in E.
    change (match getattr fluid_own (fst x, sset "set_viscosity" (Method "set_mu") (snd x)) "mu" with
      | Ok a => assign_all fluid_own (tl (tl fluid_tab)) (fst x, fold_left (fun d n => sset n a d) ["viscosity"] (sset "set_viscosity" (Method "set_mu") (snd x)))
      | Err e => ((fst x, sset "set_viscosity" (Method "set_mu") (snd x)), Err e) end = (y, r)) in E.
    unfold fluid_get, getattr. change (fluid_own (fst y) "set_viscosity") with (@None (attr F)).
    cbv iota.
    destruct (getattr fluid_own (fst x, sset "set_viscosity" (Method "set_mu") (snd x)) "mu") as [a|e].
    + rewrite (assign_other _ _ _ _ _ "set_viscosity" E eq_refl). cbn [snd fold_left].
      rewrite !sget_sset. reflexivity.
    + injection E as <- <-. cbn [snd]. rewrite sget_sset. reflexivity.
Qed.
(** C121: allow_synonyms of a well succeeds exactly when the well has a rate, a skin
    and a radius. *)
Lemma L_C121_well_when :
  forall F (NF : Num F) cell q s r con ops,
  let x := well_ops (single_cell_new (F := F) cell q s r con, []) ops in
  (snd (well_allow x) = Ok tt <-> sc_q (fst x) <> None /\ sc_s (fst x) <> None /\ sc_r (fst x) <> None) /\
  (snd (well_allow x) <> Ok tt -> snd (well_allow x) = Err AttributeError /\ fst (fst (well_allow x)) = fst x).
Proof.
  intros F NF cell q s r con ops x. destruct (well_allow x) as [y o] eqn:E. cbn [fst snd].
  split; [split|].
  - intros ->. apply wclean_ok in E; [exact E|apply wclean_ops, wclean_new].
  - intros H. destruct (whas_all_ok x H) as (z & Ez). congruence.
  - intros N. split; [|eapply well_allow_fst; eauto]. destruct o as [[]|e]; [congruence|].
    rewrite well_allow_eq in E. now rewrite (assign_err _ _ _ _ _ E).
Qed.
Example ex_C121_when_case :
  exists o : fobj Q, fluid_new None (Some 1%Q) (Some 50%Q) None "field" = Ok o /\
  snd (fluid_allow (o, [])) = Err AttributeError /\
  snd (fluid_allow (fluid_ops (o, []) [FAllow; FCall "set_viscosity" (Pos 2%Q)])) = Ok tt.
Proof.
  set (t := fluid_new None (Some 1%Q) (Some 50%Q) None "field").
  assert (H : exists o, t = Ok o) by (eexists; vm_compute; reflexivity).
  destruct H as (o & H). exists o. vm_compute in H. injection H as <-.
  repeat split; vm_compute; reflexivity.
Qed.

(** C121: a full name is not a second name for the number: after set_viscosity(v),
    mu is v and viscosity is what mu was before. *)
Lemma L_C121_follow_refuted :
  exists (o : fobj R) y m v, fluid_new (Some m) (Some 1%R) None None "field" = Ok o /\ fluid_allow (o, []) = (y, Ok tt) /\
  fluid_get (fst (fluid_call y "set_viscosity" (Pos v))) "mu" = Ok (Value v) /\
  fluid_get (fst (fluid_call y "set_viscosity" (Pos v))) "viscosity" = Ok (Value m) /\ m <> v.
Proof.
  assert (Z : cset 0%R = (mkCobj (Some 0%R) (Some (Some "incompressible")), Ok tt)).
  { unfold cset. change (neqb 0%R n0) with (Reqb 0 0). rewrite (proj2 (Reqb_true 0%R 0%R) eq_refl). reflexivity. }
  assert (X : exists o, fluid_new (F := R) (Some 1%R) (Some 1%R) None None "field" = Ok o /\ f_mu o = Some 1%R /\ f_B o = Some 1%R).
  { eexists. split; [unfold fluid_new, fset_props, fset_comp; cbn -[cset]; change (@n0 R Num_R) with 0%R; rewrite Z; cbn; reflexivity|].
    split; reflexivity. }
  destruct X as (o & E & M).
  pose proof (new_has _ _ _ _ _ _ E) as (H3 & H4).
  destruct M as (M1 & M2).
  destruct (has_all_ok (o, [])) as (y & Ey).
  { unfold has_all. cbn. rewrite M1, M2. repeat split; auto; discriminate. }
  exists o, y, 1%R, 2%R. split; [exact E|]. split; [exact Ey|].
  pose proof (L_C121_fluid_methods _ _ _ _ [] "set_viscosity" "set_mu" (Pos 2%R) Ey ltac:(cbn; tauto)) as K. cbn [fluid_ops fold_left] in K.
  rewrite K. split; [reflexivity|]. split; [|lra].
  pose proof (L_C121_fluid_values_partial _ _ _ _ [FCall "set_mu" (Pos 2%R)] "viscosity" "mu" Ey ltac:(cbn; tauto)
    ltac:(intros c [<-|[]]; discriminate)) as V.
  cbn [fluid_ops fold_left fluid_op] in V. rewrite V.
  unfold fluid_get, getattr. change (fluid_own (fst y) "mu") with (option_map (Value (F := R)) (f_mu (fst y))).
  rewrite (fluid_allow_fst _ _ _ Ey). cbn [fst]. rewrite M1. reflexivity.
Qed.
(** C121: a well given the skin 0 has no full names, though a skin has been given. *)
Lemma L_C121_zero_skin_refuted :
  exists q s r : R,
  snd (well_allow (single_cell_new (Some 4%Z) (Some q) (Some s) (Some r) None, [])) = Err AttributeError.
Proof.
  exists 1%R, 0%R, 1%R. rewrite well_allow_eq.
  apply (assign_raises well_own well_tab (news well_tab)) with (old := "s"); auto using well_apart.
  - cbn. tauto.
  - unfold getattr, well_own, own_of. cbn. rewrite (proj2 (PropProofs.Reqb_true _ _) eq_refl). reflexivity.
Qed.
(** C121: fluids never get the full names of compressibility that the parent class
    documents. *)
Lemma L_C121_no_compressibility :
  forall F (NF : Num F) mu B rho comp u o ops s, fluid_new (F := F) mu B rho comp u = Ok o ->
  In s ["compressibility"; "set_compressibility"; "compressibility_type"] ->
  fluid_get (fluid_ops (o, []) ops) s = Err AttributeError.
Proof.
  intros F NF mu B rho comp u o ops s _ I. pose proof (clean_ops ops (o, []) (clean_new o)) as C.
  unfold fluid_get, getattr. cbn in I. tabs I.
  all: match goal with |- context [fluid_own ?a ?b] => change (fluid_own a b) with (@None (attr F)) end; rewrite C; reflexivity.
Qed.
(** C121: allow_synonyms of a model never succeeds: none of the names that a model
    has is set_trans. *)
Lemma L_C121_model_raises :
  forall F (d : syns F), (forall n, sget n d <> None -> In n model_names) ->
  model_allow d = ((d, []), Err AttributeError).
Proof.
  intros F d H. unfold model_allow. cbn [assign_all]. unfold getattr, model_own. cbn [fst snd sget].
  destruct (sget "set_trans" d) eqn:E; [|reflexivity].
  exfalso. assert (I : In "set_trans" model_names) by (apply H; congruence).
  cbn in I. repeat (destruct I as [I|I]; [discriminate I|]). exact I.
Qed.
Lemma L_C121_model_refuted :
  exists d : syns R, (forall n, In n model_names <-> sget n d <> None) /\ snd (model_allow d) <> Ok tt.
Proof.
  exists (map (fun n => (n, Method n)) model_names). split; [|vm_compute; discriminate].
  assert (G : forall l n, In n l <-> sget n (map (fun n => (n, Method (F := R) n)) l) <> None).
  { induction l as [|m l IH]; intros n; cbn; [tauto|].
    destruct (String.eqb_spec n m) as [->|D]; [split; intros; [discriminate|now left]|].
    rewrite <- IH. intuition congruence. }
  intros n. apply G.
Qed.
Example ex_C121_no_comp_case :
  exists o : fobj Q, fluid_new None None None None "lab" = Ok o.
Proof. eexists. vm_compute. reflexivity. Qed.
Example ex_C121_model_case :
  forall n, sget n [("comp", Value 1%Q); ("set_comp", Method "set_comp")] <> None -> In n model_names.
Proof.
  intros n. cbn. destruct (String.eqb_spec n "comp") as [->|_]; [cbn; tauto|].
  destruct (String.eqb_spec n "set_comp") as [->|_]; [cbn; tauto|]. congruence.
Qed.
