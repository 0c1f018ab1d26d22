(** Property lemmas about units, fluids and compressibility (see P_Units.v). *)
From Coq Require Import String ZArith Reals Bool Lra Lia List.
From Verif Require Import Prelude PreludeFacts Num GridModel GeoModel PropModel PropSpec PropProofs UnitsModel UnitsSpec.
Import ListNotations.
Local Open Scope string_scope.
Local Open Scope R_scope.

Lemma systems_cases u : smem u systems = true -> u = "field" \/ u = "metric" \/ u = "lab".
Proof.
  unfold smem, systems. simpl. rewrite !orb_true_iff, !String.eqb_eq. intuition congruence.
Qed.
Lemma set_units_ok (o : uobj R) u : smem u systems = true ->
  exists o', set_units o u = (o', Ok tt) /\ in_system o' u.
Proof.
  intros H. apply systems_cases in H as [-> | [-> | ->]]; eexists; (split; [reflexivity|]);
  unfold in_system; repeat split; cbn; unfold factor; cbn; unfold dec; cbn; f_equal.
Qed.
Lemma set_units_bad (o : uobj R) u : smem u systems = false -> set_units o u = (o, Err ValueError).
Proof.
  intros H. unfold smem, systems in H. simpl in H. rewrite !orb_false_iff in H. destruct H as (H1 & H2 & H3 & _).
  unfold set_units. cbn [sget UNITS]. now rewrite H1, H2, H3.
Qed.
Lemma in_system_0 : in_system uobj0 "field".
Proof. unfold in_system. repeat split; cbn; unfold factor; cbn; unfold dec; cbn; f_equal. Qed.

(** Whatever set_units is called with, units and factors belong to the last
    accepted unit system; an unknown name raises ValueError and changes nothing. *)
Lemma L_C27_units_follow :
  forall (o : uobj R) (s : string) (l : list string) (u : string),
  in_system o s ->
  let o' := fold_left (fun o u => fst (set_units o u)) l o in
  in_system o' (last_system s l) /\
  (In u systems -> snd (set_units o' u) = Ok tt /\ in_system (fst (set_units o' u)) u) /\
  (~ In u systems -> set_units o' u = (o', Err ValueError)).
Proof.
  intros o s l u H o'. split; [|split].
  - unfold o', last_system. clear o' u. revert o s H. induction l as [|u l IH]; intros o s H; cbn [fold_left]; auto.
    destruct (smem u systems) eqn:E.
    + destruct (set_units_ok o u E) as (o1 & -> & H1). exact (IH o1 u H1).
    + rewrite (set_units_bad o u E). exact (IH o s H).
  - intros Hu. apply smem_In in Hu. destruct (set_units_ok o' u Hu) as (o1 & -> & H1). auto.
  - intros Hu. apply set_units_bad. destruct (smem u systems) eqn:E; auto. apply smem_In in E. tauto.
Qed.
Example ex_C27_hyps : in_system uobj0 "field" /\ last_system "field" ["lab"; "LAB"; "metric"; "si"] = "metric".
Proof. split; [exact in_system_0|reflexivity]. Qed.

(** Every quantity has a unit in each system: the three tables name the same
    quantities, and every conversion factor is among them. *)
Lemma L_C81_tables :
  forall s t q, In s systems -> In t systems ->
  (exists u, sget q (sfind s UNITS) = Some u) ->
  (exists u, sget q (sfind t UNITS) = Some u) /\
  (forall v, sget q (sfind s (FACTORS (F := R))) = Some v -> 0 < v /\ exists v', sget q (sfind t (FACTORS (F := R))) = Some v').
Proof.
  assert (K : forall s t, In s systems -> In t systems -> map fst (sfind s UNITS) = map fst (sfind t UNITS)).
  { intros s t Hs Ht. simpl in Hs, Ht.
    destruct Hs as [<-|[<-|[<-|[]]]]; destruct Ht as [<-|[<-|[<-|[]]]]; reflexivity. }
  assert (G : forall (A B : Type) (d : list (string * A)) (e : list (string * B)) q u, map fst d = map fst e ->
     sget q d = Some u -> exists v, sget q e = Some v).
  { induction d as [|[k a] d IH]; intros [|[k' b] e] q u E H; simpl in *; try discriminate.
    injection E as <- E. destruct (String.eqb q k); eauto. }
  assert (K' : forall s t, In s systems -> In t systems ->
     map fst (sfind s (FACTORS (F := R))) = map fst (sfind t (FACTORS (F := R)))).
  { intros s t Hs Ht. simpl in Hs, Ht.
    destruct Hs as [<-|[<-|[<-|[]]]]; destruct Ht as [<-|[<-|[<-|[]]]]; reflexivity. }
  assert (P : forall s q v, In s systems -> sget q (sfind s (FACTORS (F := R))) = Some v -> 0 < v).
  { intros s q v Hs H. simpl in Hs.
    destruct Hs as [<-|[<-|[<-|[]]]]; cbn in H; unfold dec in H; cbn in H;
    repeat (match type of H with (if ?b then _ else _) = _ => destruct b end; [injection H as <-; lra|]); discriminate. }
  intros s t q Hs Ht [u Hu]. split; [exact (G _ _ _ _ q u (K s t Hs Ht) Hu)|].
  intros v Hv. split; [exact (P s q v Hs Hv)|]. exact (G _ _ _ _ q v (K' s t Hs Ht) Hv).
Qed.
Example ex_C81_hyps :
  In "lab" systems /\ (exists u, sget "pressure" (sfind "lab" UNITS) = Some u) /\
  (exists v, sget "volume conversion" (sfind "lab" (FACTORS (F := R))) = Some v).
Proof. repeat split; [right; right; now left|eexists; reflexivity|eexists; reflexivity]. Qed.

(** ** Compressibility *)
Lemma comp_kind_0 : comp_kind 0 (Some "incompressible").
Proof. repeat split; intros; try discriminate; try lra. Qed.
Lemma comp_kind_pos c : 0 < c -> comp_kind c (Some "compressible").
Proof. intros H. repeat split; intros Q; try discriminate; try lra; auto. Qed.
Lemma comp_kind_neg c : c < 0 -> comp_kind c None.
Proof. intros H. repeat split; intros Q; try discriminate; try lra; auto. Qed.
Lemma comp_class_kind c : comp_kind c (fst (comp_class c)).
Proof.
  unfold comp_class. cbn [neqb nltb n0 Num_R]. unfold Reqb, Rltb.
  destruct (Req_EM_T c 0) as [->|N]; [apply comp_kind_0|].
  destruct (Rlt_dec 0 c); cbn [fst]; [now apply comp_kind_pos|apply comp_kind_neg; lra].
Qed.
Lemma cset_kind c : exists k, fst (cset c) = mkCobj (Some c) (Some k) /\ comp_kind c k /\
  (c < 0 -> snd (cset c) = Err ValueError) /\ (0 <= c -> snd (cset c) = Ok tt).
Proof.
  unfold cset. cbn [neqb nltb n0 Num_R]. unfold Reqb, Rltb.
  destruct (Req_EM_T c 0) as [->|N]; [eexists; repeat split; try discriminate; intros; lra|].
  destruct (Rlt_dec 0 c); cbn [fst snd].
  - eexists. split; [reflexivity|]. split; [now apply comp_kind_pos|]. split; intros; auto; lra.
  - eexists. split; [reflexivity|]. split; [apply comp_kind_neg; lra|]. split; intros; auto; lra.
Qed.
Lemma fset_comp_ok o c : fluid_comp_ok (fst (fset_comp o c)).
Proof.
  unfold fset_comp. destruct (cset_kind c) as (k & E & K & _). destruct (cset c) as [x r]. cbn [fst] in *. subst x.
  exists c, k. auto.
Qed.
Lemma fkeep o o' : f_c o' = f_c o -> fluid_comp_ok o -> fluid_comp_ok o'.
Proof. intros E (c & k & H). exists c, k. now rewrite E. Qed.
Lemma set_rho_c (o : fobj R) v : f_c (fst (set_rho o v)) = f_c o.
Proof. unfold set_rho. cbn [f_u]. destruct (let* a := _ in _); reflexivity. Qed.
Lemma fset_props_c o mu B rho comp : fluid_comp_ok o \/ c_comp (f_c o) = None ->
  snd (fset_props o mu B rho comp) = Ok tt \/ fluid_comp_ok o ->
  fluid_comp_ok (fst (fset_props o mu B rho comp)).
Proof.
  intros H HR. unfold fset_props in *. 
  set (o1 := match mu with Some v => set_mu o v | None => o end).
  assert (E1 : opt mu (fun v o => (set_mu o v, Ok tt)) o = (o1, Ok tt)) by (destruct mu; reflexivity).
  rewrite E1 in *. cbn [andthen] in *.
  set (o2 := match B with Some v => set_B o1 v | None => o1 end).
  assert (E2 : opt B (fun v o => (set_B o v, Ok tt)) o1 = (o2, Ok tt)) by (destruct B; reflexivity).
  rewrite E2 in *. cbn [andthen] in *.
  assert (C2 : f_c o2 = f_c o) by (unfold o2, o1; destruct mu, B; reflexivity).
  set (s3 := opt rho (fun v o => set_rho o v) o2) in *.
  assert (C3 : f_c (fst s3) = f_c o). { rewrite <- C2. unfold s3. destruct rho; cbn [opt]; [apply set_rho_c|reflexivity]. }
  destruct s3 as [o3 [[]|e]]; cbn [fst andthen] in *.
  2:{ cbn [fst snd] in *. destruct HR as [HR|HR]; [discriminate|]. now apply (fkeep o). }
  set (s4 := opt comp (fun v o => fset_comp o v) o3) in *.
  assert (C4 : fluid_comp_ok (fst s4) \/ f_c (fst s4) = f_c o).
  { unfold s4. destruct comp; cbn [opt]; [left; apply fset_comp_ok|right; exact C3]. }
  destruct s4 as [o4 [[]|e]]; cbn [fst andthen] in *.
  2:{ cbn [fst snd] in *. destruct C4 as [C4|C4]; auto. destruct HR as [HR|HR]; [discriminate|]. now apply (fkeep o). }
  set (s5 := match f_rho o4 with None => set_rho o4 n0 | Some _ => (o4, Ok tt) end) in *.
  assert (C5 : f_c (fst s5) = f_c o4). { unfold s5. destruct (f_rho o4); [reflexivity|apply set_rho_c]. }
  destruct s5 as [o5 [[]|e]]; cbn [fst andthen] in *.
  2:{ cbn [fst snd] in *. destruct HR as [HR|HR]; [discriminate|].
      destruct C4 as [C4|C4]; [now apply (fkeep o4)|apply (fkeep o); congruence]. }
  destruct (c_comp (f_c o5)) eqn:E; cbn [fst].
  - destruct C4 as [C4|C4]; [now apply (fkeep o4)|].
    destruct H as [H|H]; [apply (fkeep o); congruence|]. rewrite C5, C4, H in E. discriminate.
  - apply fset_comp_ok.
Qed.
Lemma fstep_comp o c : fluid_comp_ok o -> fluid_comp_ok (fstep o c).
Proof.
  intros H. destruct c; cbn [fstep].
  - unfold fset_units. destruct (set_units (f_u o) u). now apply (fkeep o).
  - now apply (fkeep o). - now apply (fkeep o). - apply (fkeep o); [apply set_rho_c|exact H].
  - apply fset_comp_ok. - apply fset_props_c; auto.
Qed.

Lemma cset_0 : cset 0 = (mkCobj (Some 0) (Some (Some "incompressible")), Ok tt).
Proof. unfold cset. cbn [neqb n0 Num_R]. now rewrite (proj2 (Reqb_true 0 0) eq_refl). Qed.
Lemma cset_neg : cset (-1) = (mkCobj (Some (-1)) (Some None), Err ValueError).
Proof.
  unfold cset. cbn [neqb nltb n0 Num_R]. unfold Reqb, Rltb.
  destruct (Req_EM_T (-1) 0); [lra|]. destruct (Rlt_dec 0 (-1)); [lra|]. reflexivity.
Qed.

(** Grid side *)
Lemma set_prop_comp g p n (v : dinput R) r :
  p_comp (fst (set_prop g p n v r)) = p_comp p /\ p_comp_type (fst (set_prop g p n v r)) = p_comp_type p.
Proof.
  assert (P : forall n x q, p_comp (pput n x q) = p_comp q /\ p_comp_type (pput (F := R) n x q) = p_comp_type q).
  { intros m x []. destruct m; auto. }
  unfold set_prop. destruct r as [r|].
  - match goal with |- context [match ?x with Ok l => _ | Err e => _ end] => destruct x end; cbn [fst]; auto.
  - destruct (bcast (get_n g true) v); cbn [fst]; auto.
Qed.
Lemma set_linked_comp g n v r s :
  p_comp (fst (set_linked (F := R) g n v r s)) = p_comp (fst s) /\
  p_comp_type (fst (set_linked g n v r s)) = p_comp_type (fst s).
Proof.
  destruct s as [p [u|e]]; cbn [fst set_linked]; auto. destruct v as [v|]; auto.
  pose proof (set_prop_comp g p n v r) as H. destruct (set_prop g p n v r) as [p' [u'|e]]; cbn [fst] in *; auto.
  destruct H as [H1 H2]. destruct p'. unfold plink, pput, pget. destruct n; cbn in *; auto.
Qed.
Lemma set_comp_grid (p : props R) c : grid_comp_ok (fst (set_comp p c)).
Proof. destruct p. intros c' E. cbn in *. injection E as <-. apply comp_class_kind. Qed.
Lemma grid_keep (p p' : props R) : p_comp p' = p_comp p /\ p_comp_type p' = p_comp_type p ->
  grid_comp_ok p -> grid_comp_ok p'.
Proof. intros [E1 E2] H c. rewrite E1, E2. apply H. Qed.
Lemma set_props_grid g p kx ky kz phi z comp r : grid_comp_ok p ->
  grid_comp_ok (fst (set_props g p kx ky kz phi z comp r)).
Proof.
  intros H. unfold set_props.
  assert (HL : forall n v q s, grid_comp_ok (fst s) -> grid_comp_ok (fst (set_linked (F := R) g n v q s))).
  { intros. eapply grid_keep; [apply set_linked_comp|]; auto. }
  pose proof (HL ZED z r _ (HL PHI phi r _ (HL KZ kz r _ (HL KY ky r _ (HL KX kx r (p, Ok tt) H))))) as H5.
  set (s5 := set_linked g ZED z r _) in *. clearbody s5. clear H.
  assert (H6 : grid_comp_ok (fst (match s5, comp with (p0, Ok _), Some c => set_comp p0 c | _, _ => s5 end))).
  { destruct s5 as [q [u|e]], comp; auto. apply set_comp_grid. }
  set (s6 := match s5, comp with (p0, Ok _), Some c => set_comp p0 c | _, _ => s5 end) in *. clearbody s6. clear H5.
  set (s7 := match s6 with (p0, Ok _) => match cur (p_z p0) with Some _ => s6 | None => set_linked g ZED (Some (Scalar n0)) None (p0, Ok tt) end | _ => s6 end).
  assert (H7 : grid_comp_ok (fst s7)).
  { unfold s7. destruct s6 as [q [u|e]]; auto. destruct (cur (p_z q)); auto. }
  clearbody s7. destruct s7 as [q [u|e]]; auto. destruct (p_comp q); auto. apply set_comp_grid.
Qed.

(** comp_type follows comp on fluids and grids after any sequence of calls,
    including rejected ones; set_comp accepts exactly the values >= 0. *)
Lemma L_C25_comp_type :
  (forall mu B rho comp u o l, fluid_new mu B rho comp u = Ok o -> fluid_comp_ok (frun o l)) /\
  (forall g l, grid_comp_ok (run_sets g props0 l)) /\
  (forall c : R, (0 <= c -> snd (cset c) = Ok tt) /\ (c < 0 -> snd (cset c) = Err ValueError) /\
     exists k, fst (cset c) = mkCobj (Some c) (Some k) /\ comp_kind c k) /\
  (forall (p : props R) (c : R), snd (set_comp p c) = snd (cset c) /\
     Some (p_comp_type (fst (set_comp p c))) = c_type (fst (cset c)) /\ p_comp (fst (set_comp p c)) = Some c).
Proof.
  split; [|split; [|split]].
  - intros mu B rho comp u o l E. unfold fluid_new in E.
    destruct (set_units uobj0 u) as [u' [[]|e]]; [|discriminate].
    pose proof (fset_props_c (mkFobj u' None None None None (mkCobj None None)) mu B rho comp (or_intror eq_refl)) as H.
    destruct (fset_props _ mu B rho comp) as [o' [[]|e]] eqn:Ep; [|discriminate]. injection E as <-.
    assert (H0 : fluid_comp_ok o') by (apply H; left; reflexivity). clear - H0.
    unfold frun. revert o' H0. induction l; intros; simpl; auto. apply IHl. now apply fstep_comp.
  - intros g l. unfold run_sets. assert (H : grid_comp_ok props0) by (intros c [=]).
    revert H. generalize (@props0 R). induction l; intros p H; simpl; auto. apply IHl. now apply set_props_grid.
  - intros c. destruct (cset_kind c) as (k & E & K & H1 & H2). repeat split; auto. exists k. auto.
  - intros [a1 a2 a3 a4 a5 a6 a7] c. cbn [set_comp fst snd p_comp p_comp_type]. unfold comp_class, cset.
    cbn [neqb nltb n0 Num_R]. destruct (Reqb c 0), (Rltb 0 c); repeat split; reflexivity.
Qed.
Example ex_C25_hyps : exists o, fluid_new (F := R) (Some 1) (Some 1) None (Some (-1)) "metric" = Err ValueError /\
  fluid_new (F := R) (Some 1) (Some 1) None None "metric" = Ok o.
Proof.
  eexists. unfold fluid_new, fset_props, fset_comp. cbn -[cset]. rewrite cset_neg, cset_0. cbn. split; reflexivity.
Qed.
(** A rejected compressibility stays in the object. *)
Lemma L_C25_rejected_refuted :
  exists (o : fobj R) (p : props R) (c : R),
  snd (fset_comp o c) = Err ValueError /\ c_comp (f_c o) = Some 0 /\ c_comp (f_c (fst (fset_comp o c))) = Some c /\
  snd (set_comp p c) = Err ValueError /\ p_comp p = Some 0 /\ p_comp (fst (set_comp p c)) = Some c.
Proof.
  exists (mkFobj uobj0 None None None None (mkCobj (Some 0) (Some (Some "incompressible")))).
  exists (mkProps prop0 prop0 prop0 prop0 prop0 (Some 0) (Some "incompressible")), (-1).
  destruct (cset_kind (-1)) as (k & E & K & H & _). specialize (H ltac:(lra)).
  assert (E' : snd (comp_class (-1)) = Err ValueError).
  { unfold comp_class. cbn [neqb nltb n0 Num_R]. unfold Reqb, Rltb.
    destruct (Req_EM_T (-1) 0); [lra|]. destruct (Rlt_dec 0 (-1)); [lra|]. reflexivity. }
  unfold fset_comp. destruct (cset (-1)) as [x r]. cbn [fst snd] in *. subst x r. cbn. repeat split; auto.
Qed.

(** ** Gravity *)
Definition sys_ok (o : fobj R) : Prop := exists s, in_system (f_u o) s.
Lemma set_rho_g o v : sys_ok o -> snd (set_rho o v) = Ok tt /\
  f_u (fst (set_rho o v)) = f_u o /\ f_rho (fst (set_rho o v)) = Some v /\ gravity_ok (fst (set_rho o v)).
Proof.
  intros (s & E & _ & Ha & _ & Hb & _). unfold set_rho. cbn [f_u].
  rewrite Hb. cbn [rbind]. rewrite Ha. cbn [rbind fst snd f_u f_rho]. repeat split; auto.
  exists v. cbn [f_rho f_g f_u]. now rewrite E.
Qed.
Lemma gkeep o o' : f_u o' = f_u o -> f_rho o' = f_rho o -> f_g o' = f_g o -> gravity_ok o -> gravity_ok o'.
Proof. intros E1 E2 E3 (r & H1 & H2). exists r. rewrite E1, E2, E3. auto. Qed.
Lemma fset_comp_g (o : fobj R) v : f_u (fst (fset_comp o v)) = f_u o /\ f_rho (fst (fset_comp o v)) = f_rho o /\ f_g (fst (fset_comp o v)) = f_g o.
Proof. unfold fset_comp. destruct (cset v). auto. Qed.
Lemma fset_props_g o mu B rho comp : sys_ok o -> 
  f_u (fst (fset_props o mu B rho comp)) = f_u o /\
  (gravity_ok o \/ rho <> None \/ (f_rho o = None /\ snd (fset_props o mu B rho comp) = Ok tt) -> gravity_ok (fst (fset_props o mu B rho comp))).
Proof.
  intros S. unfold fset_props.
  set (o1 := match mu with Some v => set_mu o v | None => o end).
  assert (E1 : opt mu (fun v o => (set_mu o v, Ok tt)) o = (o1, Ok tt)) by (destruct mu; reflexivity).
  rewrite E1. cbn [andthen].
  set (o2 := match B with Some v => set_B o1 v | None => o1 end).
  assert (E2 : opt B (fun v o => (set_B o v, Ok tt)) o1 = (o2, Ok tt)) by (destruct B; reflexivity).
  rewrite E2. cbn [andthen].
  assert (C2 : f_u o2 = f_u o /\ f_rho o2 = f_rho o /\ f_g o2 = f_g o) by (unfold o2, o1; destruct mu, B; auto).
  clearbody o2. clear o1 E1 E2. destruct C2 as (U2 & R2 & G2).
  assert (S2 : sys_ok o2) by (red; rewrite U2; exact S).
  assert (exists o3, opt rho (fun v o => set_rho o v) o2 = (o3, Ok tt) /\ f_u o3 = f_u o /\
     (gravity_ok o \/ rho <> None -> gravity_ok o3) /\ (rho = None -> f_rho o3 = f_rho o)) as (o3 & E3 & U3 & G3 & R3).
  { destruct rho as [v|]; cbn [opt].
    - destruct (set_rho_g o2 v S2) as (A1 & A2 & A3 & A4). destruct (set_rho o2 v) as [o3 r]. cbn [fst snd] in *. subst r.
      exists o3. repeat split; auto; try congruence.
    - exists o2. repeat split; auto. intros [H|H]; [|congruence]. now apply (gkeep o). }
  rewrite E3. cbn [andthen].
  set (s4 := opt comp (fun v o => fset_comp o v) o3).
  assert (C4 : f_u (fst s4) = f_u o3 /\ f_rho (fst s4) = f_rho o3 /\ f_g (fst s4) = f_g o3).
  { unfold s4. destruct comp; cbn [opt]; [apply fset_comp_g|repeat split]. }
  destruct C4 as (U4 & R4 & G4). destruct s4 as [o4 [[]|e]]; cbn [fst andthen] in *.
  2:{ cbn [fst snd]. split; [congruence|]. intros [H|[H|[_ H]]]; try discriminate; apply (gkeep o3); auto. }
  assert (S4 : sys_ok o4) by (red; rewrite U4, U3; exact S).
  assert (exists o5, match f_rho o4 with None => set_rho o4 n0 | Some _ => (o4, Ok tt) end = (o5, Ok tt) /\
     f_u o5 = f_u o /\ (gravity_ok o3 \/ f_rho o3 = None -> gravity_ok o5)) as (o5 & E5 & U5 & G5).
  { destruct (f_rho o4) eqn:Er.
    - exists o4. split; [reflexivity|]. split; [congruence|]. intros [H|H]; [apply (gkeep o3); congruence|congruence].
    - destruct (set_rho_g o4 n0 S4) as (A1 & A2 & A3 & A4). destruct (set_rho o4 n0) as [o5 r]. cbn [fst snd] in *. subst r.
      exists o5. split; [reflexivity|]. split; [congruence|auto]. }
  rewrite E5. cbn [andthen].
  assert (G5' : gravity_ok o \/ rho <> None \/ f_rho o = None -> gravity_ok o5).
  { intros [H|[H|H]]; auto. destruct rho; [apply G5; left; apply G3; right; discriminate|]. apply G5. right. rewrite R3; auto. }
  destruct (c_comp (f_c o5)); cbn [fst snd].
  - split; auto. intros [H|[H|[H _]]]; auto.
  - destruct (fset_comp_g o5 n0) as (A1 & A2 & A3). split; [congruence|].
    intros H. apply (gkeep o5); auto. apply G5'. destruct H as [H|[H|[H _]]]; auto.
Qed.
Lemma fstep_sys o c : sys_ok o -> sys_ok (fstep o c).
Proof.
  intros S. destruct c; cbn [fstep].
  - unfold fset_units. destruct S as (s & S). destruct (smem u systems) eqn:E.
    + destruct (set_units_ok (f_u o) u E) as (u' & -> & H). exists u. exact H.
    + rewrite (set_units_bad (f_u o) u E). exists s. exact S.
  - exact S. - exact S.
  - destruct (set_rho_g o v S) as (_ & E & _). red. rewrite E. exact S.
  - destruct (fset_comp_g o v) as (E & _). red. rewrite E. exact S.
  - destruct (fset_props_g o mu B rho comp S) as (E & _). red. rewrite E. exact S.
Qed.
Lemma fstep_grav o c : sys_ok o -> sets_units c = false -> gravity_ok o \/ sets_rho c = true -> gravity_ok (fstep o c).
Proof.
  intros S U H. destruct c; cbn [fstep sets_units sets_rho] in *; try discriminate.
  - destruct H; [|discriminate]. now apply (gkeep o).
  - destruct H; [|discriminate]. now apply (gkeep o).
  - apply set_rho_g; auto.
  - destruct H; [|discriminate]. destruct (fset_comp_g o v) as (A & B & C). now apply (gkeep o).
  - apply fset_props_g; auto. destruct H; auto. destruct rho; try discriminate. right. left. discriminate.
Qed.
Lemma frun_sys l : forall o, sys_ok o -> sys_ok (frun o l).
Proof. induction l; intros; simpl; auto. apply IHl. now apply fstep_sys. Qed.
Lemma frun_grav l : forall o, sys_ok o -> gravity_ok o -> (forall c, In c l -> sets_units c = false) -> gravity_ok (frun o l).
Proof.
  induction l as [|c l IH]; intros o S G H; simpl; auto. apply IH.
  - now apply fstep_sys. - apply fstep_grav; auto. apply H. now left. - intros; apply H. now right.
Qed.
Lemma fluid_new_ok mu B rho comp u o : fluid_new (F := R) mu B rho comp u = Ok o -> sys_ok o /\ gravity_ok o.
Proof.
  intros E. unfold fluid_new in E. destruct (smem u systems) eqn:Eu.
  - destruct (set_units_ok uobj0 u Eu) as (u' & E' & H). rewrite E' in E.
    set (o0 := mkFobj u' None None None None (mkCobj None None)) in *.
    assert (S : sys_ok o0) by (exists u; exact H).
    destruct (fset_props_g o0 mu B rho comp S) as (Eu' & G).
    destruct (fset_props o0 mu B rho comp) as [o' [[]|e]]; [|discriminate]. injection E as <-.
    cbn [fst snd] in *. split; [red; rewrite Eu'; exact S|]. apply G. auto.
  - rewrite (set_units_bad uobj0 u Eu) in E. discriminate.
Qed.

(** The gravity term of a fluid is up to date as long as the units were not
    changed since the density was last given (or since construction), whatever
    else was called before and after, successfully or not. *)
Lemma L_C28_gravity_partial :
  forall mu B rho comp u o l1 l2,
  fluid_new mu B rho comp u = Ok o ->
  (forall c, In c l2 -> sets_units c = false) ->
  (l1 = [] -> gravity_ok (frun o l2)) /\
  (forall c, sets_rho c = true -> gravity_ok (frun o (l1 ++ c :: l2))).
Proof.
  intros mu B rho comp u o l1 l2 E H. destruct (fluid_new_ok _ _ _ _ _ _ E) as [S G]. split.
  - intros _. now apply frun_grav.
  - intros c Hc. unfold frun. rewrite fold_left_app. cbn [fold_left]. apply frun_grav; auto.
    + apply fstep_sys, frun_sys, S.
    + apply fstep_grav; auto. apply frun_sys, S. destruct c; try discriminate; reflexivity.
Qed.
Example ex_C28_hyps : exists o, fluid_new (F := R) (Some 1) (Some 1) (Some 50) (Some 0) "field" = Ok o /\
  sets_rho (FProps None None (Some 60) (Some (-1))) = true.
Proof.
  eexists. split; [|reflexivity]. unfold fluid_new, fset_props, fset_comp. cbn -[cset]. rewrite cset_0. cbn. reflexivity.
Qed.
(** Changing the units leaves the old gravity term behind. *)
Lemma L_C28_gravity_refuted :
  exists o, fluid_new (Some 1) (Some 1) (Some 50) None "field" = Ok o /\ gravity_ok o /\
  ~ gravity_ok (frun o [FUnits "metric"]).
Proof.
  eexists. split; [|split].
  - unfold fluid_new, fset_props, fset_comp. cbn -[cset]. rewrite cset_0. cbn. reflexivity.
  - exists 50. split; [reflexivity|]. cbn. unfold dec. cbn. f_equal.
  - intros (rho & E1 & E2). cbn in E1, E2. injection E1 as <-. injection E2 as E2.
    unfold dec, gravity_conv, earth in E2. cbn in E2. lra.
Qed.
