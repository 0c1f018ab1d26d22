(** The equations kept in cells_terms. *)
From Coq Require Import String ZArith Bool Arith List Lia Reals Lra QArith.
From Verif Require Import Prelude PreludeFacts Num GridModel GeoModel PropModel BlackOilModel FdmModel MonadFacts HistSpec InvFacts ModelSpec Samples QSamples SolveSpec DryFacts AssemblyThm MemoSpec MemoThm SampleFacts SampleWell SampleBal TotalFacts FrameFacts ModelSpec TotalSpec TotalSet TotalThm SolveFacts StepSpec StepFacts SetupFacts BoundaryThm KeptSpec KeptFacts KeptPres.
Import ListNotations.
Close Scope Q_scope. Close Scope R_scope.
Open Scope nat_scope.

Lemma bo_new_bare (g : gobj R) f unit pi dt m0 : bo_new g f unit pi dt = Ok m0 -> b_wells m0 = [] /\ b_terms m0 = [].
Proof. intros E. now apply new_empty in E. Qed.
Lemma agree0 (m : bo R) : b_wells m = [] -> b_terms m = [] -> agree (m, None) (m, None).
Proof.
  intros W T. unfold agree. cbn [fst]. rewrite T. split; auto. split; [apply KI0|]. split; [apply KI0|]. split; [|intros id D; now contradiction D]. intros id w E. rewrite W in E. discriminate.
Qed.
Lemma forget_history l : forall x y : ws R, agree x y -> along steady_call x l -> outcomes_f y l = outcomes x l /\ forget (after_f y l) = forget (after x l) /\ agree (after x l) (after_f y l).
Proof.
  induction l as [|c l IH]; intros x y A H; cbn [along outcomes outcomes_f after_f after fold_left] in *; [split; auto; split; auto; symmetry; apply A|].
  destruct H as (H1 & H2). destruct (agree_call c x (forget y) (agree_forget x y A) H1) as (E1 & E2). unfold exec_f. destruct (IH _ _ E2 H2) as (I1 & I2 & I3). rewrite <- E1, I1. auto.
Qed.
(** After set_well with a rate the well is controlled by it. *)
Lemma rate_set {F} {NF : Num F} {NT : NumT F} id q pwf r sk (m : bo F) s :
  match set_well (Some id) (Some q) pwf r sk (m, Some s) with
  | ((m', o'), Ok _) => o' = Some s /\ core m' = core m /\ b_terms m' = b_terms m /\ b_bdict m' = b_bdict m /\ exists w, dget id (b_wells m') = Some w /\ w_con w = Some (Some "q"%string)
  | _ => True
  end.
Proof.
  set (c := Set_well (Some id) (Some q) pwf r sk).
  pose proof (core_call c (m, Some s)) as C. pose proof (terms_kept c (m, Some s) ltac:(discriminate) ltac:(discriminate)) as T. destruct (exec_bdict c (m, Some s) I) as (B & _). cbn [exec c fst snd] in C, T, B.
  assert (S : inv (fun x : ws F => snd x = Some s) (set_well (Some id) (Some q) pwf r sk)).
  { assert (U : forall f, inv (fun x : ws F => snd x = Some s) (upd_well id f)).
    { intros f. unfold upd_well. apply i_set. intros [a b] x' Hx E. cbn [fst snd] in *. destruct (dgetE id (b_wells a)); cbn [rbind] in E; [|discriminate]. destruct (f a a0); cbn [rbind] in E; inversion E; subst; auto. }
    assert (L : inv (fun x : ws F => snd x = Some s) (log_pressure id)).
    { unfold log_pressure. apply i_set. intros [a b] x' Hx E. cbn [fst snd] in *. destruct (get_pressure _ _); cbn [rbind] in E; inversion E; subst; auto. }
    unfold set_well, assert_inside, set_well_tail. isplit; auto. apply i_set. intros [mx sx] x' Hx E. cbn [fst snd] in *. inversion E; subst. destruct (din id (b_wells mx)); auto. }
  specialize (S (m, Some s) eq_refl).
  set (Q := fun x : ws F => exists w, dget id (b_wells (fst x)) = Some w /\ w_con w = Some (Some "q"%string) /\ w_q w <> None).
  assert (U : forall f, (forall m w w', w_con w = Some (Some "q"%string) /\ w_q w <> None -> f m w = Ok w' -> w_con w' = Some (Some "q"%string) /\ w_q w' <> None) -> inv Q (upd_well id f)).
  { intros f Hf. unfold upd_well. apply i_set. intros [a b] x' (w & Ew & Hw) E. cbn [fst snd] in *. unfold dgetE in E. rewrite Ew in E. cbn [rbind] in E. destruct (f a w) as [w'|] eqn:Ef; cbn [rbind] in E; inversion E; subst.
    exists w'. cbn [fst]. rewrite wells_set_wells, dget_dset_z, Z.eqb_refl. split; auto. eapply Hf; eauto. }
  assert (L : inv Q (log_pressure id)).
  { unfold log_pressure. apply i_set. intros [[] b] x' Hx E. cbn [fst snd] in *. destruct (get_pressure _ _); cbn [rbind] in E; inversion E; subst. exact Hx. }
  assert (H : hoare (fun _ : ws F => True) (set_well (Some id) (Some q) pwf r sk) (fun _ => Q) (fun _ => True)).
  { unfold set_well, assert_inside. eapply h_bind with (Q := fun _ _ => True); [apply h_read; auto|]. intros _. eapply h_bind with (Q := fun _ _ => True); [apply h_set; auto|]. intros _.
    eapply h_bind with (Q := fun _ => Q).
    { cbn [mopt]. unfold upd_well. apply h_set; auto. intros [a b] x' _ E. cbn [fst snd] in *. unfold dgetE in E. destruct (dget id (b_wells a)) as [w|]; [|discriminate]. cbn [rbind] in E. inversion E; subst.
      exists (with_q q w). cbn [fst]. rewrite wells_set_wells, dget_dset_z, Z.eqb_refl. destruct w. cbn. split; auto. split; auto. discriminate. }
    intros _. eapply h_weak with (E := Q); [apply (inv_hoare Q)|auto|auto|auto]. unfold set_well_tail. isplit; auto; apply U; intros mz w w' (W1 & W2) E; try (inversion E; subst; destruct w; cbn in *; auto; fail).
    - destruct w; cbn in *. destruct w_q; [|congruence]. cbn in E. inversion E; subst; cbn; auto.
    - rewrite W1 in E. cbn in E. inversion E; subst. auto.
    - destruct (calc_well_r_eq mz id); cbn [rbind] in E; inversion E; subst; destruct w; cbn in *; auto.
    - destruct (calc_well_G mz id); cbn [rbind] in E; inversion E; subst; destruct w; cbn in *; auto. }
  specialize (H (m, Some s) I). destruct (set_well (Some id) (Some q) pwf r sk (m, Some s)) as [[m' o'] [[]|e]]; auto. cbn [fst snd] in *. destruct H as (w & H1 & H2 & _). eauto 8.
Qed.
(** ** C114 *)
(** The kept equations are those of now while the conditions and the wells stay, wells
    controlled by pressure being free: every call returns or raises and leaves what it
    would if cells_terms were emptied before it.  Missing: run (see C111: a run is its steps); and conditions and
    rates that change, for which it is false. *)
Lemma L_C114_kept_equations_partial :
  forall (g : gobj R) f unit pi dt m0 l, bo_new g f unit pi dt = Ok m0 -> along steady_call (m0, None) l ->
  outcomes_f (m0, None) l = outcomes (m0, None) l /\ forget (after_f (m0, None) l) = forget (after (m0, None) l) /\
  forall sc id m s, after (m0, None) l = (m, Some s) -> snd (get_cell_eq sc id (m, s)) = snd (get_cell_eq sc id (set_terms [] m, s)).
Proof.
  intros g f unit pi dt m0 l Hn H. destruct (bo_new_bare _ _ _ _ _ _ Hn) as (W & T). destruct (forget_history l _ _ (agree0 m0 W T) H) as (H1 & H2 & H3). split; auto. split; auto.
  intros sc id m s E. rewrite E in H3. destruct H3 as (_ & K & _ & G & _). cbn [fst] in *.
  destruct (uni_eq sc m s id G) as (L & r & U). destruct (U _ K) as (E1 & _). destruct (U _ (KI0 m)) as (E2 & _). replace (set_terms (b_terms m) m) with m in E1 by now destruct m. rewrite E1, E2. reflexivity.
Qed.
(** In particular if all wells are controlled by pressure: their pressures (and radii,
    skins) may be changed at any time, also between symbolic steps. *)
Lemma L_C114_pressures :
  forall (g : gobj R) f unit pi dt m0 l, bo_new g f unit pi dt = Ok m0 -> along pressure_call (m0, None) l ->
  outcomes_f (m0, None) l = outcomes (m0, None) l /\ forget (after_f (m0, None) l) = forget (after (m0, None) l) /\
  forall sc id m s, after (m0, None) l = (m, Some s) -> snd (get_cell_eq sc id (m, s)) = snd (get_cell_eq sc id (set_terms [] m, s)).
Proof.
  intros g f unit pi dt m0 l Hn H. apply (L_C114_kept_equations_partial g f unit pi dt m0 l Hn). destruct (bo_new_bare _ _ _ _ _ _ Hn) as (W & T).
  apply pressure_along with (K := fun _ => False); auto. intros id. cbn [fst]. rewrite W. cbn. auto.
Qed.
(** A rate set for a cell with a kept equation that has no well or one with a rate
    changes nothing in its equation, now or ever. *)
Lemma L_C114_rate_ignored :
  forall F (NF : Num F) (NT : NumT F) (x : ws F) id q pwf r sk m s m' s', x = (m, Some s) -> dget id (b_terms m) <> None ->
  (forall w, dget id (b_wells m) = Some w -> w_con w = Some (Some "q"%string)) ->
  exec (Set_well (Some id) (Some q) pwf r sk) x = ((m', Some s'), Ok tt) ->
  forall sc, snd (get_cell_eq sc id (m', s')) = snd (get_cell_eq sc id (m, s)).
Proof.
  intros F NF NT x id q pwf r sk m s m' s' -> D Hw E sc. destruct (dget id (b_terms m)) as [t|] eqn:Et; [|congruence]. clear D. cbn [exec] in E.
  pose proof (rate_set id q pwf r sk m s) as H. rewrite E in H. destruct H as (H1 & H2 & H3 & H4 & w & Ew & Ec). rewrite !get_eq_tm. unfold tm. cbn [fst]. rewrite H3, Et.
  assert (Eo : old_terms (m', s') id t = old_terms (m, s) id t).
  { unfold old_terms. rewrite Ew. unfold con_is. rewrite Ec. cbn [keyE rbind String.eqb Ascii.eqb Bool.eqb].
    pose proof (core_fields _ _ H2) as (_ & _ & _ & _ & _ & _ & _ & _ & _ & Ecmp & Erhs). rewrite Ecmp. unfold a_term. rewrite Ecmp, Erhs. injection H1 as ->.
    destruct (dget id (b_wells m)) as [w0|]; [|reflexivity]. rewrite (Hw w0 eq_refl). reflexivity. }
  rewrite Eo. destruct (old_terms (m, s) id t); reflexivity.
Qed.
(** False in general.  Cell 3 produces 5, is written down once, then 1 is asked for: the
    equation of the cell still has 5.  A new rate well is not seen, nor a new boundary pressure.  A new well
    controlled by pressure in cell 2 replaces the connection with cell 3. *)
Lemma L_C114_kept_refuted :
  exists m0 : bo Q, build 3 1 1 None 0%Q (Some 10%Q) None = Ok m0 /\
  forall NT : NumT Q,
  let rate id v := Set_well (Some id) (Some v) None (Some (1 # 2)%Q) None in
  let l := [Set_boundaries [(0%Z, ("pressure"%string, 20%Q))]; rate 3%Z (-5)%Q; Compile; Solve cramer3 oneQ 9 true dried] in
  let eq id x := snd (get_cell_eq oneQ id (fst x, sol m0 x)) in
  let cells x := option_map (fun t => map (fun a => map fst (lc a)) (t_f t)) (dget 2%Z (b_terms (fst (fst (get_cell_eq oneQ 2%Z (fst x, sol m0 x)))))) in
  let x1 := after (m0, None) (l ++ [rate 3%Z (-1)%Q]) in
  let x2 := after (m0, None) (l ++ [rate 2%Z (-7)%Q]) in
  let x3 := after (m0, None) (l ++ [Set_well (Some 2%Z) None (Some 4%Q) (Some (1 # 2)%Q) None]) in
  let x4 := after (m0, None) (l ++ [Set_boundaries [(0%Z, ("pressure"%string, 30%Q))]]) in
  outcomes (m0, None) (l ++ [rate 3%Z (-1)%Q; rate 2%Z (-7)%Q]) = repeat (Ok tt) 6 /\
  snd (exec (Set_well (Some 2%Z) None (Some 4%Q) (Some (1 # 2)%Q) None) (after (m0, None) l)) = Ok tt /\
  eq 3%Z x1 = Ok ([(2%Z, 1%Q); (3%Z, (-1)%Q)], Ok (Some 5%Q)) /\ eq 3%Z (forget x1) = Ok ([(2%Z, 1%Q); (3%Z, (-1)%Q)], Ok (Some 1%Q)) /\
  eq 2%Z x2 = Ok ([(1%Z, 1%Q); (3%Z, 1%Q); (2%Z, (-2)%Q)], Ok (Some 0%Q)) /\
  eq 2%Z (forget x2) = Ok ([(1%Z, 1%Q); (3%Z, 1%Q); (2%Z, (-2)%Q)], Ok (Some 7%Q)) /\
  snd (exec (Set_boundaries [(0%Z, ("pressure"%string, 30%Q))]) (after (m0, None) l)) = Ok tt /\
  eq 1%Z x4 = Ok ([(2%Z, 1%Q); (1%Z, (-3)%Q)], Ok (Some (-40)%Q)) /\ eq 1%Z (forget x4) = Ok ([(2%Z, 1%Q); (1%Z, (-3)%Q)], Ok (Some (-60)%Q)) /\
  cells x3 = Some [[1; 2]; [2]]%Z /\ cells (forget x3) = Some [[1; 2]; [3; 2]; [2]]%Z.
Proof.
  eexists. split; [vm_compute; reflexivity|]. intros NT. cbv zeta. split; [vm_compute; reflexivity|]. split; [vm_compute; reflexivity|]. split; [vm_compute; reflexivity|]. split; [vm_compute; reflexivity|].
  split; [vm_compute; reflexivity|]. split; [vm_compute; reflexivity|]. split; [vm_compute; reflexivity|]. split; [vm_compute; reflexivity|]. split; [vm_compute; reflexivity|]. split; vm_compute; reflexivity.
Qed.
(** A step with update=False leaves the settings and the results. *)
Lemma dried_pub slv sc fuel sp (m : bo R) s : exists m' s', fst (exec (Solve slv sc fuel sp dried) (m, Some s)) = (m', Some s') /\ settings m' = settings m /\ results s' = results s.
Proof.
  cbn [exec]. unfold of_solution. cbn [fst snd].
  assert (P : pub (fst (solve slv sc fuel sp dried (m, s))) = pub (m, s)).
  { destruct fuel as [|k]; [reflexivity|]. cbn [solve]. unfold mbind. pose proof (system_pub sc dried (m, s)) as P. destruct (get_system sc dried (m, s)) as [x [Ad|e]]; cbn [fst] in P; [|exact P]. unfold mread. destruct (rbind _ _); exact P. }
  destruct (solve slv sc fuel sp dried (m, s)) as [[m' s'] r]. cbn [fst snd] in *. unfold pub in P. cbn [fst snd] in P. injection P as P1 P2 P3. exists m', s'. split; [reflexivity|]. unfold settings, results. split; congruence.
Qed.
Example ex_C114_case : forall slv, exists (g : gobj R) f unit pi dt m0, bo_new g f unit pi dt = Ok m0 /\
  along pressure_call (m0, None) [Set_boundaries [(0%Z, ("pressure"%string, 20%R))]; Set_well (Some 2%Z) None (Some 4%R) (Some (1 / 2)%R) None; Compile;
    Solve slv SampleWell.one 9 true dried; Set_well (Some 2%Z) None (Some 7%R) (Some 1%R) (Some 1%R); Solve slv SampleWell.one 9 true symbolic; Solve slv SampleWell.one 9 true symbolic].
Proof.
  intros slv. assert (El : build 3 1 1 None 1%R (Some 10%R) None = Ok (line3 (1 + 0) true (Some 10%R))) by (apply line3_pos; lra).
  destruct (build_new _ _ _ _ _ _ _ _ El) as (g & f & unit & p & dt & Hn). exists g, f, unit, p, dt, (line3 (1 + 0) true (Some 10%R)). split; [exact Hn|].
  assert (HM : exists x y z u dx dy dz, model (line3 (1 + 0) true (Some 10%R)) x y z u dx dy dz) by (do 7 eexists; apply line3_model; intros; lra). destruct HM as (x & y & z & u & dx & dy & dz & K).
  assert (At : attached (line3 (1 + 0) true (Some 10%R))) by (intros []; reflexivity). assert (I2 : In 2%Z (b_ids (line3 (1 + 0) true (Some 10%R)))) by (cbn; auto).
  assert (Fd : drillable (gr (geom (b_grid (line3 (1 + 0) true (Some 10%R)))))) by (split; unfold GridSpec.flows; cbn; lia). apply (fine_drill K) in Fd.
  destruct (bo_new_bare _ _ _ _ _ _ Hn) as (Wm & Tm). destruct (bo_new_wide _ _ _ _ _ _ Hn) as (Wd & Eg & _). rewrite <- Eg in Wd.
  remember (line3 (1 + 0) true (Some 10%R)) as m0 eqn:Em. clear Em El Hn Eg.
  change (get_n (ggrid (b_grid m0)) true) with (get_n (gr (geom (b_grid m0))) true) in Wd.
  (* the boundary *)
  cbn [along]. split. { intros id. cbn [fst]. rewrite Tm. reflexivity. }
  set (c1 := Set_boundaries [(0%Z, ("pressure"%string, 20%R))]).
  assert (B1 : base (m0 := m0) (fst (exec c1 (m0, None)))).
  { split; [apply core_call|]. split; [apply w_exec; exact Wd|]. unfold c1. cbn [exec]. destruct (boundaries_step0 [(0%Z, ("pressure"%string, 20%R))] m0 (fdm_new m0) eq_refl) as (_ & E0). rewrite E0. exact I. }
  assert (T1 : b_terms (fst (fst (exec c1 (m0, None)))) = []) by (rewrite terms_kept by discriminate; exact Tm).
  assert (P1 : PW (fun _ => False) (fst (fst (exec c1 (m0, None))))).
  { cbn [exec c1]. apply (c_boundaries (PW (fun _ => False))); try (intros ? ? ?; eapply PW_wells; [|eassumption]; match goal with |- context [set_ip _ ?m] => destruct m | |- context [set_ir _ ?m] => destruct m | |- context [set_bdict _ ?m] => destruct m | |- context [set_bup _ ?m] => destruct m end; reflexivity).
    intros id. cbn [fst]. rewrite Wm. cbn. auto. }
  set (x1 := fst (exec c1 (m0, None))) in *. clearbody x1.
  (* the well *)
  assert (O2 : snd (set_well (Some 2%Z) None (Some 4%R) (Some (1 / 2)%R) None x1) = Ok tt) by (apply (set_well_total K 2%Z I2 At); auto; left; discriminate).
  split. { split; [exact O2|]. left. intros id. now rewrite T1. }
  pose proof (well_set 2%Z (fun _ => False) 4%R (Some (1 / 2)%R) None x1 P1 O2) as P2.
  set (c2 := Set_well (Some 2%Z) None (Some 4%R) (Some (1 / 2)%R) None) in *.
  assert (C2 : core (fst (fst (exec c2 x1))) = core m0) by (rewrite core_call; apply B1).
  assert (W2 : wide (get_n (gr (geom (b_grid m0))) true) (fst (exec c2 x1))) by (apply w_exec; apply B1).
  change (set_well (Some 2%Z) None (Some 4%R) (Some (1 / 2)%R) None x1) with (exec c2 x1) in P2.
  set (x2 := fst (exec c2 x1)) in *. clearbody x2. split; [exact I|].
  (* compile and a symbolic step *)
  pose proof (w_exec (get_n (gr (geom (b_grid m0))) true) Compile x2 W2) as W3. split; [exact I|].
  change (fst (exec Compile x2)) with ((fst x2, Some (fdm_new (fst x2))) : ws R) in *. set (s0 := fdm_new (fst x2)) in *. assert (Sh : shaped s0) by (unfold s0, shaped, fdm_new; cbn; auto).
  pose proof (w_exec (get_n (gr (geom (b_grid m0))) true) (Solve slv SampleWell.one 9 true dried) _ W3) as W4. pose proof (core_call (Solve slv SampleWell.one 9 true dried) (fst x2, Some s0)) as C4. cbn [fst] in C4.
  destruct (dried_pub slv SampleWell.one 9 true (fst x2) s0) as (m4 & s4 & E4 & U4 & R4). rewrite E4 in *. cbn [fst] in C4.
  unfold settings in U4. injection U4 as _ _ U4 _ _ _. unfold results in R4. injection R4 as R1 R2 _ R3 _ _ _ _.
  split; [|split; [exact I|split; exact I]]. split.
  - apply (set_well_total K 2%Z I2 At); auto; [|left; discriminate]. split; [cbn [fst]; congruence|]. split; [exact W4|]. cbn [snd]. unfold shaped in *. now rewrite R1, R2, R3.
  - right. cbn [fst]. rewrite U4. specialize (P2 2%Z). destruct (dget 2%Z (b_wells (fst x2))); [discriminate|]. exfalso. apply P2. auto.
Qed.
Example ex_C114_steady_case : forall slv, exists (g : gobj R) f unit pi dt m0, bo_new g f unit pi dt = Ok m0 /\
  along steady_call (m0, None) [Set_boundaries [(0%Z, ("pressure"%string, 20%R))]; Set_well (Some 2%Z) None (Some 4%R) (Some (1 / 2)%R) None; Compile;
    Solve slv SampleWell.one 9 true dried; Set_well (Some 2%Z) None (Some 7%R) (Some 1%R) (Some 1%R); Solve slv SampleWell.one 9 true symbolic; Solve slv SampleWell.one 9 true symbolic].
Proof.
  intros slv. destruct (ex_C114_case slv) as (g & f & unit & p & dt & m0 & Hn & H). exists g, f, unit, p, dt, m0. split; [exact Hn|]. destruct (bo_new_bare _ _ _ _ _ _ Hn) as (W & T).
  apply pressure_along with (K := fun _ => False); auto. intros id. cbn [fst]. rewrite W. cbn. auto.
Qed.
Example ex_C114_rate_case : exists m0 : bo Q, build 3 1 1 None 0%Q (Some 10%Q) None = Ok m0 /\ forall NT : NumT Q,
  let X := after (m0, None) [Set_boundaries [(0%Z, ("pressure"%string, 20%Q))]; Set_well (Some 3%Z) (Some (-5)%Q) None (Some (1 # 2)%Q) None; Compile; Solve cramer3 oneQ 9 true dried] in
  exists m s m' s', X = (m, Some s) /\ dget 3%Z (b_terms m) <> None /\ (forall w, dget 3%Z (b_wells m) = Some w -> w_con w = Some (Some "q"%string)) /\ dget 3%Z (b_wells m) <> None /\
  exec (Set_well (Some 3%Z) (Some (-1)%Q) None (Some (1 # 2)%Q) None) X = ((m', Some s'), Ok tt).
Proof.
  eexists. split; [vm_compute; reflexivity|]. intros NT. cbv zeta.
  match goal with |- exists m s m' s', ?x = _ /\ _ =>
    assert (H1 : match snd x with Some _ => true | None => false end = true) by (vm_compute; reflexivity);
    assert (H2 : din 3%Z (b_terms (fst x)) = true) by (vm_compute; reflexivity);
    assert (H3 : option_map w_con (dget 3%Z (b_wells (fst x))) = Some (Some (Some "q"%string))) by (vm_compute; reflexivity);
    assert (H4 : snd (exec (Set_well (Some 3%Z) (Some (-1)%Q) None (Some (1 # 2)%Q) None) x) = Ok tt) by (vm_compute; reflexivity);
    assert (H5 : match snd (fst (exec (Set_well (Some 3%Z) (Some (-1)%Q) None (Some (1 # 2)%Q) None) x)) with Some _ => true | None => false end = true) by (vm_compute; reflexivity);
    revert H1 H2 H3 H4 H5; generalize x; intros X H1 H2 H3 H4 H5
  end.
  destruct X as [m [s|]]; [|discriminate]. destruct (exec _ (m, Some s)) as [[m' [s'|]] r]; [|discriminate]. cbn [fst snd] in *. subst r.
  exists m, s, m', s'. split; [reflexivity|]. split; [unfold din in H2; destruct (dget 3%Z (b_terms m)); congruence|]. destruct (dget 3%Z (b_wells m)) as [w0|]; [|discriminate]. cbn [option_map] in H3. injection H3 as H3.
  split; [intros w E; congruence|]. split; [discriminate|reflexivity].
Qed.
