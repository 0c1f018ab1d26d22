(** Properties of the vectorised matrix. *)
From Coq Require Import String ZArith Bool Arith List Lia Reals Lra.
From Verif Require Import Prelude PreludeFacts Num GridModel GridSpec GridProofs GeoModel TabFacts GeoSpec GeoProofs PropModel PropSpec PropProofs PropThm
  UnitsModel UnitsSpec BlackOilModel FdmModel MonadFacts Samples HistSpec WellThm InvFacts SumFacts ModelSpec ModelFacts VectFacts AsmFacts TiedFacts SampleFacts.
Import ListNotations.
Close Scope R_scope.
Open Scope nat_scope.

(** ** C82 *)
(** C82: a model constructed from a grid with flow and positive rock and fluid
    data satisfies what the other properties assume of a model. *)
Lemma L_C82_constructor :
  forall (g : gobj R) (f : fobj R) unit pi dt m x y z u dx dy dz cg cf k mu B phi zs,
  bo_new g f unit pi dt = Ok m ->
  rock g x y z u dx dy dz -> has_flow (gr (geom g)) ->
  p_comp (prs g) = Some cg -> comp_kind cg (p_comp_type (prs g)) ->
  f_c f = mkCobj (Some cf) (Some k) -> comp_kind cf k ->
  f_mu f = Some mu -> f_B f = Some B -> (0 < mu)%R -> (0 < B)%R -> (0 < dt)%R ->
  att (pget PHI (prs g)) = Some phi -> length phi = get_n (gr (geom g)) true -> Forall (fun v => 0 < v)%R phi ->
  att (pget ZED (prs g)) = Some zs -> length zs = get_n (gr (geom g)) true ->
  model m x y z u dx dy dz.
Proof.
  intros g f unit pi dt m x y z u dx dy dz cg cf k mu B phi zs H Rk HF Hg Kg Hf Kf Emu EB Pmu PB Pdt Eph Lph Pph Ez Lz.
  destruct (L_C26_model_comp _ _ _ _ _ _ _ _ _ H Hg Kg Hf Kf) as (_ & _ & _ & _ & _ & H0 & H1).
  destruct (L_C30_interior_cells _ _ _ _ _ _ H) as (Hi & Hgr & _).
  assert (Fl : b_mu m = mu /\ b_B m = B /\ length (b_RHS m) = get_n (gr (geom g)) true).
  { unfold bo_new in H.
    destruct (set_units uobj0 unit) as [u' [[]|e]] eqn:Eu; [|discriminate].
    destruct (factor u' "transmissibility conversion") as [tc|] eqn:E1; [|discriminate]. cbn [rbind] in H.
    destruct (factor u' "volume conversion") as [vc|] eqn:E2; [|discriminate]. cbn [rbind] in H.
    destruct (get_cells_id (ggrid g) false) as [ids|] eqn:E3; [|discriminate]. cbn [rbind] in H.
    match type of H with rbind ?t _ = _ => destruct t as [ip|] eqn:E4; [|discriminate] end. cbn [rbind] in H.
    destruct (calc_comp g f) as [[cc b]|] eqn:E5; [|discriminate]. cbn [rbind fst snd] in H.
    rewrite Emu, EB in H. cbn [attrE rbind] in H.
    destruct (attrE (f_g f)) as [gr0|] eqn:E8; [|discriminate]. cbn [rbind] in H.
    destruct (calc_RHS g b cc vc B dt) as [RHS|] eqn:E9; [|discriminate]. cbn [rbind] in H.
    inversion H; subst m. cbn [b_mu b_B b_RHS]. split; auto. split; auto.
    unfold calc_RHS in E9. destruct b.
    - rewrite Eph in E9. cbn [attrE rbind] in E9. inversion E9. unfold map2. rewrite map_length, combine_length, Lph.
      rewrite (cV_canon _ _ _ _ _ _ _ _ (geo_new_built _ _ _ _ _ _ _ _ (rk_geo _ _ _ _ _ _ _ _ Rk))), per_cell_length by (rewrite <- Hgr in *; apply (rk_wf _ _ _ _ _ _ _ _ Rk)). apply Nat.min_id.
    - inversion E9. now rewrite repeat_length. }
  destruct Fl as (E1 & E2 & E3). constructor.
  - now rewrite Hgr.
  - now rewrite Hgr.
  - now rewrite Hgr.
  - now rewrite E1.
  - now rewrite E2.
  - now rewrite Hgr.
  - destruct (b_cmp m) eqn:Eb.
    + destruct (H1 eq_refl) as (phi' & B' & Q1 & Q2 & Q3). rewrite Eph in Q1. rewrite EB in Q2. inversion Q1; inversion Q2; subst phi' B'.
      apply Forall_forall. intros c Ic. apply In_nth_error in Ic as (i & Ei).
      assert (Li : i < get_n (gr (geom g)) true) by (rewrite <- E3; eapply nth_error_Some; congruence).
      pose proof (geo_new_built _ _ _ _ _ _ _ _ (rk_geo _ _ _ _ _ _ _ _ Rk)) as Bu.
      assert (EV := cV_canon _ _ _ _ _ _ _ _ Bu).
      assert (LV : length (cV (geom g)) = get_n (gr (geom g)) true) by (rewrite EV; apply per_cell_length; apply (rk_wf _ _ _ _ _ _ _ _ Rk)).
      destruct (nth_error (cV (geom g)) i) as [V|] eqn:EVi; [|apply nth_error_None in EVi; lia].
      destruct (nth_error phi i) as [p|] eqn:Epi; [|apply nth_error_None in Epi; lia].
      destruct (Q3 i V p EVi Epi) as (c' & Ec & _ & Pc). rewrite Ei in Ec. inversion Ec; subst c'. apply Pc; auto.
      * assert (PV : Forall (fun v => 0 < v)%R (cV (geom g))).
        { rewrite EV. pose proof (b_gr _ _ _ _ _ _ _ _ Bu) as Eg. destruct Bu as [_ W Ox Oy Oz _ _ _ _ _ _ _ _ _].
          apply Forall_forall. intros v Iv. unfold per_cell in Iv. apply (In_nth _ _ v) in Iv as (n & Ln & <-). rewrite tab_length in Ln.
          apply unravel in Ln as (r & Ir & <-). rewrite nth_tab by auto. apply inb3 in Ir as (k0 & j0 & i0 & -> & ? & ? & ?). cbn [nth].
          rewrite Eg in *. cbn [nx ny nz] in *.
          destruct Rk. repeat apply Rmult_lt_0_compat; eapply sp_pos; eauto; lia. }
        rewrite Forall_forall in PV. apply PV. eapply nth_error_In; eauto.
      * rewrite Forall_forall in Pph. apply Pph. eapply nth_error_In; eauto.
    + rewrite H0 by auto. apply Forall_forall. intros v Iv. now apply repeat_spec in Iv.
  - exists zs. split; [unfold gz; now rewrite Hgr, Ez|now rewrite Hgr].
Qed.

(** The hypotheses: three cells, fluid compressibility 1, incompressible rock. *)
Example ex_C82_case :
  exists (g : gobj R) f m, bo_new g f "metric" (Some 7%R) 1%R = Ok m /\
  rock g 3 1 1 true (Scalar 1%R) (Scalar 1%R) (Scalar 1%R) /\ has_flow (gr (geom g)) /\
  p_comp (prs g) = Some 0%R /\ comp_kind 0 (p_comp_type (prs g)) /\
  f_c f = mkCobj (Some 1%R) (Some (Some "compressible"%string)) /\ comp_kind 1 (Some "compressible"%string) /\
  f_mu f = Some 1%R /\ f_B f = Some 1%R /\
  att (pget PHI (prs g)) = Some (repeat 1%R 5) /\ get_n (gr (geom g)) true = 5 /\ att (pget ZED (prs g)) = Some (repeat 0%R 5).
Proof.
  pose proof (line3_pos 1 (Some 7%R) Rlt_0_1) as E. unfold build in E.
  destruct (gobj_new 3 1 1 true (Scalar n1) (Scalar n1) (Scalar n1) (Some (Scalar n1)) (Some (Scalar n1)) (Some (Scalar n1)) (Some (Scalar n1)) None None n1) as [g|] eqn:Eg; [|discriminate].
  cbn [rbind] in E. destruct (fluid_new (Some n1) (Some n1) None (Some 1%R) "metric") as [f|] eqn:Ef; [|discriminate]. cbn [rbind] in E.
  pose proof (proj1 (proj2 (L_C30_interior_cells _ _ _ _ _ _ E))) as Hg. cbn [line3 b_grid] in Hg. subst g.
  exists gline3, f, (line3 (1 + 0) true (Some 7%R)). split; [exact E|]. split; [exact gline3_rock|]. split; [left; unfold flows; cbn; lia|].
  unfold fluid_new in Ef. cbn -[IZR] in Ef. unfold fset_props, fset_comp, cset in Ef. cbn -[IZR] in Ef.
  rewrite (Reqb_ne 1 0), (proj2 (Rltb_true 0 1)) in Ef by lra. cbn -[IZR] in Ef. inversion Ef; subst f.
  split; [reflexivity|]. split; [cbn; repeat split; intros; try congruence; lra|]. split; [reflexivity|].
  split; [cbn; repeat split; intros; try congruence; lra|]. repeat split.
Qed.

(** ** C38 *)
Lemma vect_closed (m : bo R) s : b_wells m = [] -> b_bdict m = [] -> b_bup m = [] -> s_tstep s = 0 ->
  snd (get_matrices_vect (m, s)) = (let* A := init_A m in let* d := init_d (m, s) in Ok (A, d)).
Proof.
  intros Hw Hd Hb Ht. unfold get_matrices_vect, init_vect. destruct s; cbn in Ht; subst.
  unfold mbind, mread, mwhen, mset; cbn -[init_A init_d]. destruct (init_A m) as [A|]; cbn -[init_A init_d]; [|reflexivity].
  rewrite Hb. cbn -[init_A init_d]. unfold mret.
  match goal with |- context[init_d ?X] => replace (init_d X) with (init_d (m, mkFs s_p s_r s_nsteps 0 s_As s_ds s_A s_res s_bv s_sym s_err s_cum)) by reflexivity end.
  destruct (init_d _) as [d|]; cbn; [|reflexivity]. rewrite Hw. cbn. rewrite Hd. reflexivity.
Qed.
(** C38: without wells and boundaries the vectorised matrix of the first step is
    symmetric, non-negative off the diagonal, couples axis-adjacent cells, and
    its rows sum to minus the accumulation coefficients. *)
Lemma L_C38_diffusion_matrix :
  forall (m : bo R) x y z u dx dy dz (s : fs R) row, model m x y z u dx dy dz ->
  b_wells m = [] -> b_bdict m = [] -> b_bup m = [] ->
  s_tstep s = 0 -> nth_error (s_p s) 0 = Some row -> length row = get_n (gr (geom (b_grid m))) true ->
  exists X A d, get_matrices_vect (m, s) = (X, Ok (A, d)) /\ msize A = length (b_ids m) /\
    forall p, p < msize A ->
      rsum (ment A p) 0 (msize A) = (- acc m p)%R /\
      (if b_cmp m then 0 < acc m p else acc m p = 0)%R /\
      forall q, q < msize A -> p <> q ->
        ment A p q = ment A q p /\ ment A p q = coupling m p q /\ (0 <= ment A p q)%R.
Proof.
  intros m x y z u dx dy dz s row K Hw Hd Hb Ht Hr Hl.
  pose proof (vect_closed m s Hw Hd Hb Ht) as E. destruct (form_init K) as (A & EA & Fm). rewrite EA in E. cbn [rbind] in E.
  assert (Ed : exists d, init_d (m, s) = Ok d).
  { unfold init_d. rewrite Ht, Hr. destruct (b_cmp m); [|eauto].
    rewrite (at_ids_ok K (b_RHS m) 0%R (md_RHS _ _ _ _ _ _ _ _ K)). cbn [rbind]. rewrite (at_ids_ok K row None Hl). cbn. eauto. }
  destruct Ed as (d & Ed). rewrite Ed in E. cbn [rbind] in E. destruct (get_matrices_vect (m, s)) as [X r]. cbn [snd] in E. subst r.
  exists X, A, d. split; auto. destruct Fm as (S & Fm). rewrite S. split; auto. intros p Hp. split; [|split; [apply (acc_sign K); auto|]].
  - rewrite (rsum_ext _ (fun q => if p =? q then (- rsum (coupling m p) 0 (length (b_ids m)) - acc m p)%R else coupling m p q)).
    2:{ intros q Hq. rewrite Fm by lia. destruct (p =? q); lra. }
    rewrite rsum_pick by lia. destruct (cp_sym K p p Hp Hp) as (_ & -> & _). lra.
  - intros q Hq Ne. rewrite !Fm by auto. destruct (Nat.eqb_spec p q); [congruence|]. destruct (Nat.eqb_spec q p); [congruence|].
    destruct (cp_sym K p q Hp Hq) as (Es & _ & Hn). auto.
Qed.
Example ex_C38_case :
  exists m : bo R, build 3 1 1 None 1%R (Some 7%R) None = Ok m /\
  (exists x y z u dx dy dz, model m x y z u dx dy dz) /\ b_cmp m = true /\ length (b_ids m) = 3 /\
  b_wells m = [] /\ b_bdict m = [] /\ b_bup m = [] /\ s_tstep (fdm_new m) = 0 /\
  exists row, nth_error (s_p (fdm_new m)) 0 = Some row /\ length row = get_n (gr (geom (b_grid m))) true.
Proof.
  exists (line3 (1 + 0) true (Some 7%R)). split; [apply line3_pos; lra|]. split; [|cbn; repeat split; eauto].
  do 7 eexists. apply line3_model. intros; lra.
Qed.

(** ** C39 *)
Lemma new_empty (g : gobj R) f unit pi dt m : bo_new g f unit pi dt = Ok m -> b_bup m = [] /\ b_wells m = [] /\ b_bdict m = [] /\ b_terms m = [].
Proof.
  intros H. unfold bo_new in H.
  destruct (set_units uobj0 unit) as [u' [[]|e]] eqn:Eu; [|discriminate].
  repeat match type of H with rbind ?t _ = _ => destruct t; cbn [rbind] in H; [|discriminate] end.
  inversion H; subst m. repeat split.
Qed.
Lemma after_app {F} {NF : Num F} {NT : NumT F} (l l' : list (call F)) : forall X, after X (l ++ l') = after (after X l) l'.
Proof. intros X. unfold after. apply fold_left_app. Qed.
Lemma always_app (P : ws R -> Prop) l l' : forall X, always P X (l ++ l') -> always P X l /\ always P (after X l) l'.
Proof.
  induction l as [|c l IH]; intros X H; cbn [app always after fold_left] in *.
  - split; [split; auto|exact H]. destruct l'; apply H.
  - destruct H as (H1 & H2). apply IH in H2. tauto.
Qed.
(** C39: the vectorised system of a compressible model has at most one solution,
    in every state reached by any calls of set_well, set_boundary(ies), compile,
    solve and run, successful or not, whatever the linear solver answers. *)
Lemma L_C39_compressible_regular :
  forall (g : gobj R) f unit pi dt m0 x y z u dx dy dz l m s X A d,
  bo_new g f unit pi dt = Ok m0 -> model m0 x y z u dx dy dz -> b_cmp m0 = true ->
  always (fun X => productive (fst X)) (m0, None) l -> after (m0, None) l = (m, Some s) ->
  get_matrices_vect (m, s) = (X, Ok (A, d)) -> regular A.
Proof.
  intros g f unit pi dt m0 x y z u dx dy dz l m s X A d Hn K Hc Ha He Hv.
  assert (L0 : LW (m0 := m0) false (m0, None)).
  { split; [reflexivity|]. split; [cbn [fst]; rewrite (proj1 (new_empty _ _ _ _ _ _ Hn)); constructor|exact I]. }
  assert (L1 := lw_after K false l _ L0 Ha ltac:(discriminate)). pose proof (always_last _ l _ Ha) as Pr. rewrite He in *. cbn [fst] in Pr.
  destruct L1 as (H1 & H2 & H5 & H4).
  assert (L : LI (m0 := m0) false false (m, s)) by (repeat (split; [assumption|]); assumption).
  pose proof (li_vect K false (m, s) L) as Q. rewrite Hv in Q. destruct Q as ((_ & _ & _ & _ & Q) & EA). destruct (Q _ EA) as (e & Fm & He' & _).
  apply (form_regular K A e Fm). intros p Hp. pose proof (acc_sign K p Hp) as Pa. rewrite Hc in Pa. specialize (He' p Hp). cbn in Pa. lra.
Qed.
(** C39: so are all systems stored by a history of vectorised steps. *)
Lemma L_C39_stored_regular :
  forall (g : gobj R) f unit pi dt m0 x y z u dx dy dz l m s,
  bo_new g f unit pi dt = Ok m0 -> model m0 x y z u dx dy dz -> b_cmp m0 = true ->
  always (fun X => productive (fst X)) (m0, None) l -> Forall vectorised l -> after (m0, None) l = (m, Some s) ->
  Forall regular (s_As s).
Proof.
  intros g f unit pi dt m0 x y z u dx dy dz l m s Hn K Hc Ha Hv He.
  assert (L0 : LW (m0 := m0) true (m0, None)).
  { split; [reflexivity|]. split; [cbn [fst]; rewrite (proj1 (new_empty _ _ _ _ _ _ Hn)); constructor|exact I]. }
  assert (L1 := lw_after K true l _ L0 Ha (fun _ => Hv)). rewrite He in *. destruct L1 as (H1 & H2 & H5 & H4).
  eapply Forall_impl; [|exact (H5 eq_refl)]. intros A (e & Fm & He' & _).
  apply (form_regular K A e Fm). intros p Hp. pose proof (acc_sign K p Hp) as Pa. rewrite Hc in Pa. specialize (He' p Hp). cbn in Pa. lra.
Qed.
(** ** C41 *)
(** C41: with a pressure boundary, or a well controlled by a bottom-hole pressure
    other than zero, the vectorised system of the first step has at most one
    solution, compressible or not. *)
Lemma L_C41_first_step_regular :
  forall (g : gobj R) f unit pi dt m0 x y z u dx dy dz l m s X A d,
  bo_new g f unit pi dt = Ok m0 -> model m0 x y z u dx dy dz ->
  always (fun X => productive (fst X)) (m0, None) l -> after (m0, None) l = (m, Some s) -> s_tstep s = 0 ->
  b_bup m <> [] \/
  (exists id w p, dget id (b_wells m) = Some w /\ w_con w = Some (Some "pwf"%string) /\ w_pwf w = Some (Some p) /\ p <> 0%R) ->
  get_matrices_vect (m, s) = (X, Ok (A, d)) -> regular A.
Proof.
  intros g f unit pi dt m0 x y z u dx dy dz l m s X A d Hn K Ha He Ht Hor Hv.
  assert (L0 : LW (m0 := m0) false (m0, None)).
  { split; [reflexivity|]. split; [cbn [fst]; rewrite (proj1 (new_empty _ _ _ _ _ _ Hn)); constructor|exact I]. }
  assert (L1 := lw_after K false l _ L0 Ha ltac:(discriminate)). pose proof (always_last _ l _ Ha) as Pr. rewrite He in *. cbn [fst] in Pr.
  destruct L1 as (H1 & H2 & H5 & H4).
  assert (L : LI (m0 := m0) false false (m, s)) by (repeat (split; [assumption|]); assumption).
  assert (Q : LI (m0 := m0) false true X /\ s_A (snd X) = Some A).
  { destruct Hor as [Hb|(id & w & p & E1 & E2 & E3 & E4)].
    - pose proof (tied_vect K (m, s) (conj L (conj Hb (or_introl Ht)))) as Q. rewrite Hv in Q. exact Q.
    - assert (W : WP id p (m, s)) by (exists w; auto).
      pose proof (well_vect K id p E4 (m, s) (conj L (conj W Ht))) as Q. rewrite Hv in Q. exact Q. }
  destruct Q as ((_ & _ & _ & _ & Q) & EA). destruct (Q _ EA) as (e & Fm & He' & Ti). destruct (Ti eq_refl) as (p0 & Hp0 & Ep0).
  exact (form_tied K A e p0 Fm He' Hp0 Ep0).
Qed.
(** C41: with a pressure boundary set before compiling, the systems of all
    vectorised steps have at most one solution. *)
Lemma L_C41_all_steps_regular :
  forall (g : gobj R) f unit pi dt m0 x y z u dx dy dz l l' m s,
  bo_new g f unit pi dt = Ok m0 -> model m0 x y z u dx dy dz ->
  always (fun X => productive (fst X)) (m0, None) (l ++ Compile :: l') ->
  b_bup (fst (after (m0, None) l)) <> [] ->
  Forall vectorised l' -> Forall stepping l' ->
  after (m0, None) (l ++ Compile :: l') = (m, Some s) -> Forall regular (s_As s).
Proof.
  intros g f unit pi dt m0 x y z u dx dy dz l l' m s Hn K Ha Hb Hv Hs He.
  assert (L0 : LW (m0 := m0) false (m0, None)).
  { split; [reflexivity|]. split; [cbn [fst]; rewrite (proj1 (new_empty _ _ _ _ _ _ Hn)); constructor|exact I]. }
  apply always_app in Ha as (Ha1 & Ha2).
  assert (L1 := lw_after K false l _ L0 Ha1 ltac:(discriminate)).
  change (l ++ Compile :: l')%list with (l ++ ([Compile] ++ l'))%list in He. rewrite !after_app in He.
  destruct (after (m0, None) l) as [m1 o1]. cbn [fst] in Hb. destruct Ha2 as (P1 & Ha2). cbn in Ha2, He. cbn [fst] in P1.
  assert (LT0 : LT (m0 := m0) (m1, fdm_new m1)).
  { destruct L1 as (H1 & H2 & _). split.
    - split; [exact H1|]. split; [exact H2|]. split; [exact P1|]. split; [constructor|discriminate].
    - split; [exact Hb|]. split; [constructor|]. now left. }
  assert (G : forall l' m1 s1, LT (m0 := m0) (m1, s1) -> Forall vectorised l' -> Forall stepping l' ->
     exists m2 s2, after (m1, Some s1) l' = (m2, Some s2) /\ LT (m0 := m0) (m2, s2)).
  { clear -K. induction l' as [|c l' IH]; intros m1 s1 H V S; [cbn; eauto|]. inversion V; inversion S; subst.
    cbn [after fold_left]. destruct c; try contradiction; cbn [exec]; unfold of_solution; cbn [fst snd].
    - pose proof (lt_solve K slv sc fuel sparse o (proj1 H2) (proj2 H2) _ H) as Q. destruct (solve _ _ _ _ _ _) as [[m2 s2] r].
      apply IH; auto.
    - cbn in H2. destruct H2 as (-> & ->). pose proof (lt_run K slv sc n fuel sparse thr mb iso _ H) as Q. destruct (run _ _ _ _ _ _ _ _ _ _ _) as [[m2 s2] r].
      apply IH; auto. }
  destruct (G l' m1 (fdm_new m1) LT0 Hv Hs) as (m2 & s2 & E & (_ & _ & F2 & _)). rewrite E in He. inversion He; subst.
  eapply Forall_impl; [|exact F2]. intros A (e & Fm & He' & Ti). destruct (Ti eq_refl) as (p0 & Hp0 & Ep0).
  exact (form_tied K A e p0 Fm He' Hp0 Ep0).
Qed.

(** ** Cases *)
(** A model with a pressure boundary and one with a pressure-controlled well. *)
Lemma no_wells_productive (m : bo R) : b_wells m = [] -> productive m.
Proof. intros E id w G. rewrite E. discriminate. Qed.
Lemma well_G_pos T r : (0 < T)%R -> (0 < r < 1)%R -> (0 < well_G T 1 1 (dec 14 2 * sqrt (1 * 1 + 1 * 1)) r None)%R.
Proof.
  intros HT Hr. unfold well_G, dec. cbn [nmul ndiv nln npi nofZ Num_R NumT_R n2 nadd n1 Nat.iter].
  assert (S : (1 < sqrt (1 * 1 + 1 * 1))%R) by (rewrite <- sqrt_1 at 1; apply sqrt_lt_1; lra).
  apply Rdiv_lt_0_compat.
  - pose proof PI_RGT_0. assert (0 < (1 + 1) * PI * T)%R by (apply Rmult_lt_0_compat; lra). nra.
  - rewrite <- ln_1. apply ln_increasing; [lra|].
    assert (1 < / r)%R by (rewrite <- Rinv_1; apply Rinv_lt_contravar; lra). cbn. unfold Rdiv.
    set (q := sqrt _) in *. clearbody q. cbn. 
    match goal with |- (1 < ?e)%R => replace e with ((168/100) * q * / r)%R by (field; lra) end.
    nra.
Qed.
Example ex_C39_case :
  exists (m0 : bo R) m s X A d, build 3 1 1 None 1%R (Some 7%R) None = Ok m0 /\
  (exists x y z u dx dy dz, model m0 x y z u dx dy dz) /\ b_cmp m0 = true /\
  let l := [Set_boundaries [(0%Z, ("pressure"%string, 5%R))]; Compile] in
  always (fun X => productive (fst X)) (m0, None) l /\ after (m0, None) l = (m, Some s) /\
  get_matrices_vect (m, s) = (X, Ok (A, d)) /\ b_bup m <> [] /\ s_tstep s = 0.
Proof.
  exists (line3 (1 + 0) true (Some 7%R)). do 5 eexists. split; [apply line3_pos; lra|].
  split; [do 7 eexists; apply line3_model; intros; lra|]. split; [reflexivity|].
  cbv zeta. split; [|split; [rrun; reflexivity|split; [mrun|split; [discriminate|reflexivity]]]].
  cbn [always]. repeat split; apply no_wells_productive; reflexivity.
Qed.
Definition line3w (G req : R) : bo R := set_wp [(1%Z, [Some 7%R])] (set_wells [(1%Z, mkWell None None (Some (Some 2%R)) (Some 2%R) (Some (Some "pwf"%string))
  (Some (1 / 2)%R) None (Some req) (Some G))] (line3 0 false (Some 7%R))).
Lemma line3w_vect G req : (0 < G)%R -> exists X A d, get_matrices_vect (line3w G req, fdm_new (line3w G req)) = (X, Ok (A, d)).
Proof. intros HG. do 3 eexists. mrun. Qed.
Lemma line3w_built : exists G req, (0 < G)%R /\
  after (line3 0 false (Some 7%R), None) [Set_well (Some 1%Z) None (Some 2%R) (Some (1 / 2)%R) None] = (line3w G req, None).
Proof.
  do 2 eexists. split; [|rrun; reflexivity]. pose proof (well_G_pos (864 / 10000) (1 / 2)) as H. revert H. rrun. intros H. apply H; lra.
Qed.
Example ex_C41_case :
  exists (m0 : bo R) m s, build 3 1 1 None 0%R (Some 7%R) None = Ok m0 /\
  (exists x y z u dx dy dz, model m0 x y z u dx dy dz) /\ b_cmp m0 = false /\
  let l := [Set_well (Some 1%Z) None (Some 2%R) (Some (1 / 2)%R) None; Compile] in
  always (fun X => productive (fst X)) (m0, None) l /\ after (m0, None) l = (m, Some s) /\ s_tstep s = 0 /\
  (exists w p, dget 1%Z (b_wells m) = Some w /\ w_con w = Some (Some "pwf"%string) /\ w_pwf w = Some (Some p) /\ p <> 0%R) /\
  exists X A d, get_matrices_vect (m, s) = (X, Ok (A, d)).
Proof.
  destruct line3w_built as (G & req & HG & E).
  exists (line3 0 false (Some 7%R)), (line3w G req), (fdm_new (line3w G req)).
  assert (P : productive (line3w G req)).
  { intros id w G'. cbn [line3w set_wp set_wells line3 b_wells dget]. destruct (Z.eqb id 1); [|discriminate].
    intros Ew. inversion Ew; subst. cbn. intros EG. inversion EG; subst. lra. }
  split; [apply line3_zero|].
  split; [do 7 eexists; apply line3_model; discriminate|]. split; [reflexivity|].
  cbv zeta. cbn [after fold_left] in E. split; [|split; [|split; [reflexivity|split; [do 2 eexists; repeat split; lra|now apply line3w_vect]]]].
  - cbn [always]. split; [now apply no_wells_productive|]. rewrite E. split; [exact P|]. split; [exact P|exact I].
  - cbn [after fold_left]. rewrite E. reflexivity.
Qed.
(** Two vectorised steps of an incompressible model with a pressure boundary; the
    answers of the linear solver do not matter. *)
Example ex_C41_steps :
  exists (m0 : bo R) slv sc, build 3 1 1 None 0%R (Some 7%R) None = Ok m0 /\
  let l := [Set_boundaries [(0%Z, ("pressure"%string, 5%R))]] in
  let l' := [Run slv sc 2 9 true false true false false (Some "cgs"%string)] in
  always (fun X => productive (fst X)) (m0, None) (l ++ Compile :: l') /\
  b_bup (fst (after (m0, None) l)) <> [] /\ Forall vectorised l' /\ Forall stepping l' /\
  exists m s, after (m0, None) (l ++ Compile :: l') = (m, Some s) /\ length (s_As s) = 2.
Proof.
  exists (line3 0 false (Some 7%R)), (fun _ _ _ => Ok [Some 5%R; Some 5%R; Some 5%R]), (fun _ => 1%R). split; [apply line3_zero|].
  set (slv := fun (_ : solver_kind) (_ : mat) (_ : list (fl R)) => Ok [Some 5%R; Some 5%R; Some 5%R]). cbv zeta.
  assert (Q1 : exists m1, fst (exec (Set_boundaries [(0%Z, ("pressure"%string, 5%R))]) (line3 0 false (Some 7%R), None)) = (m1, None) /\ b_wells m1 = [] /\ b_bup m1 = [0%Z] /\
     exists m2 s2, run slv (fun _ => 1%R) 2 9 true false true false false (Some "cgs"%string) (m1, fdm_new m1) = ((m2, s2), Ok tt) /\ b_wells m2 = [] /\ length (s_As s2) = 2).
  { eexists. split; [rrun; reflexivity|]. split; [reflexivity|]. split; [reflexivity|]. do 2 eexists. split; [mrun|]. split; reflexivity. }
  destruct Q1 as (m1 & E1 & W1 & B1 & m2 & s2 & E2 & W2 & L2).
  assert (E3 : after (line3 0 false (Some 7%R), None) ([Set_boundaries [(0%Z, ("pressure"%string, 5%R))]] ++ Compile :: [Run slv (fun _ => 1%R) 2 9 true false true false false (Some "cgs"%string)])%list = (m2, Some s2)).
  { cbn [app after fold_left]. rewrite E1. cbn [exec mset fst snd]. unfold mset. cbn [fst snd]. unfold of_solution. cbn [fst snd]. rewrite E2. reflexivity. }
  split; [|split; [|split; [repeat constructor|split; [repeat constructor|eauto]]]].
  - cbn [app always]. split; [now apply no_wells_productive|]. rewrite E1. split; [now apply no_wells_productive|].
    cbn [exec]. unfold mset. cbn [fst snd]. split; [now apply no_wells_productive|]. unfold of_solution. cbn [fst snd]. rewrite E2. cbn [fst snd].
    split; [now apply no_wells_productive|exact I].
  - cbn [after fold_left]. rewrite E1. cbn [fst]. rewrite B1. discriminate.
Qed.
