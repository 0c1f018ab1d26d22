(** Missing and vanishing values: what holds of the properties C56, C57, C61, C90. *)
From Coq Require Import String ZArith Bool Arith List Lia Reals Lra QArith.
From Verif Require Import FrameModel AnalyticModel Prelude PreludeFacts Num GridModel GridSpec GeoModel GeoSpec PropModel PropSpec
  UnitsModel BlackOilModel FdmModel MonadFacts HistSpec InvFacts AsmFacts ModelSpec ModelFacts Samples SampleFacts AssemblyThm SampleWell SampleBal SolverSpec SolveSpec
  BalanceSpec LocalSpec LocalThm SampleLocal TotalSpec TotalHist TotalThm LimitSpec LimitFacts SampleLimit.
Import ListNotations.
Close Scope Q_scope. Close Scope R_scope.
Open Scope nat_scope.

(** C56, what holds: if no well is controlled by the pressure 0, the equation of
    the cell of a pressure-controlled well contains the rate the drawdown
    causes. *)
Lemma L_C56_pressure_well_partial :
  forall (g : gobj R) f unit pi dt m0 x y z u dx dy dz l1 ob l2 steps slv sc fuel sparse o m s id w,
  bo_new g f unit pi dt = Ok m0 -> model m0 x y z u dx dy dz -> plain m0 l1 ob l2 ->
  all_ok (m0, None) (setup l1 ob l2 ++ Compile :: steps ++ [Solve slv sc fuel sparse o]) ->
  along balanced_step (after (m0, None) (setup l1 ob l2 ++ [Compile])) (steps ++ [Solve slv sc fuel sparse o]) ->
  after (m0, None) (setup l1 ob l2 ++ Compile :: steps ++ [Solve slv sc fuel sparse o]) = (m, Some s) ->
  (o_vect o = true -> level m0 /\ ~ three_d (gr (geom (b_grid m0)))) ->
  In id (b_ids m0) -> dget id (b_wells m) = Some w -> w_con w = Some (Some "pwf"%string) ->
  exists old new rates G pwf p, nth_error (s_p s) (length steps) = Some old /\ nth_error (s_p s) (S (length steps)) = Some new /\ nth_error (s_r s) (S (length steps)) = Some rates /\
  w_G w = Some G /\ w_pwfsp w = Some pwf /\ value new id = Some p /\ value rates id = Some (- (G / (b_B m * b_mu m)) * (p - pwf))%R /\
  cell_balance m0 old new rates id.
Proof.
  intros g f unit pi dt m0 x y z u dx dy dz l1 ob l2 steps slv sc fuel sparse o m s id w Hn K P A L E Lv I Ew Ec.
  destruct (L_C92_cell_equation _ _ _ _ _ _ _ _ _ _ _ _ _ _ _ _ _ _ _ _ _ _ _ _ _ Hn K P A L E Lv) as (old & new & rates & R1 & R2 & R3 & B).
  destruct (L_C93_recorded_rates _ _ _ _ _ _ _ _ _ _ _ _ _ _ _ _ _ _ _ _ Hn K P A L E) as (new' & rates' & R4 & R5 & Wl & _).
  replace new' with new in * by congruence. replace rates' with rates in * by congruence.
  destruct (Wl id w Ew) as [(W1 & _)|(_ & G & pw & p0 & W1 & W2 & W3 & W4)]; [congruence|].
  exists old, new, rates, G, pw, p0. do 7 (split; [assumption|]). auto.
Qed.
(** Three cells at pressure 10, a well of pressure 12 in the middle, pressure 6 on
    the left, a rate on the right; two steps. *)
Example ex_C56_case : exists m0 l1 ob l2 steps slv sc fuel sparse o m s w, build 3 1 1 None 0%R (Some 10%R) None = Ok m0 /\ (exists g f unit p dt, bo_new g f unit p dt = Ok m0) /\
  (exists x y z u dx dy dz, model m0 x y z u dx dy dz) /\ plain m0 l1 ob l2 /\
  all_ok (m0, None) (setup l1 ob l2 ++ Compile :: steps ++ [Solve slv sc fuel sparse o]) /\
  along balanced_step (after (m0, None) (setup l1 ob l2 ++ [Compile])) (steps ++ [Solve slv sc fuel sparse o]) /\
  after (m0, None) (setup l1 ob l2 ++ Compile :: steps ++ [Solve slv sc fuel sparse o]) = (m, Some s) /\
  level m0 /\ ~ three_d (gr (geom (b_grid m0))) /\ In 2%Z (b_ids m0) /\ dget 2%Z (b_wells m) = Some w /\ w_con w = Some (Some "pwf"%string) /\ w_pwfsp w = Some 12%R /\ length steps = 1.
Proof.
  destruct run_p as (G & req & HG & m & s & E1 & m1 & E2 & W & (A & L & E) & w & W1 & W2 & W3).
  exists (line3 0 false (Some 10%R)), [feeder], (Some (sides_p G)), [], [Solve (trial [[22 / 3; 10; 38 / 3 - 2 * G]]%R) SampleWell.one 9 true omb],
    (trial [[22 / 3; 10; 38 / 3 - 2 * G]]%R), SampleWell.one, 9, true, omb, m, s, w.
  split; [apply line3_zero|]. split; [eapply build_new; apply line3_zero|]. split; [do 7 eexists; apply line3_model; discriminate|].
  split.
  { unfold plain, setup. cbn [app after fold_left]. rewrite E1. cbn [fst]. rewrite E2. unfold controlled. cbn [fst]. rewrite W.
    split; [unfold sides_p, sides; split; [repeat constructor; cbn; intuition discriminate|repeat constructor; apply side_faces; cbn; auto]|].
    split; [repeat constructor|]. split; [constructor|]. split; [left; apply line3_level|].
    intros id w' (Hw & Hc). cbn in Hw. destruct (Z.eqb id 2); [|discriminate]. injection Hw as <-. cbn. intros Q. injection Q as Q. lra. }
  unfold setup. cbn [app all_ok after fold_left]. rewrite E1. cbn [fst snd]. rewrite E2. cbn [fst snd].
  split; [split; [reflexivity|]; split; [reflexivity|]; split; [reflexivity|]; exact A|]. split; [exact L|]. split; [exact E|].
  split; [apply line3_level|]. split; [intros (_ & F & _); unfold flows in F; cbn in F; lia|]. split; [cbn; auto|]. auto 6.
Qed.

(** C57, what holds: pressures on distinct cells of single faces are accepted by
    the vectorised solve unless one of them is exactly the weight of the fluid
    between the boundary cell and the cell behind it. *)
Lemma L_C57_pressures_partial :
  forall (g : gobj R) f unit pi dt m0 x y z u dx dy dz bd slv sc fuel sparse o,
  bo_new g f unit pi dt = Ok m0 -> model m0 x y z u dx dy dz -> NoDup (map fst bd) ->
  (forall e, In e bd -> fst (snd e) = "pressure"%string /\ admissible m0 e) ->
  complete slv -> known sparse (o_iso o) -> o_vect o = true -> o_print o = false -> 0 < fuel ->
  all_ok (m0, None) [Set_boundaries bd; Compile; Solve slv sc fuel sparse o].
Proof.
  intros g f unit pi dt m0 x y z u dx dy dz bd slv sc fuel sparse o E K Nd Ab Cs Kn V Pr Hf.
  assert (S1 : snd (exec (Set_boundaries bd) (m0, None)) = Ok tt).
  { apply (L_C95_set_boundaries g f unit pi dt m0 x y z u dx dy dz [] bd E K I). intros e Ie. destruct (Ab e Ie) as (Ep & (c & C1 & C2 & C3) & _). split; [exists c; auto|]. right. left. rewrite Ep. reflexivity. }
  pose proof (re_boundaries bd (m0, None) S1) as Q.
  set (l := [Set_boundaries bd; Compile; Solve slv sc fuel sparse o]).
  assert (Hp : along proper (m0, None) l).
  { unfold l. cbn [along proper]. split; [|split; [exact I|split; [|exact I]]].
    - split; [exact S1|]. split; [reflexivity|]. split; [exact Nd|]. rewrite Forall_forall. intros e Ie. apply (Ab e Ie).
    - split; [cbn; discriminate|]. auto. }
  assert (W0 : b_wells m0 = []).
  { unfold bo_new in E. destruct (set_units uobj0 unit) as [un [t|]]; [|discriminate].
    repeat match type of E with rbind ?e _ = Ok _ => destruct e eqn:?; cbn [rbind] in E; [|discriminate] end. injection E as <-. reflexivity. }
  assert (We : b_wells (fst (fst (exec Compile (fst (exec (Set_boundaries bd) (m0, None)))))) = []).
  { cbn [exec]. unfold mset. cbn [fst]. unfold rest in Q. cbn [exec] in *. injection Q as Q1 _. rewrite Q1. destruct m0; exact W0. }
  assert (He : along enough (m0, None) l).
  { unfold l. cbn [along enough]. split; [exact I|]. split; [exact I|]. split; [|exact I]. rewrite We. split; [exact Hf|]. split; [|intros id w G D; discriminate].
    intros k A d ps _ id w qsp G lim i v D. rewrite We in D. discriminate. }
  pose proof (L_C94_succeeds g f unit pi dt m0 x y z u dx dy dz l E K Hp He) as H. unfold l in H. cbn [along succeeds] in H. destruct H as (_ & _ & H & _).
  cbn [all_ok]. split; [exact S1|]. split; [reflexivity|]. split; [|exact I]. apply H. exact I.
Qed.
Example ex_C57_case : exists m0 : bo R, build 3 1 1 None 1%R (Some 10%R) None = Ok m0 /\ (exists g f unit p dt, bo_new g f unit p dt = Ok m0) /\
  (exists x y z u dx dy dz, model m0 x y z u dx dy dz) /\
  let bd := [(0%Z, ("pressure"%string, (-3)%R)); (4%Z, ("pressure"%string, 1%R))] in
  NoDup (map fst bd) /\ (forall e, In e bd -> fst (snd e) = "pressure"%string /\ admissible m0 e) /\ complete fives /\ known true None.
Proof.
  exists (line3 (1 + 0) true (Some 10%R)).
  assert (El : build 3 1 1 None 1%R (Some 10%R) None = Ok (line3 (1 + 0) true (Some 10%R))) by (apply line3_pos; lra).
  split; [exact El|]. split; [eapply build_new; exact El|]. split; [do 7 eexists; apply line3_model; intros; lra|]. cbv zeta.
  split; [cbn; repeat constructor; cbn; intuition discriminate|]. split; [|split; [exact fives_complete|right; exact I]].
  intros e [<-|[<-|[]]]; (split; [reflexivity|]); (split; [apply side_faces; auto|]); intros _ nb id d En Ii Ed; cbn [fst snd] in *.
  - assert (En' : get_cell_neighbors (gr (geom (b_grid (line3 (1 + 0) true (Some 10%R))))) 0 false = Ok (mkDirs [1%Z] [] [])) by (vm_compute; reflexivity). rewrite En' in En. injection En as <-.
    destruct Ii as [<-|[]]. unfold FdmModel.dz, gz in Ed. cbn in Ed. injection Ed as <-. lra.
  - assert (En' : get_cell_neighbors (gr (geom (b_grid (line3 (1 + 0) true (Some 10%R))))) 4 false = Ok (mkDirs [3%Z] [] [])) by (vm_compute; reflexivity). rewrite En' in En. injection En as <-.
    destruct Ii as [<-|[]]. unfold FdmModel.dz, gz in Ed. cbn in Ed. injection Ed as <-. lra.
Qed.

(** C61, what holds: in a compressible model without pi no call ever makes up a
    pressure of a cell (the solver passing NaN on), and no symbolic solve or run
    returns. *)
Lemma L_C61_missing_pi_partial :
  forall (g : gobj R) f unit dt m0 x y z u dx dy dz l,
  bo_new g f unit None dt = Ok m0 -> model m0 x y z u dx dy dz -> b_cmp m0 = true -> Forall (careful m0) l ->
  unknown (after (m0, None) l) /\
  forall c, careful m0 c -> symbolically c -> snd (exec c (after (m0, None) l)) <> Ok tt.
Proof.
  intros g f unit dt m0 x y z u dx dy dz l E K Cm Hl.
  pose proof (nan_after K Cm l Hl (m0, None) (nan_new g f unit dt E)) as H. split; [now apply (nan_unknown K)|].
  intros c Hc Sc. now apply (nan_exec K Cm c Hc).
Qed.
Lemma build_nopi x y z rho comp zz (m : bo R) : build x y z rho comp None zz = Ok m -> exists g f unit dt, bo_new g f unit None dt = Ok m.
Proof.
  unfold build. intros H. repeat match type of H with rbind ?t _ = _ => destruct t; cbn [rbind] in H; [|discriminate] end. eauto 8.
Qed.
Example ex_C61_case : exists m0 : bo R, build 3 1 1 None 1%R None None = Ok m0 /\ (exists g f unit dt, bo_new g f unit None dt = Ok m0) /\
  (exists x y z u dx dy dz, model m0 x y z u dx dy dz) /\ b_cmp m0 = true /\
  let l := [Set_boundaries (sides 1); Set_boundary 4%Z "pressure" 7%R; Compile; Solve echo SampleWell.one 9 true omb] in
  Forall (careful m0) l /\ exists s, snd (after (m0, None) l) = Some s /\ length (s_p s) = 2 /\ value (last (s_p s) []) 0 = Some 6%R.
Proof.
  exists (line3 (1 + 0) true None).
  assert (El : build 3 1 1 None 1%R None None = Ok (line3 (1 + 0) true None)) by (apply line3_pos; lra).
  split; [exact El|]. split; [eapply build_nopi; exact El|]. split; [do 7 eexists; apply line3_model; intros; lra|]. split; [reflexivity|]. cbv zeta. split.
  - repeat constructor; cbn [careful]; auto; [|intros k A d p H E; injection E as <-; exact H]. destruct (side_faces (1 + 0) true None 4 (or_intror eq_refl)) as (c & C1 & _ & C2). eauto.
  - assert (Q : exists m s, (all_ok (line3 (1 + 0) true None, None) [Set_boundaries (sides 1); Set_boundary 4%Z "pressure" 7%R; Compile; Solve echo SampleWell.one 9 true omb] /\
      after (line3 (1 + 0) true None, None) [Set_boundaries (sides 1); Set_boundary 4%Z "pressure" 7%R; Compile; Solve echo SampleWell.one 9 true omb] = (m, Some s)) /\ length (s_p s) = 2 /\ value (last (s_p s) []) 0 = Some 6%R).
    { do 2 eexists. split; [unfold sides; hrun|split; reflexivity]. }
    destruct Q as (m & s & (_ & E) & Q1 & Q2). exists s. rewrite E. auto.
Qed.

(** C90, what holds: whatever a run raises, the pressures and rates stay. *)
Lemma L_C90_failed_run_partial :
  forall N pi (m : bo R) nsteps s s' e, d1p1_run N pi m nsteps s = (s', Err e) -> so_p s' = so_p s /\ so_r s' = so_r s.
Proof.
  intros N pi m nsteps s s' e H. unfold d1p1_run in H. destruct (d1p1_pressures _ _ _ _); [discriminate|]. injection H as <- _. auto.
Qed.
