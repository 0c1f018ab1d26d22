(** Property theorems (each one a lemma proved in [ChangeThm.v]), the assumptions they
    rest on, and for each a concrete case meeting its hypotheses. *)
From Coq Require Import String ZArith Bool Arith List Lia Reals Lra QArith.
From Verif Require Import Prelude PreludeFacts Num GridModel GridSpec GeoModel GeoSpec PropModel PropSpec
  UnitsModel BlackOilModel FdmModel MonadFacts HistSpec InvFacts AsmFacts ModelSpec ModelFacts VectFacts AssemblyThm Samples SampleFacts SampleWell SampleBal QSamples SolverSpec SolveSpec StepSpec StepFacts WellStepFacts
  BalanceSpec FdmSpec BalFacts CanonFacts StepBal SetupFacts BalanceThm LocalSpec LocalThm SampleLocal TotalSpec TotalHist ChangeSpec ChangeFacts.
Import ListNotations.
Close Scope Q_scope. Close Scope R_scope.
Open Scope nat_scope.
From Verif Require Import ChangeThm.
Close Scope Q_scope. Close Scope R_scope.
Open Scope nat_scope.

(** C96: the controls may be changed between the steps. The next step keeps them,
    appends one row each, its rates follow them, and it is in balance, as a whole
    and (level, not 3D) in each cell. *)
Theorem C96_changed_controls :
  forall (g : gobj R) f unit pi dt m0 x y z u dx dy dz l1 ob l2 hist slv sc fuel sparse o m1 s1 m2 s2,
  bo_new g f unit pi dt = Ok m0 -> model m0 x y z u dx dy dz -> plain m0 l1 ob l2 ->
  all_ok (m0, None) (setup l1 ob l2 ++ Compile :: hist ++ [Solve slv sc fuel sparse o]) ->
  along live (after (m0, None) (setup l1 ob l2 ++ [Compile])) (hist ++ [Solve slv sc fuel sparse o]) ->
  after (m0, None) (setup l1 ob l2 ++ Compile :: hist) = (m1, Some s1) ->
  after (m0, None) (setup l1 ob l2 ++ Compile :: hist ++ [Solve slv sc fuel sparse o]) = (m2, Some s2) ->
  same_controls m1 m2 /\ exists new rates, s_p s2 = (s_p s1 ++ [new])%list /\ s_r s2 = (s_r s1 ++ [rates])%list /\
  follows_controls m2 new rates /\ in_balance m0 (last (s_p s1) []) new rates /\
  (level m0 -> ~ three_d (gr (geom (b_grid m0))) -> forall id, In id (b_ids m0) -> cell_balance m0 (last (s_p s1) []) new rates id).
Proof. exact L_C96_changed_controls. Qed.
Print Assumptions C96_changed_controls.

(** C96: a new rate of a well holds from the next step on. *)
Theorem C96_new_rate :
  forall (g : gobj R) f unit pi dt m0 x y z u dx dy dz l1 ob l2 hist id q pwf r sk slv sc fuel sparse o m s,
  bo_new g f unit pi dt = Ok m0 -> model m0 x y z u dx dy dz -> plain m0 l1 ob l2 ->
  let hist' := (hist ++ [Set_well (Some id) (Some q) pwf r sk])%list in
  all_ok (m0, None) (setup l1 ob l2 ++ Compile :: hist' ++ [Solve slv sc fuel sparse o]) ->
  along live (after (m0, None) (setup l1 ob l2 ++ [Compile])) (hist' ++ [Solve slv sc fuel sparse o]) ->
  after (m0, None) (setup l1 ob l2 ++ Compile :: hist' ++ [Solve slv sc fuel sparse o]) = (m, Some s) ->
  value (last (s_r s) []) id = Some q.
Proof. exact L_C96_new_rate. Qed.
Print Assumptions C96_new_rate.

(** C60, what holds: rates and gradients given to set_boundaries between the
    steps (the pressures unchanged) hold in the next step of the vectorised path:
    they are recorded, and (level, not 3D) each cell's equation contains them. *)
Theorem C60_changed_rates_partial :
  forall (g : gobj R) f unit pi dt m0 x y z u dx dy dz l1 ob l2 hist bd slv sc fuel sparse o m1 s1 m s,
  bo_new g f unit pi dt = Ok m0 -> model m0 x y z u dx dy dz -> plain m0 l1 ob l2 -> level m0 -> ~ three_d (gr (geom (b_grid m0))) ->
  let hist' := (hist ++ [Set_boundaries bd])%list in
  all_ok (m0, None) (setup l1 ob l2 ++ Compile :: hist' ++ [Solve slv sc fuel sparse o]) ->
  along live (after (m0, None) (setup l1 ob l2 ++ [Compile])) (hist' ++ [Solve slv sc fuel sparse o]) ->
  after (m0, None) (setup l1 ob l2 ++ Compile :: hist') = (m1, Some s1) ->
  after (m0, None) (setup l1 ob l2 ++ Compile :: hist' ++ [Solve slv sc fuel sparse o]) = (m, Some s) ->
  exists new rates, s_p s = (s_p s1 ++ [new])%list /\ s_r s = (s_r s1 ++ [rates])%list /\
  (forall idb cond v, In (idb, (cond, v)) bd -> smem (lower cond) RATE = true -> value rates idb = Some v) /\
  (forall idb cond v, In (idb, (cond, v)) bd -> smem (lower cond) GRAD = true -> exists r, gradient_rate m idb v r /\ value rates idb = Some r) /\
  (forall idb v, In (idb, ("pressure"%string, v)) bd -> pressure_rate m new idb v (value rates idb)) /\
  forall id, In id (b_ids m0) -> cell_balance m0 (last (s_p s1) []) new rates id.
Proof. exact L_C60_changed_rates_partial. Qed.
Print Assumptions C60_changed_rates_partial.

(** C97 is false: after the first step the rate 3 is recorded for the right
    boundary. Setting the rate 7 for the next step replaces it in the row of the
    first step; pressures likewise. *)
Theorem C97_past_rewritten_refuted :
  exists m0 : bo Q, build 3 1 1 None 0%Q (Some 10%Q) None = Ok m0 /\
  forall NT : NumT Q,
  let x := after (m0, None) [Set_boundaries [(0%Z, ("pressure"%string, 20%Q)); (4%Z, ("rate"%string, 3%Q))]; Compile; Solve cramer3 oneQ 9 true vectorial] in
  let c := Set_boundaries [(0%Z, ("pressure"%string, 30%Q)); (4%Z, ("rate"%string, 7%Q))] in
  let s1 := sol m0 x in let s2 := sol m0 (fst (exec c x)) in
  snd (exec c x) = Ok tt /\ s_tstep s1 = 1 /\ s_tstep s2 = 1 /\
  at2 (s_r s1) 1 4 = Ok (Some 3%Q) /\ at2 (s_r s2) 1 4 = Ok (Some 7%Q) /\
  at2 (s_p s1) 1 0 = Ok (Some 20%Q) /\ at2 (s_p s2) 1 0 = Ok (Some 30%Q).
Proof. exact L_C97_past_rewritten_refuted. Qed.
Print Assumptions C97_past_rewritten_refuted.

(** C97, what holds: set_well, accepted or refused, changes nothing in the
    solution; set_boundaries, accepted or refused, changes in the rows of pressures
    and rates only the named cells of the current step, and nothing else in it. *)
Theorem C97_past_kept_partial :
  forall (m : bo R) s,
  (forall cell q pwf r sk, snd (fst (exec (Set_well cell q pwf r sk) (m, Some s))) = Some s) /\
  (forall bd, (forall e, In e bd -> (0 <= fst e)%Z) -> exists s', snd (fst (exec (Set_boundaries bd) (m, Some s))) = Some s' /\
    (s_tstep s' = s_tstep s /\ s_nsteps s' = s_nsteps s /\ s_As s' = s_As s /\ s_ds s' = s_ds s /\ s_err s' = s_err s /\ s_cum s' = s_cum s) /\
    length (s_p s') = length (s_p s) /\ length (s_r s') = length (s_r s) /\
    forall t id, (0 <= id)%Z -> t <> s_tstep s \/ ~ In id (map fst bd) ->
      value (nth t (s_p s') []) id = value (nth t (s_p s) []) id /\ value (nth t (s_r s') []) id = value (nth t (s_r s) []) id).
Proof. exact L_C97_past_kept_partial. Qed.
Print Assumptions C97_past_kept_partial.

Example C96_case : exists m0 l1 ob l2 hist id q slv sc fuel sparse o m1 s1 m2 s2, build 3 1 1 None 0%R (Some 10%R) None = Ok m0 /\ (exists g f unit p dt, bo_new g f unit p dt = Ok m0) /\
  (exists x y z u dx dy dz, model m0 x y z u dx dy dz) /\ plain m0 l1 ob l2 /\ level m0 /\ ~ three_d (gr (geom (b_grid m0))) /\
  let hist' := (hist ++ [Set_well (Some id) (Some q) None None None])%list in
  all_ok (m0, None) (setup l1 ob l2 ++ Compile :: hist' ++ [Solve slv sc fuel sparse o]) /\
  along live (after (m0, None) (setup l1 ob l2 ++ [Compile])) (hist' ++ [Solve slv sc fuel sparse o]) /\
  after (m0, None) (setup l1 ob l2 ++ Compile :: hist') = (m1, Some s1) /\
  after (m0, None) (setup l1 ob l2 ++ Compile :: hist' ++ [Solve slv sc fuel sparse o]) = (m2, Some s2) /\
  hist' = hist_w /\ ob = Some (sides 2).
Proof. exact ex_C96_case. Qed.

Example C60_case : exists m0 l1 ob l2 hist bd slv sc fuel sparse o m1 s1 m2 s2, build 3 1 1 None 0%R (Some 10%R) None = Ok m0 /\ (exists g f unit p dt, bo_new g f unit p dt = Ok m0) /\
  (exists x y z u dx dy dz, model m0 x y z u dx dy dz) /\ plain m0 l1 ob l2 /\ level m0 /\ ~ three_d (gr (geom (b_grid m0))) /\
  let hist' := (hist ++ [Set_boundaries bd])%list in
  all_ok (m0, None) (setup l1 ob l2 ++ Compile :: hist' ++ [Solve slv sc fuel sparse o]) /\
  along live (after (m0, None) (setup l1 ob l2 ++ [Compile])) (hist' ++ [Solve slv sc fuel sparse o]) /\
  after (m0, None) (setup l1 ob l2 ++ Compile :: hist') = (m1, Some s1) /\
  after (m0, None) (setup l1 ob l2 ++ Compile :: hist' ++ [Solve slv sc fuel sparse o]) = (m2, Some s2) /\
  hist' = hist_b /\ ob = Some (sides 2) /\ bd = sides 5.
Proof. exact ex_C60_case. Qed.

(** C97: three steps on, one row of a line of three cells changed. *)
Example C97_case : (forall e, In e (sides 5) -> (0 <= fst e)%Z) /\ exists t id, (0 <= id)%Z /\ (t <> 1 \/ ~ In id (map fst (sides 5))) /\ exists s : fs R, s_tstep s = 1 /\ length (s_p s) = 2 /\ t = 1.
Proof. exact ex_C97_case. Qed.
