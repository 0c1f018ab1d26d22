(** Property theorems (each one a lemma proved in [LimitThm.v]), the assumptions they
    rest on, and for each a concrete case meeting its hypotheses. *)
From Coq Require Import String ZArith Bool Arith List Lia Reals Lra QArith.
From Verif Require Import FrameModel AnalyticModel Prelude PreludeFacts Num GridModel GridSpec GeoModel GeoSpec PropModel PropSpec
  UnitsModel BlackOilModel FdmModel MonadFacts HistSpec InvFacts AsmFacts ModelSpec ModelFacts Samples SampleFacts AssemblyThm SampleWell SampleBal SolverSpec SolveSpec
  BalanceSpec LocalSpec LocalThm SampleLocal TotalSpec TotalHist TotalThm LimitSpec LimitFacts SampleLimit.
Import ListNotations.
Close Scope Q_scope. Close Scope R_scope.
Open Scope nat_scope.
From Verif Require Import LimitThm.
Close Scope Q_scope. Close Scope R_scope.
Open Scope nat_scope.

(** C56, what holds: if no well is controlled by the pressure 0, the equation of
    the cell of a pressure-controlled well contains the rate the drawdown
    causes. *)
Theorem C56_pressure_well_partial :
  forall (g : gobj R) f unit pi dt m0 x y z u dx dy dz l1 ob l2 steps slv sc fuel sparse o m s id w,
  bo_new g f unit pi dt = Ok m0 -> model m0 x y z u dx dy dz -> plain m0 l1 ob l2 ->
  all_ok (m0, None) (setup l1 ob l2 ++ Compile :: steps ++ [Solve slv sc fuel sparse o]) ->
  along balanced_step (after (m0, None) (setup l1 ob l2 ++ [Compile])) (steps ++ [Solve slv sc fuel sparse o]) ->
  after (m0, None) (setup l1 ob l2 ++ Compile :: steps ++ [Solve slv sc fuel sparse o]) = (m, Some s) ->
  (o_vect o = true -> level m0 /\ ~ three_d (gr (geom (b_grid m0)))) ->
  In id (b_ids m0) -> dget id (b_wells m) = Some w -> w_con w = Some (Some "pwf"%string) ->
  exists old new rates G pwf p, nth_error (s_p s) (length steps) = Some old /\ nth_error (s_p s) (S (length steps)) = Some new /\ nth_error (s_r s) (S (length steps)) = Some rates /\
  w_G w = Some G /\ w_pwfsp w = Some pwf /\ value new id = Some p /\ value rates id = Some (- (G / (b_B m * b_mu m)) * (p - pwf))%R /\
  cell_balance m0 old new rates id.
Proof. exact L_C56_pressure_well_partial. Qed.
Print Assumptions C56_pressure_well_partial.

(** Three cells at pressure 10, a well of pressure 12 in the middle, pressure 6 on
    the left, a rate on the right; two steps. *)
Example C56_case : exists m0 l1 ob l2 steps slv sc fuel sparse o m s w, build 3 1 1 None 0%R (Some 10%R) None = Ok m0 /\ (exists g f unit p dt, bo_new g f unit p dt = Ok m0) /\
  (exists x y z u dx dy dz, model m0 x y z u dx dy dz) /\ plain m0 l1 ob l2 /\
  all_ok (m0, None) (setup l1 ob l2 ++ Compile :: steps ++ [Solve slv sc fuel sparse o]) /\
  along balanced_step (after (m0, None) (setup l1 ob l2 ++ [Compile])) (steps ++ [Solve slv sc fuel sparse o]) /\
  after (m0, None) (setup l1 ob l2 ++ Compile :: steps ++ [Solve slv sc fuel sparse o]) = (m, Some s) /\
  level m0 /\ ~ three_d (gr (geom (b_grid m0))) /\ In 2%Z (b_ids m0) /\ dget 2%Z (b_wells m) = Some w /\ w_con w = Some (Some "pwf"%string) /\ w_pwfsp w = Some 12%R /\ length steps = 1.
Proof. exact ex_C56_case. Qed.

(** C57, what holds: pressures on distinct cells of single faces are accepted by
    the vectorised solve unless one of them is exactly the weight of the fluid
    between the boundary cell and the cell behind it. *)
Theorem C57_pressures_partial :
  forall (g : gobj R) f unit pi dt m0 x y z u dx dy dz bd slv sc fuel sparse o,
  bo_new g f unit pi dt = Ok m0 -> model m0 x y z u dx dy dz -> NoDup (map fst bd) ->
  (forall e, In e bd -> fst (snd e) = "pressure"%string /\ admissible m0 e) ->
  complete slv -> known sparse (o_iso o) -> o_vect o = true -> o_print o = false -> 0 < fuel ->
  all_ok (m0, None) [Set_boundaries bd; Compile; Solve slv sc fuel sparse o].
Proof. exact L_C57_pressures_partial. Qed.
Print Assumptions C57_pressures_partial.

Example C57_case : exists m0 : bo R, build 3 1 1 None 1%R (Some 10%R) None = Ok m0 /\ (exists g f unit p dt, bo_new g f unit p dt = Ok m0) /\
  (exists x y z u dx dy dz, model m0 x y z u dx dy dz) /\
  let bd := [(0%Z, ("pressure"%string, (-3)%R)); (4%Z, ("pressure"%string, 1%R))] in
  NoDup (map fst bd) /\ (forall e, In e bd -> fst (snd e) = "pressure"%string /\ admissible m0 e) /\ complete fives /\ known true None.
Proof. exact ex_C57_case. Qed.

(** C61, what holds: in a compressible model without pi no call ever makes up a
    pressure of a cell (the solver passing NaN on), and no symbolic solve or run
    returns. *)
Theorem C61_missing_pi_partial :
  forall (g : gobj R) f unit dt m0 x y z u dx dy dz l,
  bo_new g f unit None dt = Ok m0 -> model m0 x y z u dx dy dz -> b_cmp m0 = true -> Forall (careful m0) l ->
  unknown (after (m0, None) l) /\
  forall c, careful m0 c -> symbolically c -> snd (exec c (after (m0, None) l)) <> Ok tt.
Proof. exact L_C61_missing_pi_partial. Qed.
Print Assumptions C61_missing_pi_partial.

Example C61_case : exists m0 : bo R, build 3 1 1 None 1%R None None = Ok m0 /\ (exists g f unit dt, bo_new g f unit None dt = Ok m0) /\
  (exists x y z u dx dy dz, model m0 x y z u dx dy dz) /\ b_cmp m0 = true /\
  let l := [Set_boundaries (sides 1); Set_boundary 4%Z "pressure" 7%R; Compile; Solve echo SampleWell.one 9 true omb] in
  Forall (careful m0) l /\ exists s, snd (after (m0, None) l) = Some s /\ length (s_p s) = 2 /\ value (last (s_p s) []) 0 = Some 6%R.
Proof. exact ex_C61_case. Qed.

(** C90, what holds: whatever a run raises, the pressures and rates stay. *)
Theorem C90_failed_run_partial :
  forall N pi (m : bo R) nsteps s s' e, d1p1_run N pi m nsteps s = (s', Err e) -> so_p s' = so_p s /\ so_r s' = so_r s.
Proof. exact L_C90_failed_run_partial. Qed.
Print Assumptions C90_failed_run_partial.
