(** Property theorems (each one a lemma proved in [CalcThm.v]), the assumptions they
    rest on, and for each a concrete case meeting its hypotheses. *)
From Coq Require Import String ZArith Bool Arith List Lia Reals Lra.
From Verif Require Import Prelude PreludeFacts TabFacts Num GridModel GridSpec GridProofs GeoModel GeoSpec GeoProofs PropModel PropSpec PropProofs ScalerModel ScalerSpec
  UnitsModel BlackOilModel FdmModel HistSpec Samples SampleFacts SampleWell FrameModel FrameSpec FrameFacts FrameThm ScaleModel ScaleSpec ScaleFacts ScaleFull ScaleThm AnalyticModel AnalyticSpec AnalyticFacts AnalyticThm CalcModel.
Import ListNotations.
Close Scope R_scope.
Open Scope nat_scope.
From Verif Require Import CalcThm.
Close Scope R_scope.
Open Scope nat_scope.

(** calc_solution with its defaults returns the pressures that run stores, and the time
    and place of each, without changing anything. *)
Theorem C113_same_as_run :
  forall N pi (m : bo R) x y z u dx dy dz a kx phi s p ps lo hi r S,
  analytic m x y z u dx dy dz a kx phi ->
  let n := get_n (ggrid (b_grid m)) true in
  so_p s = map (map Some) (p :: ps) -> length p = n -> least (concat (p :: ps)) lo -> greatest (concat (p :: ps)) hi -> (lo < hi)%R ->
  so_nsteps s = so_tstep s + 1 ->
  exists X, calc_solution N false r true (Some pi) m s S = (S, Ok (X, so_p (fst (d1p1_run N (Some pi) m (so_tstep s) s)))) /\
  snd (d1p1_run N (Some pi) m (so_tstep s) s) = Ok tt /\ length X = so_nsteps s /\
  forall k, k < so_nsteps s -> exists row, nth_error X k = Some row /\ length row = n /\
  forall i, i < n -> nth_error row i = Some (Some (INR k * b_dt m)%R, Some (centre (arg dx dy dz a) i)).
Proof. exact L_C113_same_as_run. Qed.
Print Assumptions C113_same_as_run.

(** Cleaning limits the values to the range of the recorded pressures and does nothing
    else. *)
Theorem C113_clean :
  forall N pi (m : bo R) x y z u dx dy dz a kx phi s p ps lo hi r S,
  analytic m x y z u dx dy dz a kx phi ->
  so_p s = map (map Some) (p :: ps) -> length p = get_n (ggrid (b_grid m)) true -> least (concat (p :: ps)) lo -> greatest (concat (p :: ps)) hi -> (lo < hi)%R ->
  so_nsteps s = so_tstep s + 1 ->
  exists X p1 p2, calc_solution N false r false (Some pi) m s S = (S, Ok (X, p1)) /\ calc_solution N false r true (Some pi) m s S = (S, Ok (X, p2)) /\
  p1 <> [] /\ Forall2 (Forall2 (fun v w => exists q, v = Some q /\ w = Some (Rmin hi (Rmax lo q)))) p1 p2.
Proof. exact L_C113_clean. Qed.
Print Assumptions C113_clean.

(** Scaled: the pressures are mapped from the range of the recorded pressures to the
    range asked for, times and places by the scalers of the model. *)
Theorem C113_scaled :
  forall N pi (m : bo R) x y z u dx dy dz a kx phi s p ps lo hi b1 b2 clean S t1 t2 x1 x2,
  analytic m x y z u dx dy dz a kx phi ->
  let n := get_n (ggrid (b_grid m)) true in
  so_p s = map (map Some) (p :: ps) -> length p = n -> least (concat (p :: ps)) lo -> greatest (concat (p :: ps)) hi -> (lo < hi)%R ->
  so_nsteps s = so_tstep s + 1 -> 0 < so_tstep s -> scales_to S QTime t1 t2 -> scales_to S QSpace x1 x2 ->
  exists S' X0 X1 p0 p1, calc_solution N false (Some b1, Some b2) clean (Some pi) m s S = (S, Ok (X0, p0)) /\
  calc_solution N true (Some b1, Some b2) clean (Some pi) m s S = (S', Ok (X1, p1)) /\ p0 <> [] /\ X0 <> [] /\
  Forall2 (Forall2 (fun v w => exists q, v = Some q /\ w = Some (affine b1 b2 lo hi q))) p0 p1 /\
  let c := centre (arg dx dy dz a) in
  Forall2 (Forall2 (fun v w => exists t h, v = (Some t, Some h) /\
    w = (Some (affine t1 t2 0 (INR (so_tstep s) * b_dt m) t), Some (affine x1 x2 (c 0%nat) (c (n - 1)%nat) h)))) X0 X1.
Proof. exact L_C113_scaled. Qed.
Print Assumptions C113_scaled.

Example C113_case : exists (m0 m : bo R) s p ps lo hi, build 3 1 1 None 1%R (Some 10%R) None = Ok m0 /\
  fst (after (m0, None) [Set_boundary 0%Z "pressure" 20%R; Set_boundary 4%Z "p" 0%R]) = m /\
  analytic m 3 1 1 true (Scalar 1%R) (Scalar 1%R) (Scalar 1%R) AX [1; 1; 1; 1; 1]%R [1; 1; 1; 1; 1]%R /\
  fst (d1p1_run 1000 (Some 10%R) m 2 (d1p1_new m)) = s /\ so_p s = map (map Some) (p :: ps) /\ length p = get_n (ggrid (b_grid m)) true /\
  least (concat (p :: ps)) lo /\ greatest (concat (p :: ps)) hi /\ (lo < hi)%R /\ so_nsteps s = so_tstep s + 1 /\ 0 < so_tstep s /\
  scales_to (@scalers_new R Num_R) QTime 0 1 /\ scales_to (@scalers_new R Num_R) QSpace (-1) 1.
Proof. exact ex_C113_case. Qed.
