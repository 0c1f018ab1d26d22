(** Property theorems (each one a lemma proved in [AnalyticThm.v]), the assumptions they
    rest on, and for each a concrete case meeting its hypotheses. *)
From Coq Require Import String ZArith QArith Bool Arith List Lia Reals Lra.
From Verif Require Import Prelude PreludeFacts TabFacts Num GridModel GridSpec GridProofs GeoModel GeoSpec GeoProofs PropModel PropSpec PropProofs ScalerModel
  UnitsModel BlackOilModel FdmModel HistSpec Samples SampleFacts SampleWell FrameModel FrameFacts FrameThm AnalyticModel AnalyticSpec AnalyticFacts.
Import ListNotations.
Close Scope Q_scope.
Close Scope R_scope.
Open Scope nat_scope.
From Verif Require Import AnalyticThm.
Close Scope Q_scope.
Close Scope R_scope.
Open Scope nat_scope.

(** C75, what holds: run keeps tstep, nsteps and the rates as documented; the rows
    of pressures are one profile for each step k and each cell j, computed with the
    time of step k and the diffusivity of cell j. *)
Theorem C75_rows_partial :
  forall N pi (m : bo R) x y z u dx dy dz a kx phi s nsteps p ps lo hi,
  analytic m x y z u dx dy dz a kx phi ->
  let n := get_n (ggrid (b_grid m)) true in
  so_p s = map (map Some) (p :: ps) -> length p = n -> least (concat (p :: ps)) lo -> greatest (concat (p :: ps)) hi -> (lo < hi)%R ->
  exists s', d1p1_run N (Some pi) m nsteps s = (s', Ok tt) /\ so_tstep s' = nsteps /\ so_nsteps s' = nsteps + 1 /\ so_r s' = so_r s /\
  length (so_p s') = (nsteps + 1) * n /\
  forall k j i, k <= nsteps -> j < n -> i < n ->
  let c := centre (arg dx dy dz a) in
  let L := (c (n - 1)%nat - c 0%nat)%R in
  let sc v := ((v - lo) / (hi - lo))%R in
  exists row, nth_error (so_p s') (k * n + j) = Some row /\ length row = n /\
  nth_error row i = Some (Some (lo + (hi - lo) * limited (profile N (sc pi) (sc (nth 0 p 0)) (sc (nth (n - 1) p 0))
    ((c i - c 0%nat) / L) (diffusivity m (nth j kx 0) (nth j phi 0) * (INR k * b_dt m) / (L * L)))))%R.
Proof. exact L_C75_rows_partial. Qed.
Print Assumptions C75_rows_partial.

Example C75_case : exists (m0 m : bo R) p lo hi, build 3 1 1 None 1%R (Some 10%R) None = Ok m0 /\
  fst (after (m0, None) [Set_boundary 0%Z "pressure" 20%R; Set_boundary 4%Z "p" 0%R]) = m /\
  analytic m 3 1 1 true (Scalar 1%R) (Scalar 1%R) (Scalar 1%R) AX [1; 1; 1; 1; 1]%R [1; 1; 1; 1; 1]%R /\
  so_p (d1p1_new m) = map (map Some) [p] /\ length p = get_n (ggrid (b_grid m)) true /\ least (concat [p]) lo /\ greatest (concat [p]) hi /\ (lo < hi)%R.
Proof. exact ex_C75_case. Qed.

(** C75 is false: after one step on three cells there are ten rows. *)
Theorem C75_rows_refuted :
  exists (m : bo R) s nsteps, (exists m0, build 3 1 1 None 1%R (Some 10%R) None = Ok m0 /\
    fst (after (m0, None) [Set_boundary 0%Z "pressure" 20%R; Set_boundary 4%Z "p" 0%R]) = m) /\
  d1p1_run 1000 (Some 10%R) m nsteps (d1p1_new m) = (s, Ok tt) /\ length (so_p s) <> nsteps + 1 /\ length (so_p s) = 10 /\ length (so_r s) = 1.
Proof. exact L_C75_rows_refuted. Qed.
Print Assumptions C75_rows_refuted.

(** C73: in every computed row the first and the last cell have their initial
    pressures, and no pressure lies outside the range of the given ones. *)
Theorem C73_boundaries :
  forall N pi (m : bo R) x y z u dx dy dz a kx phi s nsteps p ps lo hi,
  analytic m x y z u dx dy dz a kx phi ->
  so_p s = map (map Some) (p :: ps) -> length p = get_n (ggrid (b_grid m)) true ->
  least (concat (p :: ps)) lo -> greatest (concat (p :: ps)) hi -> (lo < hi)%R ->
  exists s', d1p1_run N (Some pi) m nsteps s = (s', Ok tt) /\ so_p s' <> [] /\
  forall row, In row (so_p s') ->
  nth_error row 0 = Some (nth_error p 0) /\ nth_error row (length p - 1) = Some (nth_error p (length p - 1)) /\ length row = length p /\
  forall v, In v row -> exists w, v = Some w /\ (lo <= w <= hi)%R.
Proof. exact L_C73_boundaries. Qed.
Print Assumptions C73_boundaries.

Example C73_case : exists (m0 m : bo R) p lo hi, build 3 1 1 None 1%R (Some 10%R) None = Ok m0 /\
  fst (after (m0, None) [Set_boundary 0%Z "pressure" 20%R; Set_boundary 4%Z "p" 0%R]) = m /\
  analytic m 3 1 1 true (Scalar 1%R) (Scalar 1%R) (Scalar 1%R) AX [1; 1; 1; 1; 1]%R [1; 1; 1; 1; 1]%R /\
  so_p (d1p1_new m) = map (map Some) [p] /\ length p = get_n (ggrid (b_grid m)) true /\ least (concat [p]) lo /\ greatest (concat [p]) hi /\ (lo < hi)%R.
Proof. exact ex_C73_case. Qed.

(** C74: before clipping every partial sum solves the heat equation in the
    dimensionless variables, with the given values at both ends. *)
Theorem C74_heat :
  forall N i a b, heat (fun x t => profile N i a b x t) /\ forall t, profile N i a b 0%R t = a /\ profile N i a b 1%R t = b.
Proof. exact L_C74_heat. Qed.
Print Assumptions C74_heat.

(** C86: with time every partial sum tends to the straight line between the values at
    the ends. *)
Theorem C86_steady :
  forall N i a b eps, (0 < eps)%R -> exists T, forall x t, (T <= t)%R -> (Rabs (profile N i a b x t - (a + (b - a) * x)) < eps)%R.
Proof. exact L_C86_steady. Qed.
Print Assumptions C86_steady.

(** C87, what happens: if any stored pressure is missing, run succeeds and every
    computed pressure is missing. *)
Theorem C87_all_missing :
  forall N pi (m : bo R) x y z u dx dy dz a kx phi s nsteps p ps,
  analytic m x y z u dx dy dz a kx phi -> so_p s = p :: ps -> p <> [] -> In None (concat (p :: ps)) ->
  exists s', d1p1_run N (Some pi) m nsteps s = (s', Ok tt) /\ so_p s' <> [] /\ Forall (Forall (eq None)) (so_p s').
Proof. exact L_C87_all_missing. Qed.
Print Assumptions C87_all_missing.

(** C87 is false: a model with a pressure at one end only is accepted. *)
Theorem C87_rejected_refuted :
  exists (m0 : bo R) s, build 3 1 1 None 1%R (Some 10%R) None = Ok m0 /\
  let m := fst (after (m0, None) [Set_boundary 0%Z "pressure" 20%R]) in
  d1p1_run 1000 (Some 10%R) m 1 (d1p1_new m) = (s, Ok tt) /\ so_p s <> [] /\ Forall (Forall (eq None)) (so_p s).
Proof. exact L_C87_rejected_refuted. Qed.
Print Assumptions C87_rejected_refuted.

Example C87_case : exists (m0 m : bo R), build 3 1 1 None 1%R (Some 10%R) None = Ok m0 /\
  fst (after (m0, None) [Set_boundary 0%Z "pressure" 20%R]) = m /\
  analytic m 3 1 1 true (Scalar 1%R) (Scalar 1%R) (Scalar 1%R) AX [1; 1; 1; 1; 1]%R [1; 1; 1; 1; 1]%R /\
  b_ip m <> [] /\ In None (concat (so_p (d1p1_new m))).
Proof. exact ex_C87_case. Qed.

(** C88, along x: the diffusivity of a cell is that of its permeability along the
    flow. *)
Theorem C88_direction_partial :
  forall (m : bo R) x y z u dx dy dz kx phi j, analytic m x y z u dx dy dz AX kx phi ->
  j < get_n (ggrid (b_grid m)) true ->
  exists l, get_alpha m = Ok l /\ nth_error l j = Some (Some (diffusivity m (nth j kx 0) (nth j phi 0)))%R.
Proof. exact L_C88_direction_partial. Qed.
Print Assumptions C88_direction_partial.

Example C88_case : exists m : bo R, build 3 1 1 None 1%R (Some 10%R) None = Ok m /\
  analytic m 3 1 1 true (Scalar 1%R) (Scalar 1%R) (Scalar 1%R) AX [1; 1; 1; 1; 1]%R [1; 1; 1; 1; 1]%R /\ 3 < get_n (ggrid (b_grid m)) true.
Proof. exact ex_C88_case. Qed.

(** C88 is false along y: the permeability along y has no effect, and without one
    along x no diffusivity is found. *)
Theorem C88_direction_refuted :
  exists (m2 m5 mn : bo Q),
  build_k 1 3 1 (Some (Scalar 1%Q)) (Some (Scalar 2%Q)) = Ok m2 /\ build_k 1 3 1 (Some (Scalar 1%Q)) (Some (Scalar 5%Q)) = Ok m5 /\
  build_k 1 3 1 None (Some (Scalar 2%Q)) = Ok mn /\
  one_way (ggrid (b_grid m2)) AY /\ get_alpha m2 = get_alpha m5 /\ get_alpha mn = Err AttributeError.
Proof. exact L_C88_direction_refuted. Qed.
Print Assumptions C88_direction_refuted.

(** C89: on a grid with flow along two or three axes run raises ValueError; pressures
    and rates stay as they were. *)
Theorem C89_one_direction_only :
  forall N pi (m : bo R) x y z u dx dy dz a b s nsteps p ps,
  geo_new x y z u dx dy dz = Ok (geom (b_grid m)) -> flows (ggrid (b_grid m)) a -> flows (ggrid (b_grid m)) b -> a <> b ->
  att (pget KX (prs (b_grid m))) <> None -> att (pget PHI (prs (b_grid m))) <> None -> (0 < b_dt m)%R ->
  so_p s = p :: ps -> p <> [] ->
  exists s', d1p1_run N (Some pi) m nsteps s = (s', Err ValueError) /\ so_p s' = so_p s /\ so_r s' = so_r s.
Proof. exact L_C89_one_direction_only. Qed.
Print Assumptions C89_one_direction_only.

Example C89_case : exists m : bo R, build 2 2 1 None 1%R (Some 10%R) None = Ok m /\
  geo_new 2 2 1 true (Scalar 1%R) (Scalar 1%R) (Scalar 1%R) = Ok (geom (b_grid m)) /\
  flows (ggrid (b_grid m)) AX /\ flows (ggrid (b_grid m)) AY /\
  att (pget KX (prs (b_grid m))) <> None /\ att (pget PHI (prs (b_grid m))) <> None /\ (0 < b_dt m)%R /\ b_ip m <> [].
Proof. exact ex_C89_case. Qed.

(** C90 is false: the counters of a solution change although its run raised. *)
Theorem C90_failed_run_refuted :
  exists m s, build 2 2 1 None 1%R (Some 10%R) None = Ok m /\
  d1p1_run 1000 (Some 10%R) m 5 (d1p1_new m) = (s, Err ValueError) /\
  so_p s = [b_ip m] /\ so_nsteps (d1p1_new m) = 1 /\ so_nsteps s = 6 /\ so_tstep (d1p1_new m) = 0 /\ so_tstep s = 5.
Proof. exact L_C90_failed_run_refuted. Qed.
Print Assumptions C90_failed_run_refuted.

(** C91: if the smallest and the largest pressure are those at the two ends, a run
    does not depend on earlier runs. *)
Theorem C91_run_again :
  forall N pi (m : bo R) x y z u dx dy dz a kx phi s nsteps nsteps' p ps,
  analytic m x y z u dx dy dz a kx phi ->
  let n := get_n (ggrid (b_grid m)) true in
  so_p s = map (map Some) (p :: ps) -> length p = n ->
  let p0 := nth 0 p 0%R in let pn := nth (n - 1) p 0%R in
  least (concat (p :: ps)) (Rmin p0 pn) -> greatest (concat (p :: ps)) (Rmax p0 pn) -> p0 <> pn ->
  d1p1_run N (Some pi) m nsteps' (fst (d1p1_run N (Some pi) m nsteps s)) = d1p1_run N (Some pi) m nsteps' s.
Proof. exact L_C91_run_again. Qed.
Print Assumptions C91_run_again.

Example C91_case : exists (m0 m : bo R) (p : list R), build 3 1 1 None 1%R (Some 10%R) None = Ok m0 /\
  fst (after (m0, None) [Set_boundary 0%Z "pressure" 20%R; Set_boundary 4%Z "p" 0%R]) = m /\
  analytic m 3 1 1 true (Scalar 1%R) (Scalar 1%R) (Scalar 1%R) AX [1; 1; 1; 1; 1]%R [1; 1; 1; 1; 1]%R /\
  so_p (d1p1_new m) = [map Some p] /\ length p = get_n (ggrid (b_grid m)) true /\
  least (concat [p]) (Rmin (nth 0 p 0) (nth 4 p 0))%R /\ greatest (concat [p]) (Rmax (nth 0 p 0) (nth 4 p 0))%R /\ (nth 0 p 0 <> nth 4 p 0)%R.
Proof. exact ex_C91_case. Qed.
