(** Property theorems (each one a lemma proved in [AssemblyThm.v]), the assumptions they
    rest on, and for each a concrete case meeting its hypotheses. *)
From Coq Require Import String ZArith Bool Arith List Lia Reals Lra.
From Verif Require Import Prelude PreludeFacts Num GridModel GridSpec GridProofs GeoModel TabFacts GeoSpec GeoProofs PropModel PropSpec PropProofs PropThm
  UnitsModel UnitsSpec BlackOilModel FdmModel MonadFacts Samples HistSpec WellThm InvFacts SumFacts ModelSpec ModelFacts VectFacts AsmFacts TiedFacts SampleFacts.
Import ListNotations.
Close Scope R_scope.
Open Scope nat_scope.
From Verif Require Import AssemblyThm.
Close Scope R_scope.
Open Scope nat_scope.

(** C82: a model constructed from a grid with flow and positive rock and fluid
    data satisfies what the other properties assume of a model. *)
Theorem C82_constructor :
  forall (g : gobj R) (f : fobj R) unit pi dt m x y z u dx dy dz cg cf k mu B phi zs,
  bo_new g f unit pi dt = Ok m ->
  rock g x y z u dx dy dz -> has_flow (gr (geom g)) ->
  p_comp (prs g) = Some cg -> comp_kind cg (p_comp_type (prs g)) ->
  f_c f = mkCobj (Some cf) (Some k) -> comp_kind cf k ->
  f_mu f = Some mu -> f_B f = Some B -> (0 < mu)%R -> (0 < B)%R -> (0 < dt)%R ->
  att (pget PHI (prs g)) = Some phi -> length phi = get_n (gr (geom g)) true -> Forall (fun v => 0 < v)%R phi ->
  att (pget ZED (prs g)) = Some zs -> length zs = get_n (gr (geom g)) true ->
  model m x y z u dx dy dz.
Proof. exact L_C82_constructor. Qed.
Print Assumptions C82_constructor.

(** The hypotheses: three cells, fluid compressibility 1, incompressible rock. *)
Example C82_case :
  exists (g : gobj R) f m, bo_new g f "metric" (Some 7%R) 1%R = Ok m /\
  rock g 3 1 1 true (Scalar 1%R) (Scalar 1%R) (Scalar 1%R) /\ has_flow (gr (geom g)) /\
  p_comp (prs g) = Some 0%R /\ comp_kind 0 (p_comp_type (prs g)) /\
  f_c f = mkCobj (Some 1%R) (Some (Some "compressible"%string)) /\ comp_kind 1 (Some "compressible"%string) /\
  f_mu f = Some 1%R /\ f_B f = Some 1%R /\
  att (pget PHI (prs g)) = Some (repeat 1%R 5) /\ get_n (gr (geom g)) true = 5 /\ att (pget ZED (prs g)) = Some (repeat 0%R 5).
Proof. exact ex_C82_case. Qed.

(** C38: without wells and boundaries the vectorised matrix of the first step is
    symmetric, non-negative off the diagonal, couples axis-adjacent cells, and
    its rows sum to minus the accumulation coefficients. *)
Theorem C38_diffusion_matrix :
  forall (m : bo R) x y z u dx dy dz (s : fs R) row, model m x y z u dx dy dz ->
  b_wells m = [] -> b_bdict m = [] -> b_bup m = [] ->
  s_tstep s = 0 -> nth_error (s_p s) 0 = Some row -> length row = get_n (gr (geom (b_grid m))) true ->
  exists X A d, get_matrices_vect (m, s) = (X, Ok (A, d)) /\ msize A = length (b_ids m) /\
    forall p, p < msize A ->
      rsum (ment A p) 0 (msize A) = (- acc m p)%R /\
      (if b_cmp m then 0 < acc m p else acc m p = 0)%R /\
      forall q, q < msize A -> p <> q ->
        ment A p q = ment A q p /\ ment A p q = coupling m p q /\ (0 <= ment A p q)%R.
Proof. exact L_C38_diffusion_matrix. Qed.
Print Assumptions C38_diffusion_matrix.

Example C38_case :
  exists m : bo R, build 3 1 1 None 1%R (Some 7%R) None = Ok m /\
  (exists x y z u dx dy dz, model m x y z u dx dy dz) /\ b_cmp m = true /\ length (b_ids m) = 3 /\
  b_wells m = [] /\ b_bdict m = [] /\ b_bup m = [] /\ s_tstep (fdm_new m) = 0 /\
  exists row, nth_error (s_p (fdm_new m)) 0 = Some row /\ length row = get_n (gr (geom (b_grid m))) true.
Proof. exact ex_C38_case. Qed.

(** C39: the vectorised system of a compressible model has at most one solution,
    in every state reached by any calls of set_well, set_boundary(ies), compile,
    solve and run, successful or not, whatever the linear solver answers. *)
Theorem C39_compressible_regular :
  forall (g : gobj R) f unit pi dt m0 x y z u dx dy dz l m s X A d,
  bo_new g f unit pi dt = Ok m0 -> model m0 x y z u dx dy dz -> b_cmp m0 = true ->
  always (fun X => productive (fst X)) (m0, None) l -> after (m0, None) l = (m, Some s) ->
  get_matrices_vect (m, s) = (X, Ok (A, d)) -> regular A.
Proof. exact L_C39_compressible_regular. Qed.
Print Assumptions C39_compressible_regular.

(** C39: so are all systems stored by a history of vectorised steps. *)
Theorem C39_stored_regular :
  forall (g : gobj R) f unit pi dt m0 x y z u dx dy dz l m s,
  bo_new g f unit pi dt = Ok m0 -> model m0 x y z u dx dy dz -> b_cmp m0 = true ->
  always (fun X => productive (fst X)) (m0, None) l -> Forall vectorised l -> after (m0, None) l = (m, Some s) ->
  Forall regular (s_As s).
Proof. exact L_C39_stored_regular. Qed.
Print Assumptions C39_stored_regular.

(** C41: with a pressure boundary, or a well controlled by a bottom-hole pressure
    other than zero, the vectorised system of the first step has at most one
    solution, compressible or not. *)
Theorem C41_first_step_regular :
  forall (g : gobj R) f unit pi dt m0 x y z u dx dy dz l m s X A d,
  bo_new g f unit pi dt = Ok m0 -> model m0 x y z u dx dy dz ->
  always (fun X => productive (fst X)) (m0, None) l -> after (m0, None) l = (m, Some s) -> s_tstep s = 0 ->
  b_bup m <> [] \/
  (exists id w p, dget id (b_wells m) = Some w /\ w_con w = Some (Some "pwf"%string) /\ w_pwf w = Some (Some p) /\ p <> 0%R) ->
  get_matrices_vect (m, s) = (X, Ok (A, d)) -> regular A.
Proof. exact L_C41_first_step_regular. Qed.
Print Assumptions C41_first_step_regular.

(** C41: with a pressure boundary set before compiling, the systems of all
    vectorised steps have at most one solution. *)
Theorem C41_all_steps_regular :
  forall (g : gobj R) f unit pi dt m0 x y z u dx dy dz l l' m s,
  bo_new g f unit pi dt = Ok m0 -> model m0 x y z u dx dy dz ->
  always (fun X => productive (fst X)) (m0, None) (l ++ Compile :: l') ->
  b_bup (fst (after (m0, None) l)) <> [] ->
  Forall vectorised l' -> Forall stepping l' ->
  after (m0, None) (l ++ Compile :: l') = (m, Some s) -> Forall regular (s_As s).
Proof. exact L_C41_all_steps_regular. Qed.
Print Assumptions C41_all_steps_regular.

Example C39_case :
  exists (m0 : bo R) m s X A d, build 3 1 1 None 1%R (Some 7%R) None = Ok m0 /\
  (exists x y z u dx dy dz, model m0 x y z u dx dy dz) /\ b_cmp m0 = true /\
  let l := [Set_boundaries [(0%Z, ("pressure"%string, 5%R))]; Compile] in
  always (fun X => productive (fst X)) (m0, None) l /\ after (m0, None) l = (m, Some s) /\
  get_matrices_vect (m, s) = (X, Ok (A, d)) /\ b_bup m <> [] /\ s_tstep s = 0.
Proof. exact ex_C39_case. Qed.

Example C41_case :
  exists (m0 : bo R) m s, build 3 1 1 None 0%R (Some 7%R) None = Ok m0 /\
  (exists x y z u dx dy dz, model m0 x y z u dx dy dz) /\ b_cmp m0 = false /\
  let l := [Set_well (Some 1%Z) None (Some 2%R) (Some (1 / 2)%R) None; Compile] in
  always (fun X => productive (fst X)) (m0, None) l /\ after (m0, None) l = (m, Some s) /\ s_tstep s = 0 /\
  (exists w p, dget 1%Z (b_wells m) = Some w /\ w_con w = Some (Some "pwf"%string) /\ w_pwf w = Some (Some p) /\ p <> 0%R) /\
  exists X A d, get_matrices_vect (m, s) = (X, Ok (A, d)).
Proof. exact ex_C41_case. Qed.

(** Two vectorised steps of an incompressible model with a pressure boundary; the
    answers of the linear solver do not matter. *)
Example C41_steps :
  exists (m0 : bo R) slv sc, build 3 1 1 None 0%R (Some 7%R) None = Ok m0 /\
  let l := [Set_boundaries [(0%Z, ("pressure"%string, 5%R))]] in
  let l' := [Run slv sc 2 9 true false true false false (Some "cgs"%string)] in
  always (fun X => productive (fst X)) (m0, None) (l ++ Compile :: l') /\
  b_bup (fst (after (m0, None) l)) <> [] /\ Forall vectorised l' /\ Forall stepping l' /\
  exists m s, after (m0, None) (l ++ Compile :: l') = (m, Some s) /\ length (s_As s) = 2.
Proof. exact ex_C41_steps. Qed.
