(** Property theorems (each one a lemma proved in [CornerThm.v]), the assumptions they
    rest on, and for each a concrete case meeting its hypotheses. *)
From Coq Require Import String ZArith Bool Arith List Lia Reals Lra QArith.
From Verif Require Import Prelude PreludeFacts Num GridModel GridSpec GridProofs GridNeighbors GridThm GeoModel PropModel PropSpec FaceFacts UnitsModel BlackOilModel FdmModel MonadFacts InvFacts
  HistSpec ModelSpec ModelFacts Samples SampleFacts SampleBal QSamples CanonFacts BalanceSpec ThreadSpec.
Import ListNotations.
Close Scope R_scope.
Close Scope Q_scope.
Open Scope nat_scope.
From Verif Require Import CornerThm.
Close Scope R_scope.
Close Scope Q_scope.
Open Scope nat_scope.

(** C125, what holds: a boundary cell of a reservoir is coupled to interior cells only
    if it lies on one face of the grid, and then to exactly one, with a positive
    transmissibility. *)
Theorem C125_face_partial :
  forall (m : bo R) x y z u dx dy dz c, model m x y z u dx dy dz -> let g := gr (geom (b_grid m)) in boundary_cell g c ->
  (on_one_face g c <-> exists id T, get_cell_trans m (natural_id g c) false = Ok [(id, T)]) /\
  (forall T, get_cell_trans m (natural_id g c) false = Ok T -> forall id t, In (id, t) T -> In id (b_ids m) /\ (0 < t)%R).
Proof. exact L_C125_face_partial. Qed.
Print Assumptions C125_face_partial.

(** C125: after [set_boundaries] has accepted a pressure for a cell on an edge or corner
    of the grid, no step succeeds, whatever the path, the solver and the state of the
    solution. *)
Theorem C125_corner_pressure :
  forall (F : Type) (NF : Num F) slv sc fuel sparse o (x x1 : ws F) s bd c v, let g := gr (geom (b_grid (fst x))) in
  wf g -> has_flow g -> boundary_cell g c -> ~ on_one_face g c ->
  set_boundaries bd x = (x1, Ok tt) -> In (natural_id g c, ("pressure"%string, v)) bd -> o_upd o = true ->
  snd (solve slv sc fuel sparse o (fst x1, s)) <> Ok tt.
Proof. exact L_C125_corner_pressure. Qed.
Print Assumptions C125_corner_pressure.

(** C125 is false: a rate of 5 at a corner of a closed square of four cells at
    pressure 10 is accepted and recorded, but the system of either path has the solution
    of the closed square: the pressures stay at 10 though 5 flows in. *)
Theorem C125_corner_rate_refuted :
  exists (m m1 : bo Q), build 2 2 1 None 1%Q (Some 10%Q) None = Ok m /\
  set_boundaries [(0%Z, ("rate"%string, 5%Q))] (m, None) = ((m1, None), Ok tt) /\ In 0%Z (match get_boundaries_id (gr (geom (b_grid m))) with Ok l => l | Err _ => [] end) /\
  forall vect, let y := solve (gives [10; 10; 10; 10]%Q) oneQ 1 false (mkOpts false vect true true false None) (m1, fdm_new m1) in let s1 := snd (fst y) in snd y = Ok tt /\
  (exists A d, s_As s1 = [A] /\ s_ds s1 = [d] /\ msize A = 4 /\
    forall p, p < 4 -> match nth p d None with Some v => (v == 10 * (ment A p 0 + ment A p 1 + ment A p 2 + ment A p 3))%Q | None => False end) /\
  length (s_r s1) = 2 /\ (forall row, In row (s_r s1) -> nth 0 row None = Some 5%Q) /\
  (forall id, In id (b_ids m) -> pyget (last (s_p s1) []) id = Ok (Some 10%Q)) /\ s_err s1 = Some (Some 1%Q).
Proof. exact L_C125_corner_rate_refuted. Qed.
Print Assumptions C125_corner_rate_refuted.

(** C125 is false of pressures as well: accepted and recorded, then both paths raise
    ValueError, and the symbolic one leaves half a step behind. *)
Theorem C125_corner_pressure_refuted :
  exists (m m1 : bo Q), build 2 2 1 None 1%Q (Some 10%Q) None = Ok m /\
  set_boundaries [(0%Z, ("pressure"%string, 5%Q))] (m, None) = ((m1, None), Ok tt) /\ nth 0 (b_ip m1) None = Some 5%Q /\
  forall a b c d,
  let solve_with vect := solve (gives [a; b; c; d]) oneQ 1 false (mkOpts false vect false true false None) (m1, fdm_new m1) in
  snd (solve_with true) = Err ValueError /\ length (s_p (snd (fst (solve_with true)))) = 1 /\
  snd (solve_with false) = Err ValueError /\ length (s_p (snd (fst (solve_with false)))) = 2.
Proof. exact L_C125_corner_pressure_refuted. Qed.
Print Assumptions C125_corner_pressure_refuted.

(** C125: the left face cell and the corner of a row and of a square. *)
Example C125_face_case : exists m : bo R, build 3 1 1 None 1%R (Some 10%R) None = Ok m /\ (exists x y z u dx dy dz, model m x y z u dx dy dz) /\
  let g := gr (geom (b_grid m)) in boundary_cell g (0, 0, 0)%Z /\ on_one_face g (0, 0, 0)%Z.
Proof. exact ex_C125_face_case. Qed.

(** C125: a pressure at the corner of a square of four cells. *)
Example C125_corner_case : exists (m : bo Q) x1, build 2 2 1 None 1%Q (Some 10%Q) None = Ok m /\
  let g := gr (geom (b_grid m)) in wf g /\ has_flow g /\ boundary_cell g (0, 0, 0)%Z /\ ~ on_one_face g (0, 0, 0)%Z /\
  let bd := [(natural_id g (0, 0, 0)%Z, ("pressure"%string, 5%Q))] in set_boundaries bd (m, None) = (x1, Ok tt).
Proof. exact ex_C125_corner_case. Qed.
