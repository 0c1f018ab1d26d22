(** Property theorems (each one a lemma proved in [TotalThm.v]), the assumptions they
    rest on, and for each a concrete case meeting its hypotheses. *)
From Coq Require Import String ZArith Bool Arith List Lia Reals Lra QArith.
From Verif Require Import Prelude PreludeFacts Num GridModel GridSpec GeoModel GeoSpec PropProofs PropModel PropSpec
  UnitsModel BlackOilModel FdmModel MonadFacts HistSpec InvFacts ModelSpec ModelFacts FaceFacts
  Samples SampleFacts SampleWell SampleBal SolveSpec StepSpec BalanceSpec CanonFacts NbrFacts TotalSpec TotalFacts TotalStep TotalHist TotalSet.
Import ListNotations.
Close Scope Q_scope.
Close Scope R_scope.
Open Scope nat_scope.
From Verif Require Import TotalThm.
Close Scope Q_scope.
Close Scope R_scope.
Open Scope nat_scope.

(** C94: in a history of proper calls no solve and no run raises anything but the
    RecursionError of a step that is solved too often. *)
Theorem C94_never_fails :
  forall (g : gobj R) f unit pi dt m0 x y z u dx dy dz l,
  bo_new g f unit pi dt = Ok m0 -> model m0 x y z u dx dy dz ->
  along proper (m0, None) l -> along returns (m0, None) l.
Proof. exact L_C94_never_fails. Qed.
Print Assumptions C94_never_fails.

(** C94: nor that, if the limit is larger than the number of wells, all wells have
    positive factors and there are no ties. *)
Theorem C94_succeeds :
  forall (g : gobj R) f unit pi dt m0 x y z u dx dy dz l,
  bo_new g f unit pi dt = Ok m0 -> model m0 x y z u dx dy dz ->
  along proper (m0, None) l -> along enough (m0, None) l -> along succeeds (m0, None) l.
Proof. exact L_C94_succeeds. Qed.
Print Assumptions C94_succeeds.

Example C94_case : exists m0 : bo R, build 3 1 1 None 1%R (Some 10%R) None = Ok m0 /\ (exists g f unit p dt, bo_new g f unit p dt = Ok m0) /\
  (exists x y z u dx dy dz, model m0 x y z u dx dy dz) /\
  let l := [injector; Set_boundaries (sides 0); Compile; Run fives SampleWell.one 3 9 true false true true false (Some "cgs"%string)] in
  along proper (m0, None) (l ++ [Set_all_boundaries "pressure" 7%R; Solve fives SampleWell.one 0 false omb]) /\ along enough (m0, None) l /\
  length (b_wells (fst (after (m0, None) l))) = 1.
Proof. exact ex_C94_case. Qed.

(** C95: after proper calls set_well accepts every interior cell, with any rate and
    pressure, when a radius is given or known, exactly if the grid has flow along x,
    and along z only together with y. *)
Theorem C95_set_well :
  forall (g : gobj R) f unit pi dt m0 x y z u dx dy dz l id q pwf r s,
  bo_new g f unit pi dt = Ok m0 -> model m0 x y z u dx dy dz -> attached m0 -> along proper (m0, None) l -> In id (b_ids m0) ->
  (r <> None \/ exists w, dget id (b_wells (fst (after (m0, None) l))) = Some w /\ w_r w <> None) ->
  (snd (exec (Set_well (Some id) q pwf r s) (after (m0, None) l)) = Ok tt <-> drillable (gr (geom (b_grid m0)))).
Proof. exact L_C95_set_well. Qed.
Print Assumptions C95_set_well.

(** C95: and set_boundaries accepts every dictionary of conditions it knows on
    boundary cells (gradients on cells of one face). *)
Theorem C95_set_boundaries :
  forall (g : gobj R) f unit pi dt m0 x y z u dx dy dz l bd,
  bo_new g f unit pi dt = Ok m0 -> model m0 x y z u dx dy dz -> along proper (m0, None) l ->
  (forall e, In e bd -> acceptable m0 (fst e) (fst (snd e))) ->
  snd (exec (Set_boundaries bd) (after (m0, None) l)) = Ok tt.
Proof. exact L_C95_set_boundaries. Qed.
Print Assumptions C95_set_boundaries.

(** C95: and set_all_boundaries every rate and pressure. *)
Theorem C95_set_all_boundaries :
  forall (g : gobj R) f unit pi dt m0 x y z u dx dy dz l cond v,
  bo_new g f unit pi dt = Ok m0 -> model m0 x y z u dx dy dz -> along proper (m0, None) l ->
  smem (lower cond) RATE = true \/ smem (lower cond) PRESS = true ->
  snd (exec (Set_all_boundaries cond v) (after (m0, None) l)) = Ok tt.
Proof. exact L_C95_set_all_boundaries. Qed.
Print Assumptions C95_set_all_boundaries.

Example C95_case : exists m0 : bo R, build 3 1 1 None 1%R (Some 10%R) None = Ok m0 /\ (exists g f unit p dt, bo_new g f unit p dt = Ok m0) /\
  (exists x y z u dx dy dz, model m0 x y z u dx dy dz) /\ attached m0 /\ along proper (m0, None) [injector; Compile] /\ In 3%Z (b_ids m0) /\
  drillable (gr (geom (b_grid m0))) /\ acceptable m0 0%Z "GRADIENT" /\ acceptable m0 4%Z "P".
Proof. exact ex_C95_case. Qed.

(** C95 is false as first stated: on a line of cells along z no well can be set.
    The call that fails leaves a well behind. *)
Theorem C95_column_refuted :
  exists m0 : bo Q, build 1 1 3 None 1%Q (Some 10%Q) None = Ok m0 /\ In 2%Z (b_ids m0) /\
  forall NT : NumT Q, let X := exec (Set_well (Some 2%Z) (Some 1%Q) None (Some (1 # 2)%Q) None) (m0, None) in
  snd X = Err ValueError /\ dkeys (b_wells (fst (fst X))) = [2%Z].
Proof. exact L_C95_column_refuted. Qed.
Print Assumptions C95_column_refuted.
