(** Calls that cannot fail: vocabulary. *)
From Coq Require Import String ZArith Bool Arith List Reals.
From Verif Require Import Prelude Num GridModel GridSpec GeoModel PropModel BlackOilModel FdmModel HistSpec SolveSpec BalanceSpec.
Import ListNotations.
Close Scope R_scope.
Open Scope nat_scope.

(** A linear solver that returns, for every system, one value per unknown. *)
Definition complete (slv : solver_kind -> @mat R -> list (fl R) -> res (list (fl R))) : Prop :=
  forall k A d, length d = msize A -> exists p, slv k A d = Ok p /\ length p = msize A.
(** The argument isolver: none, or one of the solvers, unless it is not looked at. *)
Definition known (sparse : bool) (iso : option string) : Prop :=
  sparse = false \/ match iso with None => True | Some n => n = ""%string \/ In n ISOLVERS end.
(** A boundary cell on one face; if its pressure is prescribed, the pressure is not
    the weight of the fluid between it and the cell behind the face (C57). *)
Definition admissible (m : bo R) (e : Z * (string * R)) : Prop :=
  face_id m (fst e) /\
  (fst (snd e) = "pressure"%string -> forall nb id d,
     get_cell_neighbors (gr (geom (b_grid m))) (fst e) false = Ok nb -> In id (dirs_list nb) -> dz m id (fst e) = Ok d ->
     snd (snd e) <> (b_g m * d)%R).
(** No well has the factor 0. *)
Definition draining (m : bo R) : Prop :=
  forall id w G, dget id (b_wells m) = Some w -> w_G w = Some G -> G <> 0%R.

(** A call that is made as it should be: wells and boundaries are set with success,
    boundaries only before the first step; solve and run are called after compile, on
    the vectorised path, with a solver that answers; run(check_MB=True) with at least
    one step.  set_boundary, set_all_boundaries and compile may be called at any
    time, and the first two may fail. *)
Definition proper (x : ws R) (c : call R) : Prop :=
  match c with
  | Set_well _ _ _ _ _ | Set_well_obj _ _ => snd (exec c x) = Ok tt /\ draining (fst (fst (exec c x)))
  | Set_boundaries bd => snd (exec c x) = Ok tt /\ get_tstep x = 0 /\ NoDup (map fst bd) /\ Forall (admissible (fst x)) bd
  | Set_boundary _ _ _ | Set_all_boundaries _ _ | Compile => True
  | Solve slv _ _ sparse o => snd x <> None /\ complete slv /\ known sparse (o_iso o) /\ o_vect o = true /\ o_print o = false
  | Run slv _ n _ sparse _ vect mb pr iso =>
      snd x <> None /\ complete slv /\ known sparse iso /\ vect = true /\ pr = false /\ (mb = true -> 0 < n)
  end.
(** A solve or run returns, or stops at Python's recursion limit. *)
Definition returns (x : ws R) (c : call R) : Prop :=
  stepping c -> snd (exec c x) = Ok tt \/ snd (exec c x) = Err RecursionError.
Definition succeeds (x : ws R) (c : call R) : Prop := stepping c -> snd (exec c x) = Ok tt.
(** The recursion limit is larger than the number of wells, every well has a
    positive factor and the solver's pressures never meet a limit exactly. *)
Definition enough (x : ws R) (c : call R) : Prop :=
  match c with
  | Solve slv _ fuel _ _ | Run slv _ _ fuel _ _ _ _ _ _ =>
      length (b_wells (fst x)) < fuel /\ no_tie (fst x) slv /\
      forall id w G, dget id (b_wells (fst x)) = Some w -> w_G w = Some G -> (0 < G)%R
  | _ => True
  end.

(** Grids on which wells can be set: flow along x, along z only together with y. *)
Definition drillable (g : grid) : Prop := flows g AX /\ (flows g AZ -> flows g AY).
(** A condition set_boundary understands, on a boundary cell; a gradient only on a
    cell of one face. *)
Definition acceptable (m : bo R) (idb : Z) (cond : string) : Prop :=
  (exists c, boundary_cell (gr (geom (b_grid m))) c /\ idb = natural_id (gr (geom (b_grid m))) c) /\
  (smem (lower cond) RATE = true \/ smem (lower cond) PRESS = true \/ (smem (lower cond) GRAD = true /\ face_id m idb)).
(** The permeability attributes hold the current permeabilities. *)
Definition attached (m : bo R) : Prop := forall n, att (pget n (prs (b_grid m))) = cur (pget n (prs (b_grid m))).

(** A solver for the examples: every unknown is 5. *)
Definition fives : solver_kind -> @mat R -> list (fl R) -> res (list (fl R)) := fun _ A _ => Ok (repeat (Some 5%R) (msize A)).
