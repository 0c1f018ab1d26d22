(** What wells should be. *)
From Coq Require Import String ZArith Reals Bool List.
From Verif Require Import Prelude Num GridModel GridSpec GeoModel PropModel UnitsModel BlackOilModel FdmModel.
Import ListNotations.
Local Open Scope R_scope.

(** A keyword call set_well(cell_id, q, pwf, r, s). *)
Record wcall := mkWc { wc_cell : option Z; wc_q : option R; wc_pwf : option R; wc_r : option R; wc_s : option R }.
(** One call after the other; a call that raises is caught. *)
Definition wexec (x : ws R) (c : wcall) : ws R * res unit :=
  set_well (wc_cell c) (wc_q c) (wc_pwf c) (wc_r c) (wc_s c) x.
Definition wexecs (x : ws R) (l : list wcall) : ws R := fold_left (fun x c => fst (wexec x c)) l x.

(** The last value given for an argument in the calls on cell [id]. *)
Definition last_given (f : wcall -> option R) (id : Z) (l : list wcall) : option R :=
  fold_left (fun v c => match wc_cell c with
                        | Some i => if Z.eqb i id then match f c with Some a => Some a | None => v end else v
                        | None => v
                        end) l None.

(** Peaceman's equivalent radius and the productivity of a well. *)
Definition r_eq (kx ky dx dy : R) : R :=
  28 / 100 * sqrt (Rpower (ky / kx) (1/2) * dx² + Rpower (kx / ky) (1/2) * dy²) /
  (Rpower (ky / kx) (1/4) + Rpower (kx / ky) (1/4)).
Definition productivity (T kH h re r s : R) : R := 2 * PI * T * kH * h / (ln (12 * re / r) + s).

(** Everything but the well of cell [id] and its recorded pressures. *)
Definition same_elsewhere (id : Z) (x y : ws R) : Prop :=
  snd y = snd x /\
  set_wells [] (set_wp [] (fst y)) = set_wells [] (set_wp [] (fst x)) /\
  forall i, i <> id -> dget i (b_wells (fst y)) = dget i (b_wells (fst x)) /\
                       dget i (b_wp (fst y)) = dget i (b_wp (fst x)).

(** The spacing and the permeability stored for cell [id]. *)
Definition spacing_at (m : bo R) (a : axis) (id : Z) (v : R) : Prop := pyget (cd (geom (b_grid m)) a) id = Ok v.
Definition perm_at (m : bo R) (a : axis) (id : Z) (v : R) : Prop :=
  exists l, match a with
            | AX => att (p_kx (prs (b_grid m))) | AY => att (p_ky (prs (b_grid m)))
            | AZ => att (p_kz (prs (b_grid m))) | ADash => None
            end = Some l /\ pyget l id = Ok v.
(** Wells are supported where flow is along x, x and y, or all three. *)
Definition well_axes (g : grid) : Prop := flows g AX /\ (flows g AZ -> flows g AY).
(** All a well in cell [id] needs is there. *)
Definition placeable (x : ws R) (id : Z) (r : option R) : Prop :=
  wf (gr (geom (b_grid (fst x)))) /\ well_axes (gr (geom (b_grid (fst x)))) /\
  (forall a, a = AX \/ a = AY \/ a = AZ -> exists v, spacing_at (fst x) a id v) /\
  (exists k, perm_at (fst x) AX id k) /\
  (flows (gr (geom (b_grid (fst x)))) AY -> exists k, perm_at (fst x) AY id k) /\
  (exists p, get_pressure x id = Ok p) /\
  (r <> None \/ exists w, dget id (b_wells (fst x)) = Some w /\ w_r w <> None).

(** The right-hand side of an assembled system. *)
Definition right_side {F S} (r : S * res (@mat F * list (fl F))) : option (list (fl F)) :=
  match snd r with Ok (_, d) => Some d | Err _ => None end.
