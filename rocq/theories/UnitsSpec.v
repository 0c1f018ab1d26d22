(** What units, factors, compressibility and fluid gravity should be. *)
From Coq Require Import String ZArith Reals Bool List.
From Verif Require Import Prelude Num PropModel UnitsModel.
Import ListNotations.
Local Open Scope string_scope.
Local Open Scope R_scope.

(** The unit systems and the two constants that enter the gravity term. *)
Definition systems : list string := ["field"; "metric"; "lab"].
Definition earth (s : string) : R :=
  if String.eqb s "field" then 32174 / 1000 else
  if String.eqb s "metric" then 9806635 / 1000000 else 9806635 / 10000.
Definition gravity_conv (s : string) : R :=
  if String.eqb s "field" then 21584 / 100000000 else
  if String.eqb s "metric" then 1 / 1000 else 986923 / 1000000000000.
Definition trans_conv (s : string) : R :=
  if String.eqb s "field" then 1127 / 1000000 else
  if String.eqb s "metric" then 864 / 10000 else 1.
Definition volume_conv (s : string) : R :=
  if String.eqb s "field" then 5614583 / 1000000 else 1.

(** units and factors both belong to system [s]. *)
Definition in_system (o : uobj R) (s : string) : Prop :=
  u_unit o = s /\ sget s UNITS = Some (u_units o) /\
  factor o "gravitational acceleration" = Ok (earth s) /\
  factor o "transmissibility conversion" = Ok (trans_conv s) /\
  factor o "gravity conversion" = Ok (gravity_conv s) /\
  factor o "volume conversion" = Ok (volume_conv s).

(** The last name in the list that is a unit system, [d] if there is none. *)
Definition last_system (d : string) (l : list string) : string :=
  fold_left (fun s u => if smem u systems then u else s) l d.

(** A sequence of calls on one fluid; a call that raises is caught. *)
Inductive fcall :=
| FUnits (u : string) | FMu (v : R) | FB (v : R) | FRho (v : R) | FComp (v : R)
| FProps (mu B rho comp : option R).
Definition fstep (o : fobj R) (c : fcall) : fobj R :=
  match c with
  | FUnits u => fst (fset_units o u)
  | FMu v => set_mu o v
  | FB v => set_B o v
  | FRho v => fst (set_rho o v)
  | FComp v => fst (fset_comp o v)
  | FProps mu B rho comp => fst (fset_props o mu B rho comp)
  end.
Definition frun (o : fobj R) (l : list fcall) : fobj R := fold_left fstep l o.
(** The gravity term is up to date. *)
Definition gravity_ok (o : fobj R) : Prop :=
  exists rho, f_rho o = Some rho /\
    f_g o = Some (gravity_conv (u_unit (f_u o)) * rho * earth (u_unit (f_u o))).
Definition sets_rho (c : fcall) : bool :=
  match c with FRho _ | FProps _ _ (Some _) _ => true | _ => false end.
Definition sets_units (c : fcall) : bool := match c with FUnits _ => true | _ => false end.

(** comp_type as it should follow from comp. *)
Definition comp_kind (c : R) (k : option string) : Prop :=
  (k = Some "incompressible" <-> c = 0) /\ (k = Some "compressible" <-> 0 < c) /\ (k = None <-> c < 0).
(** Grid: comp, if there, and comp_type belong together. *)
Definition grid_comp_ok (p : props R) : Prop :=
  forall c, p_comp p = Some c -> comp_kind c (p_comp_type p).
Definition fluid_comp_ok (o : fobj R) : Prop :=
  exists c k, f_c o = mkCobj (Some c) (Some k) /\ comp_kind c k.
