(** The flow equation of one cell, and the recorded rates: vocabulary. *)
From Coq Require Import String ZArith Bool Arith List Reals.
From Verif Require Import Prelude Num GridModel GridSpec GeoModel PropModel BlackOilModel FdmModel HistSpec BalanceSpec.
Import ListNotations.
Close Scope R_scope.
Open Scope nat_scope.

(** An entry of a table of numbers. *)
Definition entry_of (l : list R) (id : Z) : fl R := match pyget l id with Ok v => Some v | Err _ => None end.
(** What flows into cell [id] from the cells [l]: transmissibility times the
    difference of pressure less the weight of the fluid between the heights. *)
Definition from_cells (gamma : R) (T : list (Z * R)) (zs : list R) (row : list (fl R)) (id : Z) (l : list Z) : fl R :=
  fsum (map (fun j => fmul (dget j T) (fsub (fsub (value row j) (value row id)) (fmul (Some gamma) (fsub (entry_of zs j) (entry_of zs id))))) l).
(** The flow equation of cell [id] in one step: what flows in from the
    neighbours, the recorded rate of the cell (its well) and the recorded rates
    of its boundary cells make up what the cell takes up. *)
Definition cell_balance (m : bo R) (old new rates : list (fl R)) (id : Z) : Prop :=
  exists nb bn T zs v,
    get_cell_neighbors (bgrid m) id false = Ok nb /\ get_cell_boundaries (bgrid m) id = Ok bn /\
    get_cell_trans m id true = Ok T /\ gz m = Ok zs /\
    fadd (fadd (from_cells (b_g m) T zs new id (dirs_list nb)) (value rates id)) (fsum (map (value rates) (dirs_list bn))) = Some v /\
    if b_cmp m then fmul (Some (nth (Z.to_nat id) (b_RHS m) 0%R)) (fsub (value new id) (value old id)) = Some v else v = 0%R.

(** The rate of a well by its mode: the rate set, or the productivity times the
    drawdown to the bottom-hole pressure set. *)
Definition well_obeys (m : bo R) (w : well R) (p r : fl R) : Prop :=
  (w_con w = Some (Some "q"%string) /\ exists q, w_qsp w = Some q /\ r = Some q) \/
  (w_con w = Some (Some "pwf"%string) /\ exists G pw p0, w_G w = Some G /\ w_pwfsp w = Some pw /\ p = Some p0 /\
     r = Some (- (G / (b_B m * b_mu m)) * (p0 - pw))%R).
(** The rate over a boundary cell at pressure [v]: twice the transmissibility to
    its only neighbour times the difference of pressure less weight. *)
Definition pressure_rate (m : bo R) (new : list (fl R)) (idb : Z) (v : R) (r : fl R) : Prop :=
  exists id T zs, get_cell_trans m idb false = Ok [(id, T)] /\ gz m = Ok zs /\
    r = fmul (Some (2 * T)%R) (fsub (fsub (Some v) (value new id)) (fmul (Some (b_g m)) (fsub (entry_of zs idb) (entry_of zs id)))) /\ r <> None.
(** The rate of a gradient [v] on a boundary cell: transmissibility to its only
    neighbour, times the length of that cell along the flow, times the gradient. *)
Definition gradient_rate (m : bo R) (idb : Z) (v r : R) : Prop :=
  exists id T a nb d, get_cell_trans m idb false = Ok [(id, T)] /\ get_cell_neighbors (bgrid m) idb false = Ok nb /\
    In id (dirs_get a nb) /\ pyget (gd m a) id = Ok d /\ r = (T * d * v)%R.
