(** Reservoirs turned round: vocabulary. *)
From Coq Require Import String ZArith Bool Arith List Reals.
From Verif Require Import Prelude Num GridModel GridSpec GeoModel PropModel UnitsModel BlackOilModel FdmModel BalanceSpec LocalSpec CompareSpec.
Import ListNotations.
Close Scope R_scope.
Open Scope nat_scope.

(** The coordinate counted from the other end, if the axis is turned. *)
Definition mirror (n : nat) (r : bool) (i : Z) : Z := if r then (padded n - 1 - i)%Z else i.
(** A cell's place when the axes [r] are turned round. *)
Definition turn (g : grid) (r : bool * bool * bool) (c : coord) : coord :=
  match r, c with (rx, ry, rz), (i, j, k) => (mirror (nx g) rx i, mirror (ny g) ry j, mirror (nz g) rz k) end.
(** A property of a cell: as get_prop reads it, and as the attribute holds it. *)
Definition reading (o : gobj R) (n : pname) (id : Z) : res R := let* l := get_prop o n true in pyget l id.
Definition held (o : gobj R) (n : pname) (id : Z) : res R := let* l := attrE (att (pget n (prs o))) in pyget l id.
(** The grid [o'] is [o] turned round: the same shape, the same rock compressibility,
    and every cell, also of the boundary, has the size and the properties that the cell
    in its place has in [o]. *)
Record turned (r : bool * bool * bool) (o o' : gobj R) : Prop := {
  tn_shape : gr (geom o') = gr (geom o);
  tn_T : tfac o' = tfac o;
  tn_comp : p_comp (prs o') = p_comp (prs o) /\ p_comp_type (prs o') = p_comp_type (prs o);
  tn_d : forall a c, a <> ADash -> in_grid (gr (geom o)) c ->
    get_cell_d (geom o') a (ById (natural_id (gr (geom o)) (turn (gr (geom o)) r c))) = get_cell_d (geom o) a (ById (natural_id (gr (geom o)) c));
  tn_p : forall n c, in_grid (gr (geom o)) c -> reading o' n (natural_id (gr (geom o)) (turn (gr (geom o)) r c)) = reading o n (natural_id (gr (geom o)) c);
  tn_a : forall n c, in_grid (gr (geom o)) c -> held o' n (natural_id (gr (geom o)) (turn (gr (geom o)) r c)) = held o n (natural_id (gr (geom o)) c) }.
(** The controls of [m'] are those of [m] turned round: wells of the same mode and the
    same set point, and the same conditions, on the cells turned round. *)
Definition wells_turned (r : bool * bool * bool) (m m' : bo R) : Prop :=
  let g := gr (geom (b_grid m)) in
  forall c, interior g c -> match dget (natural_id g c) (b_wells m), dget (natural_id g (turn g r c)) (b_wells m') with
  | Some w, Some w' => (exists q, at_rate w q /\ at_rate w' q) \/ (exists G p, at_bhp w G p /\ at_bhp w' G p /\ (0 <= G)%R)
  | None, None => True
  | _, _ => False
  end.
(** The same with productivities [e] times as large in [m']. *)
Definition wells_scaled (e : R) (r : bool * bool * bool) (m m' : bo R) : Prop :=
  let g := gr (geom (b_grid m)) in
  forall c, interior g c -> match dget (natural_id g c) (b_wells m), dget (natural_id g (turn g r c)) (b_wells m') with
  | Some w, Some w' => (exists q, at_rate w q /\ at_rate w' q) \/ (exists G p, at_bhp w G p /\ at_bhp w' (e * G)%R p /\ (0 <= G)%R)
  | None, None => True
  | _, _ => False
  end.
Definition conditions_turned (r : bool * bool * bool) (m m' : bo R) : Prop :=
  let g := gr (geom (b_grid m)) in
  forall c, boundary_cell g c -> dget (natural_id g (turn g r c)) (b_bdict m') = dget (natural_id g c) (b_bdict m).
(** The second row has the pressures of the first, cells turned round. *)
Definition row_turned (g : grid) (r : bool * bool * bool) (r1 r2 : list (fl R)) : Prop :=
  forall c, interior g c -> exists v, value r1 (natural_id g c) = Some v /\ value r2 (natural_id g (turn g r c)) = Some v.
(** The same for rates, of boundary cells too. *)
Definition rates_turned (g : grid) (r : bool * bool * bool) (r1 r2 : list (fl R)) : Prop :=
  forall c, in_grid g c -> exists v, value r1 (natural_id g c) = Some v /\ value r2 (natural_id g (turn g r c)) = Some v.

(** ** Reservoirs raised *)
(** The grid [o'] is [o] raised by [h]: shape, sizes and permeabilities are the same and
    every height is [h] more. Porosities and compressibilities may differ. *)
Record raised (h : R) (o o' : gobj R) : Prop := {
  ra_shape : gr (geom o') = gr (geom o);
  ra_T : tfac o' = tfac o;
  ra_d : forall a c, a <> ADash -> in_grid (gr (geom o)) c ->
    get_cell_d (geom o') a (ById (natural_id (gr (geom o)) c)) = get_cell_d (geom o) a (ById (natural_id (gr (geom o)) c));
  ra_k : forall n c, In n [KX; KY; KZ] -> in_grid (gr (geom o)) c -> reading o' n (natural_id (gr (geom o)) c) = reading o n (natural_id (gr (geom o)) c);
  ra_z : forall c, in_grid (gr (geom o)) c -> exists v, held o ZED (natural_id (gr (geom o)) c) = Ok v /\ held o' ZED (natural_id (gr (geom o)) c) = Ok (v + h)%R }.
(** What an interior cell stores per volume, pressure and time. *)
Definition stored (m : bo R) (c : coord) (v : R) : Prop :=
  exists phi, held (b_grid m) PHI (natural_id (gr (geom (b_grid m))) c) = Ok phi /\ v = (phi * b_comp m / b_dt m)%R.
Definition same_storage (m m' : bo R) : Prop :=
  forall c, interior (gr (geom (b_grid m))) c -> exists v, stored m c v /\ stored m' c v.
(** Fluids that flow alike. *)
Definition flow_alike (f f' : fobj R) : Prop := f_mu f' = f_mu f /\ f_B f' = f_B f /\ f_g f' = f_g f.
(** The pressures of the interior cells are the same. *)
Definition same_pressures (g : grid) (r1 r2 : list (fl R)) : Prop :=
  forall c, interior g c -> exists v, value r1 (natural_id g c) = Some v /\ value r2 (natural_id g c) = Some v.
(** The rates of all cells, boundary cells too, are the same. *)
Definition same_rates (g : grid) (r1 r2 : list (fl R)) : Prop :=
  forall c, in_grid g c -> exists v, value r1 (natural_id g c) = Some v /\ value r2 (natural_id g c) = Some v.

(** ** Reservoirs more permeable *)
(** The grid [o'] is [o] raised by [h] with all permeabilities [e] times as large. *)
Record eased (e h : R) (o o' : gobj R) : Prop := {
  ea_pos : (0 < e)%R;
  ea_shape : gr (geom o') = gr (geom o);
  ea_T : tfac o' = tfac o;
  ea_d : forall a c, a <> ADash -> in_grid (gr (geom o)) c ->
    get_cell_d (geom o') a (ById (natural_id (gr (geom o)) c)) = get_cell_d (geom o) a (ById (natural_id (gr (geom o)) c));
  ea_k : forall n c, In n [KX; KY; KZ] -> in_grid (gr (geom o)) c -> reading o' n (natural_id (gr (geom o)) c) = let* k := reading o n (natural_id (gr (geom o)) c) in Ok (e * k)%R;
  ea_z : forall c, in_grid (gr (geom o)) c -> exists v, held o ZED (natural_id (gr (geom o)) c) = Ok v /\ held o' ZED (natural_id (gr (geom o)) c) = Ok (v + h)%R }.
(** Fluids of the same gravity with viscosity times volume factor [e] times as large. *)
Definition thicker (e : R) (f f' : fobj R) : Prop :=
  exists mu B mu' B', f_mu f = Some mu /\ f_B f = Some B /\ f_mu f' = Some mu' /\ f_B f' = Some B' /\ (mu' * B' = e * (mu * B))%R /\ f_g f' = f_g f.
(** What an interior cell stores per volume, pressure and time, measured at the surface. *)
Definition stored_out (m : bo R) (c : coord) (v : R) : Prop :=
  exists phi, held (b_grid m) PHI (natural_id (gr (geom (b_grid m))) c) = Ok phi /\ v = (phi * b_comp m / (b_B m * b_dt m))%R.
Definition same_storage_out (m m' : bo R) : Prop :=
  forall c, interior (gr (geom (b_grid m))) c -> exists v, stored_out m c v /\ stored_out m' c v.
