(** Model of base.py (units and conversion factors) and of the fluid classes
    (/repo/reservoirflow/base.py, fluids/fluid.py, fluids/single_phase.py).
    Definitions only. *)
From Coq Require Import String ZArith Bool List.
From Verif Require Import Prelude Num.
Import ListNotations.
Set Implicit Arguments.
Local Open Scope string_scope.

(** Dictionaries with string keys. *)
Fixpoint sget {A} (k : string) (d : list (string * A)) : option A :=
  match d with
  | [] => None
  | (k', v) :: d' => if String.eqb k k' then Some v else sget k d'
  end.
Fixpoint sset {A} (k : string) (v : A) (d : list (string * A)) : list (string * A) :=
  match d with
  | [] => [(k, v)]
  | (k', v') :: d' => if String.eqb k k' then (k', v) :: d' else (k', v') :: sset k v d'
  end.

(** base.py:3-100 UNITS *)
Definition UNITS : list (string * list (string * string)) := [
 ("field", [
  ("transmissibility", "stb/(day.psi)"); ("error", "stb/day"); ("pressure", "psia");
  ("potential", "psia"); ("time", "days"); ("rate", "stb/day"); ("length", "ft");
  ("area", "ft^2"); ("volume", "ft^3"); ("permeability", "md"); ("viscosity", "cp");
  ("gas formation volume factor", "bbl/scf"); ("liquid formation volume factor", "bbl/stb");
  ("solution gas oil ratio", "scf/stb"); ("phase gravity", "psi/ft"); ("gas flow rate", "scf/day");
  ("liquid flow rate", "stb/day"); ("volumetric velocity", "bbl/(day.ft^2)");
  ("density", "lbm/ft^3"); ("compressibility", "psi^{-1}");
  ("compressibility factor", "dimensionless"); ("temperature", "R"); ("porosity", "fraction");
  ("saturation", "fraction"); ("relative permeability", "fraction"); ("angle", "rad");
  ("gravitational acceleration", "ft/(sec^2)"); ("transmissibility conversion", "dimensionless");
  ("gravity conversion", "dimensionless"); ("volume conversion", "dimensionless")]);
 ("metric", [
  ("transmissibility", "m^3/(day.bar)"); ("error", "m^3/day"); ("pressure", "kpa");
  ("potential", "kpa"); ("time", "days"); ("rate", "m^3/day"); ("length", "m");
  ("area", "m^2"); ("volume", "m^3"); ("permeability", "m^2"); ("viscosity", "mpa.sec");
  ("gas formation volume factor", "m^3/(std\,m^3)"); ("liquid formation volume factor", "m^3/(std\,m^3)");
  ("solution gas oil ratio", "(std\,m^3)/(std\,m^3)"); ("phase gravity", "kpa/m");
  ("gas flow rate", "(std\,m^3)/day"); ("liquid flow rate", "(std\,m^3)/day");
  ("volumetric velocity", "m/day"); ("density", "kg/m^3"); ("compressibility", "kpa^{-1}");
  ("compressibility factor", "dimensionless"); ("temperature", "K"); ("porosity", "fraction");
  ("saturation", "fraction"); ("relative permeability", "fraction"); ("angle", "rad");
  ("gravitational acceleration", "m/(sec^2)"); ("transmissibility conversion", "dimensionless");
  ("gravity conversion", "dimensionless"); ("volume conversion", "dimensionless")]);
 ("lab", [
  ("transmissibility", "cm^3/(sec.atm)"); ("error", "cm^3/sec"); ("pressure", "atm");
  ("potential", "atm"); ("time", "sec"); ("rate", "cm^3/sec"); ("length", "cm");
  ("area", "cm^2"); ("volume", "cm^3"); ("permeability", "darcy"); ("viscosity", "cp");
  ("gas formation volume factor", "cm^3/(std\,cm^3)"); ("liquid formation volume factor", "cm^3/(std\,cm^3)");
  ("solution gas oil ratio", "(std\,cm^3)/(std\,cm^3)"); ("phase gravity", "atm/cm");
  ("gas flow rate", "(std\,cm^3)/day"); ("liquid flow rate", "(std\,cm^3)/day");
  ("volumetric velocity", "cm/day"); ("density", "g/cm^3"); ("compressibility", "atm^{-1}");
  ("compressibility factor", "dimensionless"); ("temperature", "K"); ("porosity", "fraction");
  ("saturation", "fraction"); ("relative permeability", "fraction"); ("angle", "rad");
  ("gravitational acceleration", "cm/(sec^2)"); ("transmissibility conversion", "dimensionless");
  ("gravity conversion", "dimensionless"); ("volume conversion", "dimensionless")])].

Section units.
Context {F : Type} {NF : Num F}.

(** A decimal literal m / 10^e. *)
Definition dec (m : Z) (e : Z) : F := ndiv (nofZ m) (nofZ (10 ^ e)).

(** base.py:102-121 FACTORS *)
Definition FACTORS : list (string * list (string * F)) := [
 ("field", [("gravitational acceleration", dec 32174 3); ("transmissibility conversion", dec 1127 6);
            ("gravity conversion", dec 21584 8); ("volume conversion", dec 5614583 6)]);
 ("metric", [("gravitational acceleration", dec 9806635 6); ("transmissibility conversion", dec 864 4);
             ("gravity conversion", dec 1 3); ("volume conversion", nofZ 1)]);
 ("lab", [("gravitational acceleration", dec 9806635 4); ("transmissibility conversion", nofZ 1);
          ("gravity conversion", dec 986923 12); ("volume conversion", nofZ 1)])].

(** The attributes unit, units and factors of an object. *)
Record uobj := mkUobj { u_unit : string; u_units : list (string * string); u_factors : list (string * F) }.
Definition sfind {A} (k : string) (d : list (string * list A)) : list A :=
  match sget k d with Some l => l | None => [] end.
(** base.py:211-241: class attributes. *)
Definition uobj0 : uobj := mkUobj "field" (sfind "field" UNITS) (sfind "field" FACTORS).
(** base.py:281-301 set_units *)
Definition set_units (o : uobj) (unit : string) : uobj * res Datatypes.unit :=
  match sget unit UNITS, sget unit FACTORS with
  | Some u, Some f => (mkUobj unit u f, Ok tt)
  | Some u, None => (mkUobj unit u (u_factors o), Err KeyError)
  | None, _ => (o, Err ValueError)
  end.
(** self.factors[name] *)
Definition factor (o : uobj) (name : string) : res F :=
  match sget name (u_factors o) with Some v => Ok v | None => Err KeyError end.

(** comp and comp_type of a fluid or a model; None: no such attribute. *)
Record cobj := mkCobj { c_comp : option F; c_type : option (option string) }.
(** fluid.py:44-64 and model.py:54-75 set_comp (grid.py:70-90 is the same and
    modelled in PropModel.v): the attribute is set before the check. *)
Definition cset (comp : F) : cobj * res Datatypes.unit :=
  if neqb comp n0 then (mkCobj (Some comp) (Some (Some "incompressible")), Ok tt)
  else if nltb n0 comp then (mkCobj (Some comp) (Some (Some "compressible")), Ok tt)
  else (mkCobj (Some comp) (Some None), Err ValueError).

(** single_phase.py: attributes of a SinglePhase fluid. *)
Record fobj := mkFobj {
  f_u : uobj; f_mu : option F; f_B : option F; f_rho : option F; f_g : option F; f_c : cobj }.
(** single_phase.py:92-110 *)
Definition set_mu (o : fobj) (mu : F) : fobj := mkFobj (f_u o) (Some mu) (f_B o) (f_rho o) (f_g o) (f_c o).
Definition set_B (o : fobj) (B : F) : fobj := mkFobj (f_u o) (f_mu o) (Some B) (f_rho o) (f_g o) (f_c o).
(** single_phase.py:112-125 set_rho: rho is set before the product is computed. *)
Definition set_rho (o : fobj) (rho : F) : fobj * res Datatypes.unit :=
  let o := mkFobj (f_u o) (f_mu o) (f_B o) (Some rho) (f_g o) (f_c o) in
  match (let* a := factor (f_u o) "gravity conversion" in
         let* b := factor (f_u o) "gravitational acceleration" in Ok (nmul (nmul a rho) b)) with
  | Ok g => (mkFobj (f_u o) (f_mu o) (f_B o) (Some rho) (Some g) (f_c o), Ok tt)
  | Err e => (o, Err e)
  end.
Definition fset_comp (o : fobj) (comp : F) : fobj * res Datatypes.unit :=
  let (c, r) := cset comp in (mkFobj (f_u o) (f_mu o) (f_B o) (f_rho o) (f_g o) c, r).
Definition fset_units (o : fobj) (unit : string) : fobj * res Datatypes.unit :=
  let (u, r) := set_units (f_u o) unit in (mkFobj u (f_mu o) (f_B o) (f_rho o) (f_g o) (f_c o), r).
(** Statements one after the other; an exception ends the call. *)
Definition andthen {S} (x : S * res Datatypes.unit) (f : S -> S * res Datatypes.unit) : S * res Datatypes.unit :=
  match x with (s, Ok _) => f s | _ => x end.
Definition opt {A S} (v : option A) (f : A -> S -> S * res Datatypes.unit) (s : S) : S * res Datatypes.unit :=
  match v with Some a => f a s | None => (s, Ok tt) end.
(** single_phase.py:127-160 set_props *)
Definition fset_props (o : fobj) (mu B rho comp : option F) : fobj * res Datatypes.unit :=
  let s := opt mu (fun v o => (set_mu o v, Ok tt)) o in
  let s := andthen s (opt B (fun v o => (set_B o v, Ok tt))) in
  let s := andthen s (opt rho (fun v o => set_rho o v)) in
  let s := andthen s (opt comp (fun v o => fset_comp o v)) in
  let s := andthen s (fun o => match f_rho o with None => set_rho o n0 | Some _ => (o, Ok tt) end) in
  andthen s (fun o => match c_comp (f_c o) with None => fset_comp o n0 | Some _ => (o, Ok tt) end).
(** base.py:277, single_phase.py:89-90: the constructor. *)
Definition fluid_new (mu B rho comp : option F) (unit : string) : res fobj :=
  match set_units uobj0 unit with
  | (_, Err e) => Err e
  | (u, Ok _) =>
      match fset_props (mkFobj u None None None None (mkCobj None None)) mu B rho comp with
      | (o, Ok _) => Ok o
      | (_, Err e) => Err e
      end
  end.
End units.
Arguments uobj : clear implicits. Arguments cobj : clear implicits. Arguments fobj : clear implicits.
