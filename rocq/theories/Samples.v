(** Small models used in examples and refutations, built by the modelled
    constructors.  Definitions only. *)
From Coq Require Import String ZArith Bool Arith List.
From Verif Require Import Prelude Num GridModel GeoModel PropModel UnitsModel BlackOilModel FdmModel.
Import ListNotations.
Local Open Scope string_scope.
Local Open Scope nat_scope.

Section samples.
Context {F : Type} {NF : Num F}.
(** A grid of x*y*z unit cells with permeability and porosity 1 and heights
    [zz], a fluid of viscosity 1, factor 1, density [rho] and compressibility
    [comp]; initial pressure [pi] and time step 1. *)
Definition build (x y z : nat) (rho : option F) (comp : F) (pi : option F) (zz : option (dinput F)) : res (bo F) :=
  let one := Some (Scalar n1) in
  let* g := gobj_new x y z true (Scalar n1) (Scalar n1) (Scalar n1) one one one one zz None n1 in
  let* f := fluid_new (Some n1) (Some n1) rho (Some comp) "metric" in
  bo_new g f "metric" pi n1.

(** The grid of [build 3 1 1 rho comp pi None]. *)
Definition gline3 : gobj F :=
  let u := [n1; n1; n1; n1; n1] in let z := [n0; n0; n0; n0; n0] in
  mkGobj (mkGeo (mkGrid 3 1 1 true) u u u u u u)
    (mkProps (mkProp (Some u) (Some u) true) (mkProp (Some u) (Some u) true) (mkProp (Some u) (Some u) true)
             (mkProp (Some u) (Some u) true) (mkProp (Some z) (Some z) true) (Some n0) (Some "incompressible")) n1.
End samples.
