(** Assembly of the equations: vocabulary. *)
From Coq Require Import String ZArith Bool Arith List.
From Verif Require Import Prelude Num GridModel GeoModel PropModel UnitsModel BlackOilModel FdmModel Samples.
Import ListNotations.
Set Implicit Arguments.
Local Open Scope string_scope.
Local Open Scope nat_scope.

Section fdm.
Context {F : Type} {NF : Num F}.
(** As [build], with viscosity [mu]. *)
Definition build_mu (mu : F) (x y z : nat) (comp : F) (pi : option F) : res (bo F) :=
  let one := Some (Scalar n1) in
  let* g := gobj_new x y z true (Scalar n1) (Scalar n1) (Scalar n1) one one one one None None n1 in
  let* f := fluid_new (Some mu) (Some n1) None (Some comp) "metric" in
  bo_new g f "metric" pi n1.

(** The pressures of the interior cells differ by the weight of the fluid between
    their heights. *)
Definition hydrostatic (m : bo F) (row : list (fl F)) : Prop :=
  exists zs, gz m = Ok zs /\ forall id id' p p' z z', In id (b_ids m) -> In id' (b_ids m) ->
  pyget row id = Ok (Some p) -> pyget row id' = Ok (Some p') -> pyget zs id = Ok z -> pyget zs id' = Ok z' ->
  neqb (nsub p' p) (nmul (b_g m) (nsub z' z)) = true.
(** Right side and matrix entries of an assembled system. *)
Definition right_side (r : res (@mat F * list (fl F))) : res (list (fl F)) := let* Ad := r in Ok (snd Ad).
Definition entry (r : res (@mat F * list (fl F))) (p q : nat) : res F := let* Ad := r in Ok (ment (fst Ad) p q).
(** A closed model: no wells, no boundary conditions. *)
Definition closed (m : bo F) : Prop := b_wells m = [] /\ b_bdict m = [] /\ b_bup m = [].
End fdm.
