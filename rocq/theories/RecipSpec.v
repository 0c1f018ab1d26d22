(** What one well does to another: vocabulary. *)
From Coq Require Import String ZArith Bool Arith List Reals.
From Verif Require Import Prelude Num GridModel BlackOilModel FdmModel BalanceSpec LocalSpec CompareSpec SuperSpec.
Import ListNotations.
Close Scope R_scope.
Open Scope nat_scope.

(** The controls of [m1] are those of [m0], but the cells [id] are given the rates
    [d id] on top: rates where there are rates or no wells, and nothing on top of
    pressures. *)
Definition rates_added (d : Z -> R) (m0 m1 : bo R) : Prop :=
  (forall id, (exists q, well_gives m0 id q /\ well_gives m1 id (q + d id)%R) \/
     (d id = 0%R /\ exists w0 w1 G p, dget id (b_wells m0) = Some w0 /\ dget id (b_wells m1) = Some w1 /\ at_bhp w0 G p /\ at_bhp w1 G p)) /\
  (forall idb, (exists r, bound_gives m0 idb r /\ bound_gives m1 idb r) \/
     (exists p, dget idb (b_bdict m0) = Some ("pressure"%string, p) /\ dget idb (b_bdict m1) = Some ("pressure"%string, p))).
(** The change of the pressure of a cell from one row to the other. *)
Definition change_at (r0 r1 : list (fl R)) (id : Z) : R :=
  match value r0 id, value r1 id with Some v0, Some v1 => (v1 - v0)%R | _, _ => 0%R end.
(** Changes weighed by rates and added up. *)
Definition weighed (d : Z -> R) (ids : list Z) (r0 r1 : list (fl R)) : R :=
  fold_right Rplus 0%R (map (fun id => (d id * change_at r0 r1 id)%R) ids).
