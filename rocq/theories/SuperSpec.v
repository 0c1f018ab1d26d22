(** Superposing simulations: vocabulary. *)
From Coq Require Import String ZArith Bool Arith List Reals.
From Verif Require Import Prelude Num GridModel BlackOilModel FdmModel BalanceSpec LocalSpec CompareSpec.
Import ListNotations.
Close Scope R_scope.
Open Scope nat_scope.

(** The effects of going from [v0] to [v1] and from [v0] to [v2], in parts [a] and [b],
    added up. *)
Definition mix (a b v0 v1 v2 : R) : R := (v0 + a * (v1 - v0) + b * (v2 - v0))%R.
(** A cell's well flows at rate [q]; no well is a rate of 0. *)
Definition well_gives (m : bo R) (id : Z) (q : R) : Prop := match dget id (b_wells m) with Some w => at_rate w q | None => q = 0%R end.
Definition bound_gives (m : bo R) (idb : Z) (r : R) : Prop := match dget idb (b_bdict m) with Some e => rate_given m idb e r | None => r = 0%R end.
(** The controls of [m3] are those of [m0], [m1] and [m2] mixed, cell by cell: rates
    of rates, pressures of pressures. *)
Definition wells_mixed (a b : R) (m0 m1 m2 m3 : bo R) : Prop :=
  forall id, (exists q0 q1 q2, well_gives m0 id q0 /\ well_gives m1 id q1 /\ well_gives m2 id q2 /\ well_gives m3 id (mix a b q0 q1 q2)) \/
  (exists w0 w1 w2 w3 G p0 p1 p2, dget id (b_wells m0) = Some w0 /\ dget id (b_wells m1) = Some w1 /\ dget id (b_wells m2) = Some w2 /\ dget id (b_wells m3) = Some w3 /\
     at_bhp w0 G p0 /\ at_bhp w1 G p1 /\ at_bhp w2 G p2 /\ at_bhp w3 G (mix a b p0 p1 p2) /\ (0 <= G)%R).
Definition conditions_mixed (a b : R) (m0 m1 m2 m3 : bo R) : Prop :=
  forall idb, (exists r0 r1 r2, bound_gives m0 idb r0 /\ bound_gives m1 idb r1 /\ bound_gives m2 idb r2 /\ bound_gives m3 idb (mix a b r0 r1 r2)) \/
  (exists p0 p1 p2, dget idb (b_bdict m0) = Some ("pressure"%string, p0) /\ dget idb (b_bdict m1) = Some ("pressure"%string, p1) /\ dget idb (b_bdict m2) = Some ("pressure"%string, p2) /\
     dget idb (b_bdict m3) = Some ("pressure"%string, mix a b p0 p1 p2)).
Definition controls_mixed (a b : R) (m0 m1 m2 m3 : bo R) : Prop := wells_mixed a b m0 m1 m2 m3 /\ conditions_mixed a b m0 m1 m2 m3.
(** Every interior pressure of [r3] is that of [r0], [r1] and [r2] mixed. *)
Definition row_mixed (m : bo R) (a b : R) (r0 r1 r2 r3 : list (fl R)) : Prop :=
  forall id, In id (b_ids m) -> exists v0 v1 v2, value r0 id = Some v0 /\ value r1 id = Some v1 /\ value r2 id = Some v2 /\ value r3 id = Some (mix a b v0 v1 v2).
