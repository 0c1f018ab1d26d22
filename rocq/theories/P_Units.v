(** Property theorems (each one a lemma proved in [UnitsThm.v]), the assumptions they
    rest on, and for each a concrete case meeting its hypotheses. *)
From Coq Require Import String ZArith Reals Bool Lra Lia List.
From Verif Require Import Prelude PreludeFacts Num GridModel GeoModel PropModel PropSpec PropProofs UnitsModel UnitsSpec.
Import ListNotations.
Local Open Scope string_scope.
Local Open Scope R_scope.
From Verif Require Import UnitsThm.
Local Open Scope string_scope.
Local Open Scope R_scope.

(** Whatever set_units is called with, units and factors belong to the last
    accepted unit system; an unknown name raises ValueError and changes nothing. *)
Theorem C27_units_follow :
  forall (o : uobj R) (s : string) (l : list string) (u : string),
  in_system o s ->
  let o' := fold_left (fun o u => fst (set_units o u)) l o in
  in_system o' (last_system s l) /\
  (In u systems -> snd (set_units o' u) = Ok tt /\ in_system (fst (set_units o' u)) u) /\
  (~ In u systems -> set_units o' u = (o', Err ValueError)).
Proof. exact L_C27_units_follow. Qed.
Print Assumptions C27_units_follow.

Example C27_hyps : in_system uobj0 "field" /\ last_system "field" ["lab"; "LAB"; "metric"; "si"] = "metric".
Proof. exact ex_C27_hyps. Qed.

(** Every quantity has a unit in each system: the three tables name the same
    quantities, and every conversion factor is among them. *)
Theorem C81_tables :
  forall s t q, In s systems -> In t systems ->
  (exists u, sget q (sfind s UNITS) = Some u) ->
  (exists u, sget q (sfind t UNITS) = Some u) /\
  (forall v, sget q (sfind s (FACTORS (F := R))) = Some v -> 0 < v /\ exists v', sget q (sfind t (FACTORS (F := R))) = Some v').
Proof. exact L_C81_tables. Qed.
Print Assumptions C81_tables.

Example C81_hyps :
  In "lab" systems /\ (exists u, sget "pressure" (sfind "lab" UNITS) = Some u) /\
  (exists v, sget "volume conversion" (sfind "lab" (FACTORS (F := R))) = Some v).
Proof. exact ex_C81_hyps. Qed.

(** comp_type follows comp on fluids and grids after any sequence of calls,
    including rejected ones; set_comp accepts exactly the values >= 0. *)
Theorem C25_comp_type :
  (forall mu B rho comp u o l, fluid_new mu B rho comp u = Ok o -> fluid_comp_ok (frun o l)) /\
  (forall g l, grid_comp_ok (run_sets g props0 l)) /\
  (forall c : R, (0 <= c -> snd (cset c) = Ok tt) /\ (c < 0 -> snd (cset c) = Err ValueError) /\
     exists k, fst (cset c) = mkCobj (Some c) (Some k) /\ comp_kind c k) /\
  (forall (p : props R) (c : R), snd (set_comp p c) = snd (cset c) /\
     Some (p_comp_type (fst (set_comp p c))) = c_type (fst (cset c)) /\ p_comp (fst (set_comp p c)) = Some c).
Proof. exact L_C25_comp_type. Qed.
Print Assumptions C25_comp_type.

Example C25_hyps : exists o, fluid_new (F := R) (Some 1) (Some 1) None (Some (-1)) "metric" = Err ValueError /\
  fluid_new (F := R) (Some 1) (Some 1) None None "metric" = Ok o.
Proof. exact ex_C25_hyps. Qed.

(** A rejected compressibility stays in the object. *)
Theorem C25_rejected_refuted :
  exists (o : fobj R) (p : props R) (c : R),
  snd (fset_comp o c) = Err ValueError /\ c_comp (f_c o) = Some 0 /\ c_comp (f_c (fst (fset_comp o c))) = Some c /\
  snd (set_comp p c) = Err ValueError /\ p_comp p = Some 0 /\ p_comp (fst (set_comp p c)) = Some c.
Proof. exact L_C25_rejected_refuted. Qed.
Print Assumptions C25_rejected_refuted.

(** The gravity term of a fluid is up to date as long as the units were not
    changed since the density was last given (or since construction), whatever
    else was called before and after, successfully or not. *)
Theorem C28_gravity_partial :
  forall mu B rho comp u o l1 l2,
  fluid_new mu B rho comp u = Ok o ->
  (forall c, In c l2 -> sets_units c = false) ->
  (l1 = [] -> gravity_ok (frun o l2)) /\
  (forall c, sets_rho c = true -> gravity_ok (frun o (l1 ++ c :: l2))).
Proof. exact L_C28_gravity_partial. Qed.
Print Assumptions C28_gravity_partial.

Example C28_hyps : exists o, fluid_new (F := R) (Some 1) (Some 1) (Some 50) (Some 0) "field" = Ok o /\
  sets_rho (FProps None None (Some 60) (Some (-1))) = true.
Proof. exact ex_C28_hyps. Qed.

(** Changing the units leaves the old gravity term behind. *)
Theorem C28_gravity_refuted :
  exists o, fluid_new (Some 1) (Some 1) (Some 50) None "field" = Ok o /\ gravity_ok o /\
  ~ gravity_ok (frun o [FUnits "metric"]).
Proof. exact L_C28_gravity_refuted. Qed.
Print Assumptions C28_gravity_refuted.
