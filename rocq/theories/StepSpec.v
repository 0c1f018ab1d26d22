(** What a time step may and may not change: vocabulary. *)
From Coq Require Import String ZArith Bool Arith List.
From Verif Require Import Prelude Num GridModel GeoModel PropModel BlackOilModel FdmModel HistSpec.
Import ListNotations.
Set Implicit Arguments.

Section step.
Context {F : Type} {NF : Num F} {NT : NumT F}.
Notation solver := (solver_kind -> @mat F -> list (fl F) -> res (list (fl F))).

(** As many rows of pressures and of rates as steps, plus the initial one. *)
Definition shaped (s : fs F) : Prop := length (s_p s) = S (s_tstep s) /\ length (s_r s) = S (s_tstep s).

(** Everything observable about the results: pressures, rates, counters, stored
    systems, balance errors. *)
Definition results (s : fs F) :=
  (s_p s, s_r s, (s_nsteps s, s_tstep s), (s_As s, s_ds s), (s_err s, s_cum s)).
(** Everything the user sets on the model. *)
Definition settings (m : bo F) := (b_ip m, b_ir m, (b_wells m, b_wp m), (b_bdict m, b_bup m)).

(** A run, or anything but a direct call of solve. *)
Definition no_solve (c : call F) : Prop := match c with Solve _ _ _ _ _ => False | _ => True end.
(** Every solve and run of the call uses these options. *)
Definition updating (c : call F) : Prop := match c with Solve _ _ _ _ o => o_upd o = true | _ => True end.

(** Matrices with the same size and entries. *)
Definition meq (A B : @mat F) : Prop := msize A = msize B /\ forall i j, ment A i j = ment B i j.
Definition same_system (x y : res (@mat F * list (fl F))) : Prop :=
  match x, y with
  | Ok (A, d), Ok (B, e) => meq A B /\ d = e
  | Err e, Err e' => e = e'
  | _, _ => False
  end.
(** A call of solve(update=False). *)
Definition dry (sc : Z -> F) (c : call F) : Prop :=
  match c with Solve _ sc' _ _ o => o_upd o = false /\ sc' = sc | _ => False end.
End step.
