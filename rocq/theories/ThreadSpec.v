(** Calls with and without threads. *)
From Coq Require Import String ZArith Bool List.
From Verif Require Import Prelude Num GridModel GeoModel PropModel BlackOilModel FdmModel HistSpec.
Import ListNotations.

Section threads.
Context {F : Type}.
(** The same call with the argument [threading=b]. *)
Definition with_threads (b : bool) (c : call F) : call F :=
  match c with
  | Solve slv sc fuel sparse o => Solve slv sc fuel sparse (mkOpts b (o_vect o) (o_mb o) (o_upd o) (o_print o) (o_iso o))
  | Run slv sc n fuel sparse _ vect mb pr iso => Run slv sc n fuel sparse b vect mb pr iso
  | _ => c
  end.
(** Two calls that differ by threads at most. *)
Definition but_threads (c c' : call F) : Prop := with_threads false c = with_threads false c'.
End threads.
(** A solver that gives these pressures. *)
Definition gives {F} (p : list F) (k : solver_kind) (A : @mat F) (d : list (option F)) : res (list (option F)) := Ok (map Some p).
