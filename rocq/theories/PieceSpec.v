(** Runs in pieces: vocabulary. *)
From Coq Require Import String ZArith Bool Arith List.
From Verif Require Import Prelude Num BlackOilModel FdmModel HistSpec.
Import ListNotations.
Open Scope nat_scope.

Section piece.
Context {F : Type} {NF : Num F} {NT : NumT F}.
(** The same solution with [k] for its counter nsteps. *)
Definition recount (k : nat) (s : fs F) : fs F :=
  mkFs (s_p s) (s_r s) k (s_tstep s) (s_As s) (s_ds s) (s_A s) (s_res s) (s_bv s) (s_sym s) (s_err s) (s_cum s).
(** Two states are the same but for that counter. *)
Definition same_but_count (x y : ws F) : Prop :=
  fst y = fst x /\ match snd x, snd y with Some s, Some s' => exists k, s' = recount k s | None, None => True | _, _ => False end.
(** The steps a call of run makes, as calls of solve. *)
Definition unrolled (c : call F) : list (call F) :=
  match c with
  | Run slv sc n fuel sparse thr vect mb pr iso => repeat (Solve slv sc fuel sparse (mkOpts thr vect mb true pr iso)) n
  | _ => [c]
  end.
End piece.
