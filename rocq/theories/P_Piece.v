(** Property theorems (each one a lemma proved in [PieceThm.v]), the assumptions they
    rest on, and for each a concrete case meeting its hypotheses. *)
From Coq Require Import String ZArith Bool Arith List Lia Reals QArith.
From Verif Require Import Prelude PreludeFacts Num GridModel GeoModel PropModel BlackOilModel FdmModel MonadFacts HistSpec Samples QSamples AssemblyThm PieceSpec PieceFacts.
Import ListNotations.
Close Scope Q_scope. Close Scope R_scope.
Open Scope nat_scope.
From Verif Require Import PieceThm.
Close Scope Q_scope. Close Scope R_scope.
Open Scope nat_scope.

(** A run of a + b steps is a run of a steps followed by one of b steps. *)
Theorem C111_run_in_pieces :
  forall (F : Type) (NF : Num F) (NT : NumT F) slv sc a b fuel sparse thr vect mb pr iso (x x1 : ws F),
  exec (Run slv sc a fuel sparse thr vect mb pr iso) x = (x1, Ok tt) ->
  exec (Run slv sc b fuel sparse thr vect mb pr iso) x1 = exec (Run slv sc (a + b) fuel sparse thr vect mb pr iso) x.
Proof. exact L_C111_run_in_pieces. Qed.
Print Assumptions C111_run_in_pieces.

(** A run of n steps succeeds just when n calls of solve do, and leaves what they leave but
    for the counter nsteps, which only run advances. *)
Theorem C111_run_is_solves :
  forall (F : Type) (NF : Num F) (NT : NumT F) slv sc n fuel sparse thr vect mb pr iso (m : bo F) (s : fs F), (0 < n \/ mb = false) ->
  let c := Run slv sc n fuel sparse thr vect mb pr iso in
  let l := repeat (Solve slv sc fuel sparse (mkOpts thr vect mb true pr iso)) n in
  (snd (exec c (m, Some s)) = Ok tt <-> all_ok (m, Some s) l) /\
  (all_ok (m, Some s) l -> exists m' s', after (m, Some s) l = (m', Some s') /\ s_nsteps s' = s_nsteps s /\ fst (exec c (m, Some s)) = (m', Some (recount (s_nsteps s + n) s'))).
Proof. exact L_C111_run_is_solves. Qed.
Print Assumptions C111_run_is_solves.

(** In any successful sequence of calls every run may be replaced by that many calls of solve:
    they all succeed and the state is the same but for the counter nsteps. *)
Theorem C111_histories :
  forall (F : Type) (NF : Num F) (NT : NumT F) (l : list (call F)) (x : ws F), all_ok x l ->
  all_ok x (flat_map unrolled l) /\ same_but_count (after x l) (after x (flat_map unrolled l)).
Proof. exact L_C111_histories. Qed.
Print Assumptions C111_histories.

Example pieces :
  exists m0 : bo Q, build 3 1 1 (Some 5%Q) 1%Q None None = Ok m0 /\
  forall NT : NumT Q,
  let x := after (m0, None) [Set_boundaries [(0%Z, ("pressure"%string, 20%Q))]; Compile] in
  let slv : solver_kind -> @mat Q -> list (fl Q) -> res (list (fl Q)) := fun _ _ d => Ok d in
  let go n := Run slv oneQ n 9 true false true true false None in
  snd (exec (go 1) x) = Ok tt /\ snd (exec (go 2) x) = Ok tt /\ snd (exec (go 1) (fst (exec (go 1) x))) = Ok tt /\
  all_ok (m0, None) ([Set_boundaries [(0%Z, ("pressure"%string, 20%Q))]; Compile; go 2]) /\ length (s_p (sol m0 (fst (exec (go 2) x)))) = 3.
Proof. exact ex_pieces. Qed.
