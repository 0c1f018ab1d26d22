(** Property theorems (each one a lemma proved in [MemoThm.v]), the assumptions they
    rest on, and for each a concrete case meeting its hypotheses. *)
From Coq Require Import String ZArith Bool Arith List Lia Reals Lra QArith.
From Verif Require Import Prelude PreludeFacts Num GridModel GridSpec GeoModel GeoSpec PropModel PropSpec BlackOilModel FdmModel MonadFacts HistSpec InvFacts ModelSpec Samples QSamples SampleWell SampleBal AssemblyThm SolverSpec SolveSpec BalanceSpec LocalSpec ChangeSpec TotalFacts BalanceThm ChangeThm MemoModel MemoSpec MemoFacts.
Import ListNotations.
Close Scope Q_scope. Close Scope R_scope.
Open Scope nat_scope.
From Verif Require Import MemoThm.
Close Scope Q_scope. Close Scope R_scope.
Open Scope nat_scope.

(** The cache of the boundary terms is not seen if set_boundaries is not called after
    the first step of a solution: every call returns or raises and leaves what it would
    without the cache. *)
Theorem C112_boundaries_first :
  forall (m : bo R) (l : list (call R)), boundaries_first false l ->
  fst (after_m (m, None, memo0) l) = after (m, None) l /\ outcomes_m (m, None, memo0) l = outcomes (m, None) l.
Proof. exact L_C112_boundaries_first. Qed.
Print Assumptions C112_boundaries_first.

(** More generally if, once stepped, the conditions stay: all of them, or (vectorised
    steps only) those of the boundaries with a prescribed pressure. *)
Theorem C112_undisturbed :
  forall vect (m : bo R) (l : list (call R)), undisturbed vect false (m, None) l ->
  fst (after_m (m, None, memo0) l) = after (m, None) l /\ outcomes_m (m, None, memo0) l = outcomes (m, None) l.
Proof. exact L_C112_undisturbed. Qed.
Print Assumptions C112_undisturbed.

(** In particular with the changes of controls of C96: new rates, wells and limits
    between the steps, the prescribed pressures staying. *)
Theorem C112_changed_controls :
  forall (g : gobj R) f unit pi dt m0 l1 ob l2 hist, bo_new g f unit pi dt = Ok m0 -> plain m0 l1 ob l2 ->
  all_ok (m0, None) (setup l1 ob l2 ++ Compile :: hist) -> along live (after (m0, None) (setup l1 ob l2 ++ [Compile])) hist ->
  fst (after_m (m0, None, memo0) (setup l1 ob l2 ++ Compile :: hist)) = after (m0, None) (setup l1 ob l2 ++ Compile :: hist) /\
  outcomes_m (m0, None, memo0) (setup l1 ob l2 ++ Compile :: hist) = outcomes (m0, None) (setup l1 ob l2 ++ Compile :: hist).
Proof. exact L_C112_changed_controls. Qed.
Print Assumptions C112_changed_controls.

(** It is seen otherwise.  Incompressible: a boundary pressure changed from 20 to 40
    after a step; the next step records the boundary rate of 20.  And a step at time 0
    that is not kept (update=False) fixes the boundary pressure of all later steps. *)
Theorem C112_cache_seen_refuted :
  exists m0 : bo Q, build 3 1 1 None 0%Q (Some 10%Q) None = Ok m0 /\
  forall NT : NumT Q,
  let edge v := Set_boundaries [(0%Z, ("pressure"%string, v))] in
  let look := Solve cramer3 oneQ 9 true (mkOpts false true false false false None) in
  let step := Solve cramer3 oneQ 9 true vectorial in
  let l1 := [edge 20%Q; Compile; step; edge 40%Q; step] in
  let l2 := [edge 20%Q; Compile; look; edge 40%Q; step] in
  outcomes_m (m0, None, memo0) l1 = repeat (Ok tt) 5 /\ outcomes (m0, None) l1 = repeat (Ok tt) 5 /\
  at2 (s_r (sol m0 (fst (after_m (m0, None, memo0) l1)))) 2 0 = Ok (Some 0%Q) /\ at2 (s_r (sol m0 (after (m0, None) l1))) 2 0 = Ok (Some 40%Q) /\
  outcomes_m (m0, None, memo0) l2 = repeat (Ok tt) 5 /\ outcomes (m0, None) l2 = repeat (Ok tt) 5 /\
  nth_error (s_p (sol m0 (fst (after_m (m0, None, memo0) l2)))) 1 = Some [Some 20%Q; Some 20%Q; Some 20%Q; Some 20%Q; None] /\
  nth_error (s_p (sol m0 (after (m0, None) l2))) 1 = Some [Some 20%Q; Some 40%Q; Some 40%Q; Some 40%Q; None].
Proof. exact L_C112_cache_seen_refuted. Qed.
Print Assumptions C112_cache_seen_refuted.

Example C112_first_case : forall slv : solver_kind -> @mat R -> list (fl R) -> res (list (fl R)), boundaries_first false
  [injector; Set_boundaries (sides 2); Compile; Solve slv SampleWell.one 9 true omb; new_rate 3; Solve slv SampleWell.one 9 true symbolic; Compile; Set_boundaries (sides 5); Solve slv SampleWell.one 9 true omb].
Proof. exact ex_C112_first_case. Qed.

Example C112_case : exists (g : gobj R) f unit pi dt m0 l1 ob l2 hist, bo_new g f unit pi dt = Ok m0 /\ plain m0 l1 ob l2 /\
  all_ok (m0, None) (setup l1 ob l2 ++ Compile :: hist) /\ along live (after (m0, None) (setup l1 ob l2 ++ [Compile])) hist /\
  undisturbed true false (m0, None) (setup l1 ob l2 ++ Compile :: hist) /\ ob = Some (sides 2) /\ In (Set_boundaries (sides 5)) hist.
Proof. exact ex_C112_case. Qed.
