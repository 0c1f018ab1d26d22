(** Property theorems (each one a lemma proved in [BoundaryThm.v]), the assumptions they
    rest on, and for each a concrete case meeting its hypotheses. *)
From Coq Require Import String ZArith Bool Arith List Lia QArith Reals Lra.
From Verif Require Import Prelude PreludeFacts Num GridModel GridSpec GridProofs GeoModel PropModel PropSpec
  UnitsModel BlackOilModel FdmModel MonadFacts EqvFacts Samples WellSpec WellThm GridThm BoundarySpec.
Import ListNotations.
Close Scope Q_scope. Close Scope R_scope.
Open Scope string_scope.
Open Scope nat_scope.
From Verif Require Import BoundaryThm.
Close Scope Q_scope. Close Scope R_scope.
Open Scope string_scope.
Open Scope nat_scope.

(** C34, full statement: dictionaries that are spelling variants of each other
    are equivalent.  It fails in the vectorised path (below).  What holds: if
    the word "pressure" itself is used for the same cells in both, set_boundaries
    has the same effect but for the dictionary stored, and any run afterwards the
    same results. *)
Theorem C34_variants_partial :
  forall (bd bd' : list (Z * (string * R))), variants bd bd' -> same_pressure_word bd bd' ->
  (forall x : ws R, set_boundaries bd' x =
     ((set_bdict bd' (fst (fst (set_boundaries bd x))), snd (fst (set_boundaries bd x))), snd (set_boundaries bd x))) /\
  (forall slv sc n fuel sparse thr vect mb pr iso (m : bo R) s, b_bdict m = bd ->
     let r := run slv sc n fuel sparse thr vect mb pr iso in
     r (with_dict bd' (m, s)) = (with_dict bd' (fst (r (m, s))), snd (r (m, s)))).
Proof. exact L_C34_variants_partial. Qed.
Print Assumptions C34_variants_partial.

(** "Rate" and "q" for one cell, "gradient" and "G" for another. *)
Example C34_case :
  variants [(0%Z, ("Rate", 1%R)); (4%Z, ("gradient", 2%R)); (5%Z, ("pressure", 3%R))]
           [(0%Z, ("q", 1%R)); (4%Z, ("G", 2%R)); (5%Z, ("pressure", 3%R))] /\
  same_pressure_word [(0%Z, ("Rate", 1%R)); (4%Z, ("gradient", 2%R)); (5%Z, ("pressure", 3%R))]
           [(0%Z, ("q", 1%R)); (4%Z, ("G", 2%R)); (5%Z, ("pressure", 3%R))].
Proof. exact ex_C34_case. Qed.

(** The symbolic path treats all spellings alike. *)
Theorem C34_symbolic :
  forall (bd bd' : list (Z * (string * R))) up sc thr (m : bo R) s, variants bd bd' -> b_bdict m = bd ->
  let r := get_matrices_symb sc thr in
  r (with_dict_up bd' up (m, s)) = (with_dict_up bd' up (fst (r (m, s))), snd (r (m, s))).
Proof. exact L_C34_symbolic. Qed.
Print Assumptions C34_symbolic.

(** The refutation: "press" at the left end of a row of three cells is a closed
    boundary for the vectorised path, "pressure" is not; the symbolic path agrees
    with the latter. *)
Theorem C34_press_refuted :
  exists (m : bo Q) y y', build 3 1 1 None 1%Q (Some 7%Q) None = Ok m /\
  set_boundaries [(0%Z, ("pressure", 10%Q))] (m, None) = (y, Ok tt) /\
  set_boundaries [(0%Z, ("press", 10%Q))] (m, None) = (y', Ok tt) /\
  right_side (get_matrices_vect (fst y, fdm_new (fst y))) = Some [Some (-27); Some (-7); Some (-7)]%Q /\
  right_side (get_matrices_vect (fst y', fdm_new (fst y'))) = Some [Some (-7); Some (-7); Some (-7)]%Q /\
  right_side (get_matrices_symb (fun _ => 1%Q) false (fst y', fdm_new (fst y'))) = Some [Some (-27); Some (-7); Some (-7)]%Q.
Proof. exact L_C34_press_refuted. Qed.
Print Assumptions C34_press_refuted.

(** C35, full statement: set_all_boundaries(cond, v) has the effect of
    set_boundaries with (cond, v) for every boundary cell.  It fails (below).
    What holds: the initial pressures and rates, those of the solution and the
    outcome are the same; missing: bdict and bdict_update, which the assembly
    reads, are left as they were. *)
Theorem C35_all_boundaries_partial :
  forall (x : ws R) bs cond v, get_boundaries_id (gr (geom (b_grid (fst x)))) = Ok bs ->
  let all := map (fun id => (id, (cond, v))) bs in
  let y := fst (set_all_boundaries cond v x) in let z := fst (set_boundaries all x) in
  snd (set_all_boundaries cond v x) = snd (set_boundaries all x) /\
  b_ip (fst y) = b_ip (fst z) /\ b_ir (fst y) = b_ir (fst z) /\ snd y = snd z /\
  b_bdict (fst y) = b_bdict (fst x) /\ b_bup (fst y) = b_bup (fst x) /\ b_bdict (fst z) = all.
Proof. exact L_C35_all_boundaries_partial. Qed.
Print Assumptions C35_all_boundaries_partial.

Example C35_case :
  exists m : bo R, build 3 1 1 None 1%R (Some 7%R) None = Ok m /\ get_boundaries_id (gr (geom (b_grid m))) = Ok [0; 4]%Z.
Proof. exact ex_C35_case. Qed.

(** The refutation: pressure 10 on all boundaries. *)
Theorem C35_all_boundaries_refuted :
  exists (m : bo Q) y y', build 3 1 1 None 1%Q (Some 7%Q) None = Ok m /\
  set_all_boundaries "pressure" 10%Q (m, None) = (y, Ok tt) /\
  set_boundaries [(0%Z, ("pressure", 10%Q)); (4%Z, ("pressure", 10%Q))] (m, None) = (y', Ok tt) /\
  right_side (get_matrices_vect (fst y, fdm_new (fst y))) = Some [Some (-7); Some (-7); Some (-7)]%Q /\
  right_side (get_matrices_vect (fst y', fdm_new (fst y'))) = Some [Some (-27); Some (-7); Some (-27)]%Q /\
  right_side (get_matrices_symb (fun _ => 1%Q) false (fst y, fdm_new (fst y))) = Some [Some (-7); Some (-7); Some (-7)]%Q.
Proof. exact L_C35_all_boundaries_refuted. Qed.
Print Assumptions C35_all_boundaries_refuted.

(** C36, full statement: setting the same boundary conditions before or after
    compile gives the same linear system for the first step.  It fails for rates
    in the vectorised path (below).  What holds: the symbolic path always agrees,
    the vectorised one for dictionaries of pressures. *)
Theorem C36_compile_order_partial :
  forall (m : bo R) bd y, sound m -> set_boundaries bd (m, None) = (y, Ok tt) ->
  exists y' s', set_boundaries bd (m, Some (fdm_new m)) = ((y', Some s'), Ok tt) /\ y' = fst y /\
  (forall sc thr, snd (get_matrices_symb sc thr (y', s')) = snd (get_matrices_symb sc thr (fst y, fdm_new (fst y)))) /\
  (pressures_only bd -> snd (get_matrices_vect (y', s')) = snd (get_matrices_vect (fst y, fdm_new (fst y)))).
Proof. exact L_C36_compile_order_partial. Qed.
Print Assumptions C36_compile_order_partial.

Example C36_case :
  exists (m : bo R) y, build 3 1 1 None 1%R (Some 7%R) None = Ok m /\ sound m /\
  set_boundaries [(0%Z, ("pressure", 10%R))] (m, None) = (y, Ok tt) /\ pressures_only [(0%Z, ("pressure", 10%R))].
Proof. exact ex_C36_case. Qed.

(** The refutation: a rate of 5 set after compile is not seen by the
    vectorised path. *)
Theorem C36_compile_order_refuted :
  exists (m : bo Q) y y' s', build 3 1 1 None 1%Q (Some 7%Q) None = Ok m /\
  set_boundaries [(0%Z, ("rate", 5%Q))] (m, None) = (y, Ok tt) /\
  set_boundaries [(0%Z, ("rate", 5%Q))] (m, Some (fdm_new m)) = ((y', Some s'), Ok tt) /\
  right_side (get_matrices_vect (fst y, fdm_new (fst y))) = Some [Some (-12); Some (-7); Some (-7)]%Q /\
  right_side (get_matrices_vect (y', s')) = Some [Some (-7); Some (-7); Some (-7)]%Q.
Proof. exact L_C36_compile_order_refuted. Qed.
Print Assumptions C36_compile_order_refuted.
