(** Property theorems (each one a lemma proved in [KeptThm.v]), the assumptions they
    rest on, and for each a concrete case meeting its hypotheses. *)
From Coq Require Import String ZArith Bool Arith List Lia Reals Lra QArith.
From Verif Require Import Prelude PreludeFacts Num GridModel GeoModel PropModel BlackOilModel FdmModel MonadFacts HistSpec InvFacts ModelSpec Samples QSamples SolveSpec DryFacts AssemblyThm MemoSpec MemoThm SampleFacts SampleWell SampleBal TotalFacts FrameFacts ModelSpec TotalSpec TotalSet TotalThm SolveFacts StepSpec StepFacts SetupFacts BoundaryThm KeptSpec KeptFacts KeptPres.
Import ListNotations.
Close Scope Q_scope. Close Scope R_scope.
Open Scope nat_scope.
From Verif Require Import KeptThm.
Close Scope Q_scope. Close Scope R_scope.
Open Scope nat_scope.

(** The kept equations are those of now while the conditions and the wells stay, wells
    controlled by pressure being free: every call returns or raises and leaves what it
    would if cells_terms were emptied before it.  Missing: run (see C111: a run is its steps); and conditions and
    rates that change, for which it is false. *)
Theorem C114_kept_equations_partial :
  forall (g : gobj R) f unit pi dt m0 l, bo_new g f unit pi dt = Ok m0 -> along steady_call (m0, None) l ->
  outcomes_f (m0, None) l = outcomes (m0, None) l /\ forget (after_f (m0, None) l) = forget (after (m0, None) l) /\
  forall sc id m s, after (m0, None) l = (m, Some s) -> snd (get_cell_eq sc id (m, s)) = snd (get_cell_eq sc id (set_terms [] m, s)).
Proof. exact L_C114_kept_equations_partial. Qed.
Print Assumptions C114_kept_equations_partial.

(** In particular if all wells are controlled by pressure: their pressures (and radii,
    skins) may be changed at any time, also between symbolic steps. *)
Theorem C114_pressures :
  forall (g : gobj R) f unit pi dt m0 l, bo_new g f unit pi dt = Ok m0 -> along pressure_call (m0, None) l ->
  outcomes_f (m0, None) l = outcomes (m0, None) l /\ forget (after_f (m0, None) l) = forget (after (m0, None) l) /\
  forall sc id m s, after (m0, None) l = (m, Some s) -> snd (get_cell_eq sc id (m, s)) = snd (get_cell_eq sc id (set_terms [] m, s)).
Proof. exact L_C114_pressures. Qed.
Print Assumptions C114_pressures.

(** A rate set for a cell with a kept equation that has no well or one with a rate
    changes nothing in its equation, now or ever. *)
Theorem C114_rate_ignored :
  forall F (NF : Num F) (NT : NumT F) (x : ws F) id q pwf r sk m s m' s', x = (m, Some s) -> dget id (b_terms m) <> None ->
  (forall w, dget id (b_wells m) = Some w -> w_con w = Some (Some "q"%string)) ->
  exec (Set_well (Some id) (Some q) pwf r sk) x = ((m', Some s'), Ok tt) ->
  forall sc, snd (get_cell_eq sc id (m', s')) = snd (get_cell_eq sc id (m, s)).
Proof. exact L_C114_rate_ignored. Qed.
Print Assumptions C114_rate_ignored.

(** False in general.  Cell 3 produces 5, is written down once, then 1 is asked for: the
    equation of the cell still has 5.  A new rate well is not seen, nor a new boundary pressure.  A new well
    controlled by pressure in cell 2 replaces the connection with cell 3. *)
Theorem C114_kept_refuted :
  exists m0 : bo Q, build 3 1 1 None 0%Q (Some 10%Q) None = Ok m0 /\
  forall NT : NumT Q,
  let rate id v := Set_well (Some id) (Some v) None (Some (1 # 2)%Q) None in
  let l := [Set_boundaries [(0%Z, ("pressure"%string, 20%Q))]; rate 3%Z (-5)%Q; Compile; Solve cramer3 oneQ 9 true dried] in
  let eq id x := snd (get_cell_eq oneQ id (fst x, sol m0 x)) in
  let cells x := option_map (fun t => map (fun a => map fst (lc a)) (t_f t)) (dget 2%Z (b_terms (fst (fst (get_cell_eq oneQ 2%Z (fst x, sol m0 x)))))) in
  let x1 := after (m0, None) (l ++ [rate 3%Z (-1)%Q]) in
  let x2 := after (m0, None) (l ++ [rate 2%Z (-7)%Q]) in
  let x3 := after (m0, None) (l ++ [Set_well (Some 2%Z) None (Some 4%Q) (Some (1 # 2)%Q) None]) in
  let x4 := after (m0, None) (l ++ [Set_boundaries [(0%Z, ("pressure"%string, 30%Q))]]) in
  outcomes (m0, None) (l ++ [rate 3%Z (-1)%Q; rate 2%Z (-7)%Q]) = repeat (Ok tt) 6 /\
  snd (exec (Set_well (Some 2%Z) None (Some 4%Q) (Some (1 # 2)%Q) None) (after (m0, None) l)) = Ok tt /\
  eq 3%Z x1 = Ok ([(2%Z, 1%Q); (3%Z, (-1)%Q)], Ok (Some 5%Q)) /\ eq 3%Z (forget x1) = Ok ([(2%Z, 1%Q); (3%Z, (-1)%Q)], Ok (Some 1%Q)) /\
  eq 2%Z x2 = Ok ([(1%Z, 1%Q); (3%Z, 1%Q); (2%Z, (-2)%Q)], Ok (Some 0%Q)) /\
  eq 2%Z (forget x2) = Ok ([(1%Z, 1%Q); (3%Z, 1%Q); (2%Z, (-2)%Q)], Ok (Some 7%Q)) /\
  snd (exec (Set_boundaries [(0%Z, ("pressure"%string, 30%Q))]) (after (m0, None) l)) = Ok tt /\
  eq 1%Z x4 = Ok ([(2%Z, 1%Q); (1%Z, (-3)%Q)], Ok (Some (-40)%Q)) /\ eq 1%Z (forget x4) = Ok ([(2%Z, 1%Q); (1%Z, (-3)%Q)], Ok (Some (-60)%Q)) /\
  cells x3 = Some [[1; 2]; [2]]%Z /\ cells (forget x3) = Some [[1; 2]; [3; 2]; [2]]%Z.
Proof. exact L_C114_kept_refuted. Qed.
Print Assumptions C114_kept_refuted.

Example C114_case : forall slv, exists (g : gobj R) f unit pi dt m0, bo_new g f unit pi dt = Ok m0 /\
  along pressure_call (m0, None) [Set_boundaries [(0%Z, ("pressure"%string, 20%R))]; Set_well (Some 2%Z) None (Some 4%R) (Some (1 / 2)%R) None; Compile;
    Solve slv SampleWell.one 9 true dried; Set_well (Some 2%Z) None (Some 7%R) (Some 1%R) (Some 1%R); Solve slv SampleWell.one 9 true symbolic; Solve slv SampleWell.one 9 true symbolic].
Proof. exact ex_C114_case. Qed.

Example C114_steady_case : forall slv, exists (g : gobj R) f unit pi dt m0, bo_new g f unit pi dt = Ok m0 /\
  along steady_call (m0, None) [Set_boundaries [(0%Z, ("pressure"%string, 20%R))]; Set_well (Some 2%Z) None (Some 4%R) (Some (1 / 2)%R) None; Compile;
    Solve slv SampleWell.one 9 true dried; Set_well (Some 2%Z) None (Some 7%R) (Some 1%R) (Some 1%R); Solve slv SampleWell.one 9 true symbolic; Solve slv SampleWell.one 9 true symbolic].
Proof. exact ex_C114_steady_case. Qed.

Example C114_rate_case : exists m0 : bo Q, build 3 1 1 None 0%Q (Some 10%Q) None = Ok m0 /\ forall NT : NumT Q,
  let X := after (m0, None) [Set_boundaries [(0%Z, ("pressure"%string, 20%Q))]; Set_well (Some 3%Z) (Some (-5)%Q) None (Some (1 # 2)%Q) None; Compile; Solve cramer3 oneQ 9 true dried] in
  exists m s m' s', X = (m, Some s) /\ dget 3%Z (b_terms m) <> None /\ (forall w, dget 3%Z (b_wells m) = Some w -> w_con w = Some (Some "q"%string)) /\ dget 3%Z (b_wells m) <> None /\
  exec (Set_well (Some 3%Z) (Some (-1)%Q) None (Some (1 # 2)%Q) None) X = ((m', Some s'), Ok tt).
Proof. exact ex_C114_rate_case. Qed.
