(** Sample histories of closed reservoirs. *)
From Coq Require Import String ZArith Bool Arith List Lia Reals Lra.
From Verif Require Import Prelude PreludeFacts Num GridModel GridSpec GeoModel GeoSpec PropModel PropSpec
  UnitsModel BlackOilModel FdmModel MonadFacts HistSpec AsmFacts ModelSpec VectFacts Samples SampleFacts AssemblyThm SampleWell SolverSpec SolveSpec BalanceSpec SampleBal InvFacts FdmSpec ClosedSpec.
Import ListNotations.
Close Scope R_scope.
Open Scope nat_scope.

(** Three cells at pressures 0, 2, 4; a vectorised and a symbolic step. *)
Definition osymb := mkOpts false false false true false None.
Definition mixed_steps : list (call R) :=
  [Solve (trial [[1; 2; 3]]%R) SampleWell.one 9 true odirect; Solve (trial [[3 / 2; 2; 5 / 2]]%R) SampleWell.one 9 true osymb].
Definition uneven : bo R := set_ip [None; Some 0%R; Some 2%R; Some 4%R; None] (line3 (1 + 0) true (Some 10%R)).
Lemma run_mixed : exists m s, (all_ok (uneven, None) (Compile :: mixed_steps) /\ after (uneven, None) (Compile :: mixed_steps) = (m, Some s)) /\
  nth_error (s_p s) 1 = Some [None; Some 1%R; Some 2%R; Some 3%R; None] /\
  nth_error (s_p s) 2 = Some [None; Some (3 / 2)%R; Some 2%R; Some (5 / 2)%R; None].
Proof. do 2 eexists. split; [unfold mixed_steps, uneven; hrun|split; reflexivity]. Qed.
Lemma mixed_direct : Forall direct mixed_steps.
Proof.
  assert (Q : forall id : Z, SampleWell.one id <> 0%R) by (intros; unfold SampleWell.one; lra).
  constructor; [|constructor; [|constructor]]; cbn; auto 8 using trial_exact.
Qed.
(** Three cells at pressure 10; a symbolic step and a vectorised run. *)
Definition even_steps : list (call R) :=
  [Solve (trial [[10; 10; 10]]%R) SampleWell.one 9 true osymb; Run (trial [[10; 10; 10]]%R) SampleWell.one 2 9 true false true false false None].
Lemma run_even : exists m s, (all_ok (line3 (1 + 0) true (Some 10%R), None) (Compile :: even_steps) /\ after (line3 (1 + 0) true (Some 10%R), None) (Compile :: even_steps) = (m, Some s)) /\
  s_tstep s = 3.
Proof. do 2 eexists. split; [unfold even_steps; hrun|reflexivity]. Qed.
Lemma even_direct : Forall direct even_steps.
Proof.
  assert (Q : forall id : Z, SampleWell.one id <> 0%R) by (intros; unfold SampleWell.one; lra).
  constructor; [|constructor; [|constructor]]; cbn; auto 8 using trial_exact.
Qed.

(** Injection in the middle, production on both sides, no compressibility. *)
Definition drains : list (Z * (string * R)) := [(0%Z, ("rate"%string, (- (1 / 2))%R)); (4%Z, ("rate"%string, (- (1 / 2))%R))].
Lemma run_drains : exists G req m1 X A d,
  exec injector (line3 0 false (Some 10%R), None) = ((line3i (line3 0 false (Some 10%R)) G req (Some 10%R), None), Ok tt) /\
  exec (Set_boundaries drains) (line3i (line3 0 false (Some 10%R)) G req (Some 10%R), None) = ((m1, None), Ok tt) /\
  b_wells m1 = b_wells (line3i (line3 0 false (Some 10%R)) G req (Some 10%R)) /\ b_bdict m1 = drains /\
  get_matrices_vect (m1, fdm_new m1) = (X, Ok (A, d)) /\ solves A d [0; 1 / 2; 0]%R.
Proof.
  destruct (line3i_built 0 false) as (G & req & HG & E). exists G, req. do 4 eexists. split; [exact E|]. split; [cbn [exec]; unfold drains; mrun|]. split; [reflexivity|]. split; [reflexivity|]. split; [mrun|].
  split; [reflexivity|]. split; [reflexivity|]. intros p Hp. rrun. destruct p as [|[|[|p]]]; [| | |cbn in Hp; lia]; f_equal; rewrite ?T3_1; field.
Qed.

(** Three cells at heights 0, 1, 2 with a fluid of weight 1. *)
Definition gline3z : gobj R :=
  let u := [1; 1; 1; 1; 1]%R in let z := [0; 0; 1; 2; 2]%R in
  mkGobj (mkGeo (mkGrid 3 1 1 true) u u u u u u)
    (mkProps (mkProp (Some u) (Some u) true) (mkProp (Some u) (Some u) true) (mkProp (Some u) (Some u) true)
             (mkProp (Some u) (Some u) true) (mkProp (Some z) (Some z) true) (Some 0%R) (Some "incompressible"%string)) 1%R.
Definition slope (c : R) (cmp : bool) : bo R :=
  mkBo gline3z [1; 2; 3]%Z 1%R 1%R 1%R (864 / 10000)%R 1%R 1%R c cmp (repeat (if cmp then 1 else 0)%R 5)
    [None; Some 10%R; Some 11%R; Some 12%R; None] (repeat (Some 0%R) 5) [] [] [] [] [].
Lemma slope_model c cmp : model (slope c cmp) 3 1 1 true (Scalar 1%R) (Scalar 1%R) (Scalar 1%R).
Proof.
  pose proof gline3_rock as [H1 H2 H3 H4 H5 H6 H7]. constructor; try (cbn; lra); try reflexivity.
  - constructor; try assumption.
    + intros a Fa. exists (repeat 1%R 5). destruct a; cbn; repeat split; try (repeat constructor; lra). unfold flows in Fa. cbn in Fa. lia.
    + intros n l E. destruct n; cbn in E; inversion E; reflexivity.
  - left. unfold flows. cbn. lia.
  - cbn. destruct cmp; repeat constructor; lra.
  - exists [0; 0; 1; 2; 2]%R. split; reflexivity.
Qed.
Section runs.
Variable (m : bo R).
Hypothesis (Hg : b_grid m = gline3z) (Hmu : b_mu m = 1%R) (HB : b_B m = 1%R).
Lemma slope_cell id b : get_cell_trans m id b = get_cell_trans (line3 1 true None) id b.
Proof. unfold get_cell_trans, muB. rewrite Hg, Hmu, HB. reflexivity. Qed.
Lemma slope_cell1 : get_cell_trans m 1 true = Ok [(0%Z, T3); (2%Z, T3)]. Proof. rewrite slope_cell. now apply line3_cell1. Qed.
Lemma slope_cell2 : get_cell_trans m 2 true = Ok [(1%Z, T3); (3%Z, T3)]. Proof. rewrite slope_cell. now apply line3_cell2. Qed.
Lemma slope_cell3 : get_cell_trans m 3 true = Ok [(2%Z, T3); (4%Z, T3)]. Proof. rewrite slope_cell. now apply line3_cell3. Qed.
End runs.
Ltac rtrans ::= rewrite ?slope_cell1, ?slope_cell2, ?slope_cell3 by reflexivity.
Definition rest_steps : list (call R) :=
  [Solve (trial [[10; 11; 12]]%R) SampleWell.one 9 true osymb; Run (trial [[10; 11; 12]]%R) SampleWell.one 2 9 true false false false false None].
Lemma rest_direct : Forall direct rest_steps /\ Forall (path false) rest_steps.
Proof.
  assert (Q : forall id : Z, SampleWell.one id <> 0%R) by (intros; unfold SampleWell.one; lra).
  split; (constructor; [|constructor; [|constructor]]; cbn; auto 8 using trial_exact).
Qed.
Lemma run_rest : exists m s, (all_ok (slope 1 true, None) (Compile :: rest_steps) /\ after (slope 1 true, None) (Compile :: rest_steps) = (m, Some s)) /\ s_tstep s = 3.
Proof. do 2 eexists. split; [unfold rest_steps, slope; hrun|reflexivity]. Qed.
Lemma slope_rest : hydrostatic (slope 1 true) (b_ip (slope 1 true)).
Proof.
  exists [0; 0; 1; 2; 2]%R. split; [reflexivity|]. intros id id' p p' z z' I I' E1 E2 E3 E4. cbn [neqb Num_R]. apply Reqb_eq.
  cbn in I, I'. destruct I as [<-|[<-|[<-|[]]]], I' as [<-|[<-|[<-|[]]]]; cbn in E1, E2, E3, E4; inversion E1; inversion E2; inversion E3; inversion E4; subst; cbn; lra.
Qed.
