(** A sample model with a well whose pressure limit is reached in the first
    step, so that the step is solved twice. *)
From Coq Require Import String ZArith Bool Arith List Lia Reals Lra.
From Verif Require Import Prelude PreludeFacts Num GridModel GridSpec GeoModel GeoSpec PropModel PropSpec
  UnitsModel BlackOilModel FdmModel MonadFacts HistSpec Samples AsmFacts ModelSpec SampleFacts AssemblyThm SolverSpec.
Import ListNotations.
Close Scope R_scope.
Open Scope nat_scope.

(** Three compressible cells at pressure 10; a well in the middle that should
    produce 1 but not below the pressure 10. *)
Definition line3q (G req : R) : bo R := set_wp [(2%Z, [Some 10%R])] (set_wells [(2%Z, mkWell (Some (Some (-1)%R)) (Some (-1)%R) (Some (Some 10%R)) (Some 10%R) (Some (Some "q"%string))
  (Some (1 / 2)%R) None (Some req) (Some G))] (line3 (1 + 0) true (Some 10%R))).
Definition set_q : call R := Set_well (Some 2%Z) (Some (-1)%R) (Some 10%R) (Some (1 / 2)%R) None.
Lemma line3q_built : exists G req, (0 < G)%R /\ exec set_q (line3 (1 + 0) true (Some 10%R), None) = ((line3q G req, None), Ok tt).
Proof.
  do 2 eexists. split; [|rrun; reflexivity]. pose proof (well_G_pos (864 / 10000) (1 / 2)) as H. revert H. rrun. intros H. apply H; lra.
Qed.
(** A solver that tries these vectors. *)
Definition checks (A : @mat R) (d : list (fl R)) (y : list R) : bool :=
  ((length y =? msize A) && (length d =? msize A) &&
   forallb (fun p => match nth p d None with Some v => Reqb v (times A y p) | None => false end) (seq 0 (msize A)))%bool.
Definition trial (cands : list (list R)) : solver_kind -> @mat R -> list (fl R) -> res (list (fl R)) := fun _ A d =>
  match find (checks A d) cands with Some y => Ok (map Some y) | None => Err ValueError end.
Lemma trial_exact cands : exact (trial cands).
Proof.
  intros k A d p E. unfold trial in E. destruct (find (checks A d) cands) as [y|] eqn:Ef; [|discriminate]. inversion E; subst.
  exists y. split; auto. apply find_some in Ef as (_ & Ef). unfold checks in Ef. apply andb_true_iff in Ef as (Ef & E2).
  apply andb_true_iff in Ef as (E0 & E1). apply Nat.eqb_eq in E0. apply Nat.eqb_eq in E1. split; auto. split; auto.
  intros p Hp. rewrite forallb_forall in E2. specialize (E2 p). destruct (nth p d None) as [v|] eqn:En.
  - f_equal. assert (Hb : Reqb v (times A y p) = true) by (apply E2; apply in_seq; lia). destruct (Reqb_spec v (times A y p)); congruence.
  - assert (false = true) by (apply E2; apply in_seq; lia). discriminate.
Qed.
Definition one : Z -> R := fun _ => 1%R.
Definition odirect := mkOpts false true false true false None.
(** The exact solutions of the two systems of the first step. *)
Definition two_answers := trial [[39 / 4; 19 / 2; 39 / 4]; [10; 10; 10]]%R.
Lemma line3q_step G req : (0 < G)%R -> (0 < / G)%R -> exists m s,
  solve two_answers one 9 true odirect (line3q G req, fdm_new (line3q G req)) = ((m, s), Ok tt) /\
  length (s_As s) = 2 /\ s_tstep s = 1.
Proof. intros HG HG'. do 2 eexists. split; [mrun|split; reflexivity]. Qed.

(** Running histories. *)
Lemma of_solution_run {F} (c : M (st F) unit) m s m' s' : c (m, s) = ((m', s'), Ok tt) -> of_solution c (m, Some s) = ((m', Some s'), Ok tt).
Proof. unfold of_solution. cbn [fst snd]. now intros ->. Qed.
Lemma exec_step {F} {NF : Num F} {NT : NumT F} c (x y z : ws F) l : exec c x = (y, Ok tt) -> all_ok y l /\ after y l = z -> all_ok x (c :: l) /\ after x (c :: l) = z.
Proof. intros E (H1 & H2). cbn [all_ok after fold_left]. rewrite E. cbn [fst snd]. tauto. Qed.
Ltac estep := lazymatch goal with
  | |- exec (Solve _ _ _ _ _) _ = _ => cbn [exec]; apply of_solution_run; mrun
  | |- exec (Run _ _ _ _ _ _ _ _ _ _) _ = _ => cbn [exec]; apply of_solution_run; mrun
  | |- _ => cbn [exec]; mrun
  end.
Ltac hrun := repeat (eapply exec_step; [estep|]); split; [exact I|reflexivity].

(** Two more steps: injection on both sides lifts the pressure, so the well
    returns to rate control. *)
Definition inject (Q : R) : call R := Set_boundaries [(0%Z, ("rate"%string, Q)); (4%Z, ("rate"%string, Q))].
Definition back_answers (G : R) := trial [[11 + 3 * / G; 10 + 2 * / G; 11 + 3 * / G]]%R.
Definition back_answers' (G : R) := trial [[11 + 2 * / G + 5 * G; 10 + 2 * / G; 11 + 2 * / G + 5 * G]]%R.
Definition back G : list (call R) :=
  [Compile; Solve two_answers one 9 true odirect; inject (2 + 4 * / G); Solve (back_answers G) one 9 true odirect;
   inject (1 - / G + 10 * G); Solve (back_answers' G) one 9 true odirect].
Lemma line3q_back G req : (0 < G)%R -> exists m s A,
  (all_ok (line3q G req, None) (back G) /\ after (line3q G req, None) (back G) = (m, Some s)) /\
  at2 (s_r s) 1 2 = Ok (Some 0%R) /\ at2 (s_r s) 2 2 = Ok (Some 0%R) /\ at2 (s_r s) 3 2 = Ok (Some 0%R) /\ s_tstep s = 3 /\
  (exists w, dget 2%Z (b_wells m) = Some w /\ w_con w = Some (Some "q"%string) /\ w_qsp w = Some (-1)%R) /\
  last (s_As s) (mat0 0) = A /\ ment A 1 1 = (- 3 - G)%R.
Proof.
  intros HG. assert (HG' : (0 < / G)%R) by now apply Rinv_0_lt_compat. assert (HGG : (G * / G = 1)%R) by (apply Rinv_r; lra).
  do 3 eexists. unfold back, inject. split; [hrun|]. cbn [s_r s_tstep b_wells s_As].
  split; [rrun; do 2 f_equal; unfold Rdiv; ring|]. split; [rrun; do 2 f_equal; unfold Rdiv; ring|]. split; [rrun; do 2 f_equal; unfold Rdiv; ring|]. split; [reflexivity|]. split; [cbn; eauto|].
  split; [reflexivity|]. cbn [last]. rrun. rewrite T3_1. lra.
Qed.
