(** Runs in pieces. *)
From Coq Require Import String ZArith Bool Arith List Lia Reals QArith.
From Verif Require Import Prelude PreludeFacts Num GridModel GeoModel PropModel BlackOilModel FdmModel MonadFacts HistSpec Samples QSamples AssemblyThm PieceSpec PieceFacts.
Import ListNotations.
Close Scope Q_scope. Close Scope R_scope.
Open Scope nat_scope.

(** What run succeeds and leaves, in terms of the loop. *)
Section runs.
Context {F : Type} {NF : Num F} {NT : NumT F}.
Lemma recount_recount a b (s : fs F) : recount a (recount b s) = recount a s.
Proof. reflexivity. Qed.
Lemma run_ok slv sc n fuel sparse thr vect mb pr iso m (s : fs F) : let L := run_loop slv sc n fuel sparse (mkOpts thr vect mb true pr iso) (m, s) in
  snd L = Ok tt -> (0 < n \/ mb = false) -> snd (run slv sc n fuel sparse thr vect mb pr iso (m, s)) = Ok tt.
Proof.
  intros L H Hn. rewrite run_is. fold L. cbn [snd]. rewrite H. destruct mb; auto. destruct Hn as [Hn|]; [|discriminate]. destruct n as [|n]; [lia|].
  destruct (loop_err slv sc fuel sparse (mkOpts thr vect true true pr iso) n (m, s) eq_refl eq_refl H) as (e & Q). fold L in Q. now rewrite Q.
Qed.
Lemma run_ok_inv slv sc n fuel sparse thr vect mb pr iso m (s : fs F) : snd (run slv sc n fuel sparse thr vect mb pr iso (m, s)) = Ok tt ->
  snd (run_loop slv sc n fuel sparse (mkOpts thr vect mb true pr iso) (m, s)) = Ok tt.
Proof. rewrite run_is. cbn [snd]. destruct (snd (run_loop _ _ _ _ _ _ _)) as [[]|]; auto. Qed.
Lemma loop_kept slv sc n fuel sparse o m (s : fs F) : s_nsteps (snd (fst (run_loop slv sc n fuel sparse o (m, s)))) = s_nsteps s.
Proof.
  assert (Q : recount (s_nsteps s) s = s) by now destruct s. pose proof (loop_recount slv sc n fuel sparse o (s_nsteps s) m s) as H. rewrite Q in H. rewrite H at 1. reflexivity.
Qed.
Lemma unrolled_same (l : list (call F)) : forall x y, same_but_count x y -> all_ok x l -> all_ok y (flat_map unrolled l) /\ same_but_count (after x l) (after y (flat_map unrolled l)).
Proof.
  induction l as [|c l IH]; intros x y S; [split; auto|]. intros (H1 & H2). cbn [flat_map]. destruct c as [cell q pwf r s|w cell|idb cond v|bd|cond v| |slv sc fuel sparse o|slv sc n fuel sparse thr vect mb pr iso];
    try (match goal with |- context [unrolled ?c] => destruct (exec_same c x y eq_refl S) as (S' & E) end; cbn [unrolled app all_ok after fold_left]; destruct (IH _ _ S' H2) as (Q1 & Q2); split; [split; [rewrite E; exact H1|exact Q1]|exact Q2]).
  cbn [unrolled]. set (o := mkOpts thr vect mb true pr iso) in *. set (R := repeat (Solve slv sc fuel sparse o) n).
  apply same_elim in S as (k & ->). destruct x as [m [s|]]; cbn [fst snd option_map] in *; [|cbn in H1; discriminate].
  cbn [exec] in H1. unfold of_solution in H1. cbn [fst snd] in H1. pose proof (run_is slv sc n fuel sparse thr vect mb pr iso m s) as E. cbv zeta in E. fold o in E. set (L := run_loop slv sc n fuel sparse o (m, s)) in *.
  assert (HL : snd L = Ok tt). { pose proof (run_ok_inv slv sc n fuel sparse thr vect mb pr iso m s) as Q. fold o in Q. apply Q. rewrite E in H1 |- *. exact H1. }
  pose proof (loop_recount slv sc n fuel sparse o k m s) as E'. fold L in E'.
  assert (HL' : snd (run_loop slv sc n fuel sparse o (m, recount k s)) = Ok tt) by (rewrite E'; exact HL).
  pose proof (proj1 (loop_steps slv sc fuel sparse o n m (recount k s)) HL') as A1. pose proof (loop_after slv sc fuel sparse o n m (recount k s) HL') as A2. fold R in A1, A2. rewrite E' in A2. cbn [fst snd] in A2.
  assert (X : fst (exec (Run slv sc n fuel sparse thr vect mb pr iso) (m, Some s)) = (fst (fst L), Some (recount (s_nsteps s + n) (snd (fst L))))).
  { cbn [exec]. unfold of_solution. cbn [fst snd]. rewrite E. reflexivity. }
  assert (S' : same_but_count (fst (exec (Run slv sc n fuel sparse thr vect mb pr iso) (m, Some s))) (after (m, Some (recount k s)) R)).
  { rewrite X, A2. split; [reflexivity|]. cbn [snd]. exists k. now rewrite recount_recount. }
  destruct (IH _ _ S' H2) as (Q1 & Q2). split.
  - clear - A1 Q1. revert A1 Q1. generalize (m, Some (recount k s)) as z. generalize (flat_map unrolled l) as l2. generalize R as l1. induction l1 as [|a l1 IH1]; intros l2 z; cbn [app all_ok after fold_left]; auto. intros (B1 & B2) B3. split; auto.
  - unfold after in *. rewrite fold_left_app. cbn [fold_left]. exact Q2.
Qed.
End runs.

(** ** C111 *)
(** A run of a + b steps is a run of a steps followed by one of b steps. *)
Lemma L_C111_run_in_pieces :
  forall (F : Type) (NF : Num F) (NT : NumT F) slv sc a b fuel sparse thr vect mb pr iso (x x1 : ws F),
  exec (Run slv sc a fuel sparse thr vect mb pr iso) x = (x1, Ok tt) ->
  exec (Run slv sc b fuel sparse thr vect mb pr iso) x1 = exec (Run slv sc (a + b) fuel sparse thr vect mb pr iso) x.
Proof.
  intros F NF NT slv sc a b fuel sparse thr vect mb pr iso [m [s|]] x1; cbn [exec]; unfold of_solution; cbn [fst snd]; [|discriminate].
  pose proof (run_is slv sc a fuel sparse thr vect mb pr iso m s) as E. cbv zeta in E. set (o := mkOpts thr vect mb true pr iso) in *.
  intros H. assert (HL : snd (run_loop slv sc a fuel sparse o (m, s)) = Ok tt). { apply run_ok_inv. destruct (run slv sc a fuel sparse thr vect mb pr iso (m, s)) as [y r]. cbn [snd]. congruence. }
  rewrite E in H. injection H as <- _. cbn [fst snd]. rewrite !run_is. fold o. rewrite loop_recount. rewrite loop_app. unfold mbind.
  pose proof (loop_kept slv sc a fuel sparse o m s) as Kp. destruct (run_loop slv sc a fuel sparse o (m, s)) as [[m' s'] r']. cbn [fst snd] in *. subst r'. cbn [fst snd s_nsteps recount]. rewrite !recount_recount.
  replace (s_nsteps s + (a + b)) with (s_nsteps s + a + b) by lia. f_equal.
Qed.
(** A run of n steps succeeds just when n calls of solve do, and leaves what they leave but
    for the counter nsteps, which only run advances. *)
Lemma L_C111_run_is_solves :
  forall (F : Type) (NF : Num F) (NT : NumT F) slv sc n fuel sparse thr vect mb pr iso (m : bo F) (s : fs F), (0 < n \/ mb = false) ->
  let c := Run slv sc n fuel sparse thr vect mb pr iso in
  let l := repeat (Solve slv sc fuel sparse (mkOpts thr vect mb true pr iso)) n in
  (snd (exec c (m, Some s)) = Ok tt <-> all_ok (m, Some s) l) /\
  (all_ok (m, Some s) l -> exists m' s', after (m, Some s) l = (m', Some s') /\ s_nsteps s' = s_nsteps s /\ fst (exec c (m, Some s)) = (m', Some (recount (s_nsteps s + n) s'))).
Proof.
  intros F NF NT slv sc n fuel sparse thr vect mb pr iso m s Hn c l. set (o := mkOpts thr vect mb true pr iso) in *.
  assert (E : exec c (m, Some s) = match run slv sc n fuel sparse thr vect mb pr iso (m, s) with (y, r) => ((fst y, Some (snd y)), r) end) by reflexivity. split.
  - rewrite E. unfold l. rewrite <- loop_steps. split; intros H.
    + apply run_ok_inv. destruct (run slv sc n fuel sparse thr vect mb pr iso (m, s)) as [y r]. exact H.
    + pose proof (run_ok slv sc n fuel sparse thr vect mb pr iso m s H Hn) as Q. destruct (run slv sc n fuel sparse thr vect mb pr iso (m, s)) as [y r]. exact Q.
  - intros H. apply loop_steps in H. exists (fst (fst (run_loop slv sc n fuel sparse o (m, s)))), (snd (fst (run_loop slv sc n fuel sparse o (m, s)))). split; [now apply loop_after|]. split; [apply loop_kept|].
    rewrite E, run_is. reflexivity.
Qed.
(** In any successful sequence of calls every run may be replaced by that many calls of solve:
    they all succeed and the state is the same but for the counter nsteps. *)
Lemma L_C111_histories :
  forall (F : Type) (NF : Num F) (NT : NumT F) (l : list (call F)) (x : ws F), all_ok x l ->
  all_ok x (flat_map unrolled l) /\ same_but_count (after x l) (after x (flat_map unrolled l)).
Proof. intros F NF NT l x H. apply unrolled_same; auto. apply same_refl. Qed.
Example ex_pieces :
  exists m0 : bo Q, build 3 1 1 (Some 5%Q) 1%Q None None = Ok m0 /\
  forall NT : NumT Q,
  let x := after (m0, None) [Set_boundaries [(0%Z, ("pressure"%string, 20%Q))]; Compile] in
  let slv : solver_kind -> @mat Q -> list (fl Q) -> res (list (fl Q)) := fun _ _ d => Ok d in
  let go n := Run slv oneQ n 9 true false true true false None in
  snd (exec (go 1) x) = Ok tt /\ snd (exec (go 2) x) = Ok tt /\ snd (exec (go 1) (fst (exec (go 1) x))) = Ok tt /\
  all_ok (m0, None) ([Set_boundaries [(0%Z, ("pressure"%string, 20%Q))]; Compile; go 2]) /\ length (s_p (sol m0 (fst (exec (go 2) x)))) = 3.
Proof.
  eexists. split; [vm_compute; reflexivity|]. intros NT. cbv zeta.
  split; [vm_compute; reflexivity|]. split; [vm_compute; reflexivity|]. split; [vm_compute; reflexivity|]. split; [|vm_compute; reflexivity].
  split; [vm_compute; reflexivity|]. split; [vm_compute; reflexivity|]. split; [vm_compute; reflexivity|exact I].
Qed.
