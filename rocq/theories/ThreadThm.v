(** Threads in the symbolic assembly. *)
From Coq Require Import String ZArith Bool Arith List Lia QArith.
From Verif Require Import Prelude PreludeFacts Num GridModel GeoModel PropModel UnitsModel BlackOilModel FdmModel MonadFacts InvFacts HistSpec Samples QSamples ThreadSpec.
Import ListNotations.
Close Scope Q_scope.
Open Scope nat_scope.

Section threads.
Context {F : Type} {NF : Num F} {NT : NumT F}.
Notation P := (fun m : bo F => 2 <= length (b_ids m)).
Lemma rows_threads (m : bo F) eqs l : forall Ad Bd thr, symb_rows m false eqs l Ad = Ok Bd -> symb_rows m thr eqs l Ad = Ok Bd.
Proof.
  induction l as [|i l IH]; intros Ad Bd thr H; [exact H|]. unfold symb_rows in *. cbn [fold_left rbind] in *.
  destruct (let* e := dgetE i eqs in symb_row m i e Ad) as [Ad'|e] eqn:E; cbn [rbind] in *.
  - specialize (IH Ad' Bd thr H). destruct thr; exact IH.
  - exfalso. revert H. clear. induction l as [|j l IH]; cbn; [discriminate|exact IH].
Qed.
Lemma eqs_threads sc thr (x : st F) : P (fst x) -> get_cells_eq sc thr x = get_cells_eq sc false x.
Proof.
  intros H. unfold get_cells_eq, mbind, mread. destruct thr; auto. cbn [andb].
  assert (Q : length (b_ids (fst x)) / 2 <> 0) by (intros Q; apply Nat.div_small_iff in Q; cbv beta in H; lia).
  apply Nat.eqb_neq in Q. now rewrite Q.
Qed.
Lemma symb_threads sc thr (x y : st F) Ad : P (fst x) -> get_matrices_symb sc false x = (y, Ok Ad) -> get_matrices_symb sc thr x = (y, Ok Ad).
Proof.
  intros H E. unfold get_matrices_symb in *. apply mbind_ok in E as (eqs & x1 & E1 & E). rewrite (mbind_run _ _ _ x1 eqs) by now rewrite eqs_threads.
  apply mbind_ok in E as ([] & x2 & E2 & E). rewrite (mbind_run _ _ _ x2 tt) by exact E2.
  apply mbind_ok in E as ([] & x3 & E3 & E). rewrite (mbind_run _ _ _ x3 tt); [exact E|].
  apply mset_ok in E3. unfold mset. destruct (attrE (s_sym (snd x2))) as [Bd|]; [|discriminate]. cbn [rbind] in *.
  destruct (symb_rows (fst x2) false eqs (b_ids (fst x2)) Bd) as [Cd|] eqn:Q; [|discriminate]. rewrite (rows_threads _ _ _ _ _ thr Q). cbn [rbind] in *. now inversion E3.
Qed.
Notation opts b o := (mkOpts b (o_vect o) (o_mb o) (o_upd o) (o_print o) (o_iso o)).
Lemma keep_P {A} (c : M (st F) A) (x y : st F) r : inv (fun x => P (fst x)) c -> c x = (y, r) -> P (fst x) -> P (fst y).
Proof. intros I E H. specialize (I x H). now rewrite E in I. Qed.
Lemma system_threads sc thr o (x y : st F) Ad : P (fst x) -> get_system sc (opts false o) x = (y, Ok Ad) -> get_system sc (opts thr o) x = (y, Ok Ad).
Proof.
  intros H E. unfold get_system in *. cbn [o_print o_vect o_thr] in *. destruct (o_print o).
  - apply mbind_ok in E as (Bd & x1 & E1 & E). rewrite (mbind_run _ _ _ x1 Bd) by now apply symb_threads. exact E.
  - destruct (o_vect o); auto. now apply symb_threads.
Qed.
Ltac kept := intros; cbv beta in *; try match goal with |- context [b_ids (?f ?v ?m)] => destruct m end; assumption.
Lemma solve_threads slv sc sparse thr : forall fuel o (x y : st F), P (fst x) -> solve slv sc fuel sparse (opts false o) x = (y, Ok tt) -> solve slv sc fuel sparse (opts thr o) x = (y, Ok tt).
Proof.
  induction fuel as [|fuel IH]; intros o x y H E; [discriminate|]. cbn [solve o_iso o_upd o_thr o_vect o_mb] in *.
  apply mbind_ok in E as (Ad & x1 & E1 & E). rewrite (mbind_run _ _ _ x1 Ad) by now apply system_threads.
  assert (H1 : P (fst x1)) by (eapply (keep_P _ x x1); [apply (c_system P); kept|exact E1|exact H]).
  apply mbind_ok in E as (p & x2 & E2 & E). rewrite (mbind_run _ _ _ x2 p) by exact E2. apply mread_ok in E2 as (-> & _).
  destruct (o_upd o); [|exact E].
  apply mbind_ok in E as ([] & x3 & E3 & E). rewrite (mbind_run _ _ _ x3 tt) by exact E3.
  assert (H3 : P (fst x3)) by (eapply (keep_P _ x1 x3); [apply (c_rows P); kept|exact E3|exact H1]).
  apply mbind_ok in E as ([] & x4 & E4 & E). rewrite (mbind_run _ _ _ x4 tt) by exact E4.
  assert (H4 : P (fst x4)) by (eapply (keep_P _ x3 x4); [apply (c_ub P); kept|exact E4|exact H3]).
  apply mbind_ok in E as (ag & x5 & E5 & E). rewrite (mbind_run _ _ _ x5 ag) by exact E5.
  assert (H5 : P (fst x5)) by (eapply (keep_P _ x4 x5); [apply (c_update_wells P); kept|exact E5|exact H4]).
  apply mbind_ok in E as ([] & x6 & E6 & E). rewrite (mbind_run _ _ _ x6 tt); [exact E|].
  destruct ag; cbn [mwhen] in *; [|exact E6]. apply mbind_ok in E6 as ([] & x7 & E7 & E6). rewrite (mbind_run _ _ _ x7 tt) by exact E7.
  apply mset_ok in E7. injection E7 as <-. exact (IH (mkOpts false (o_vect o) false true false (Some "cgs"%string)) (fst x5, drop_rows (snd x5)) x6 H5 E6).
Qed.
Lemma run_threads slv sc n fuel sparse thr vect mb pr iso (x y : st F) : P (fst x) ->
  run slv sc n fuel sparse false vect mb pr iso x = (y, Ok tt) -> run slv sc n fuel sparse thr vect mb pr iso x = (y, Ok tt).
Proof.
  intros H E. unfold run in *. apply mbind_ok in E as ([] & x1 & E1 & E). rewrite (mbind_run _ _ _ x1 tt) by exact E1. apply mset_ok in E1. injection E1 as <-.
  apply mbind_ok in E as ([] & x2 & E2 & E). rewrite (mbind_run _ _ _ x2 tt); [exact E|]. clear E y.
  set (x1 := (fst x, set_nsteps (s_nsteps (snd x) + n) (snd x))) in *. assert (H1 : P (fst x1)) by exact H. clearbody x1. clear H.
  revert x1 x2 H1 E2. induction n as [|n IH]; intros x1 x2 H1 E2; [exact E2|]. cbn [run_loop] in *.
  apply mbind_ok in E2 as ([] & x3 & E3 & E2). rewrite (mbind_run _ _ _ x3 tt) by exact (solve_threads slv sc sparse thr fuel (mkOpts false vect mb true pr iso) x1 x3 H1 E3).
  apply IH; auto. eapply (keep_P _ x1 x3); [apply (c_solve P); kept|exact E3|exact H1].
Qed.
Lemma exec_threads thr (c : call F) (x : ws F) : P (fst x) -> snd (exec (with_threads false c) x) = Ok tt -> exec (with_threads thr c) x = exec (with_threads false c) x.
Proof.
  intros H E. destruct x as [m o']. destruct c; auto; cbn [with_threads exec] in *; unfold of_solution in *; cbn [fst snd] in *; destruct o' as [s|]; auto.
  - destruct (solve slv sc fuel sparse (opts false o) (m, s)) as [y r] eqn:Q. cbn in E. subst r. now rewrite (solve_threads slv sc sparse thr fuel o (m, s) y H Q).
  - destruct (run slv sc n fuel sparse false vect mb pr iso (m, s)) as [y r] eqn:Q. cbn in E. subst r. now rewrite (run_threads slv sc n fuel sparse thr vect mb pr iso (m, s) y H Q).
Qed.
Lemma solve_vect slv sc sparse b : forall fuel o (y : st F), o_vect o = true -> o_print o = false -> solve slv sc fuel sparse (opts b o) y = solve slv sc fuel sparse o y.
Proof.
  induction fuel as [|fuel IH]; intros o y V Pr; [reflexivity|]. cbn [solve o_iso o_upd o_thr o_vect o_mb]. unfold get_system. cbn [o_print o_vect o_thr]. rewrite V, Pr.
  unfold mbind at 1. symmetry. unfold mbind at 1. symmetry. destruct (get_matrices_vect y) as [y1 [Ad|e]]; auto. unfold mbind at 1. symmetry. unfold mbind at 1. symmetry.
  match goal with |- context [mread ?f y1] => destruct (mread f y1) as [y2 [p|e]] end; auto. destruct (o_upd o); auto.
  unfold mbind at 1. symmetry. unfold mbind at 1. symmetry. destruct (new_rows (fst Ad) (snd Ad) p y2) as [y3 [[]|e]]; auto.
  unfold mbind at 1. symmetry. unfold mbind at 1. symmetry. destruct (update_boundaries y3) as [y4 [[]|e]]; auto.
  unfold mbind at 1. symmetry. unfold mbind at 1. symmetry. destruct (update_wells y4) as [y5 [[]|e]]; auto.
  unfold mbind at 1 2. symmetry. unfold mbind at 1 2. cbn [mwhen]. unfold mbind, mset. cbn [o_mb].
  pose proof (IH (mkOpts (o_thr o) true false true false (Some "cgs"%string))) as Q. cbn [o_vect o_mb o_upd o_print o_iso] in Q.
  now rewrite <- (Q _ eq_refl eq_refl).
Qed.
Lemma of_threads (c : call F) : exists b, c = with_threads b c.
Proof. destruct c; try (exists false; reflexivity); [exists (o_thr o)|exists thr]; cbn; [now destruct o|reflexivity]. Qed.
End threads.

(** C124, what holds: in a reservoir of at least two cells, if a sequence of calls
    succeeds without threads, then with threads in any of the calls it succeeds too
    and ends in the same state: pressures, rates, systems, cached terms and all. *)
Lemma L_C124_threads_partial :
  forall (F : Type) (NF : Num F) (NT : NumT F) (m0 : bo F) l l',
  2 <= length (b_ids m0) -> all_ok (m0, None) (map (with_threads false) l) -> Forall2 but_threads l l' ->
  all_ok (m0, None) l' /\ after (m0, None) l' = after (m0, None) (map (with_threads false) l).
Proof.
  intros F NF NT m0 l l' H A T. assert (Hx : 2 <= length (b_ids (fst (m0, @None (fs F))))) by exact H. clear H. revert Hx A. generalize (m0, @None (fs F)). 
  induction T as [|c c' l l' E T IH]; intros x H A; [split; [exact I|reflexivity]|]. cbn [map all_ok] in A. destruct A as (A & A').
  destruct (of_threads c') as (b & Eb). unfold but_threads in E.
  assert (Q : exec c' x = exec (with_threads false c) x) by (rewrite Eb, E; apply exec_threads; auto; now rewrite <- E).
  cbn [all_ok after fold_left map]. rewrite Q. destruct (IH (fst (exec (with_threads false c) x))) as (I1 & I2); auto.
  apply (c_exec (fun m => 2 <= length (b_ids m))); auto; intros v m; destruct m; auto.
Qed.
(** C124: the vectorised path does not look at the argument at all. *)
Lemma L_C124_vectorised :
  forall (F : Type) (NF : Num F) (NT : NumT F) b (c : call F) x, vectorised c -> exec (with_threads b c) x = exec c x.
Proof.
  intros F NF NT b c x V. destruct c; auto; cbn [vectorised with_threads exec] in *; destruct V as (V1 & V2); unfold of_solution; destruct (snd x) as [s|]; auto.
  - now rewrite (solve_vect slv sc sparse b).
  - unfold run, mbind. subst vect pr. match goal with |- context [mset ?f ?y] => destruct (mset f y) as [y' [[]|e]] end; auto.
    assert (H : run_loop slv sc n fuel sparse (mkOpts b true mb true false iso) y' = run_loop slv sc n fuel sparse (mkOpts thr true mb true false iso) y'); [|now rewrite H].
    revert y'. induction n as [|n IH]; intros y'; [reflexivity|]. cbn [run_loop]. unfold mbind.
    pose proof (solve_vect slv sc sparse b fuel (mkOpts thr true mb true false iso) y' eq_refl eq_refl) as Q. cbn [o_vect o_mb o_upd o_print o_iso] in Q. rewrite Q.
    destruct (solve slv sc fuel sparse (mkOpts thr true mb true false iso) y') as [y2 [[]|e]]; auto.
Qed.
(** C124 is false: a compressible reservoir of three closed cells at pressure 0. Without
    threads the step raises TypeError and records nothing; with threads (the default of
    run) the error is dropped, the system is 0 p = 0, and the step records whatever the
    solver gives for it. *)
Lemma L_C124_threads_refuted :
  exists (m : bo Q) (s : fs Q) A d, build 3 1 1 None 1%Q (Some 0%Q) None = Ok m /\ s = fdm_new m /\
  snd (get_matrices_symb oneQ true (m, s)) = Ok (A, d) /\ (forall p q, p < 3 -> q < 3 -> ment A p q = 0%Q) /\ d = [Some 0%Q; Some 0%Q; Some 0%Q] /\
  forall (NT : NumT Q) a b c,
  let solve_with thr := exec (with_threads thr (Solve (gives [a; b; c]) oneQ 1 false (mkOpts false false false true false None))) (m, Some s) in
  snd (solve_with false) = Err TypeError /\ option_map (fun s => s_p s) (snd (fst (solve_with false))) = Some (s_p s) /\
  snd (solve_with true) = Ok tt /\ option_map (fun s => s_p s) (snd (fst (solve_with true))) = Some (s_p s ++ [[None; Some a; Some b; Some c; None]])%list.
Proof.
  do 4 eexists. split; [vm_compute; reflexivity|]. split; [reflexivity|]. split; [vm_compute; reflexivity|].
  split; [intros [|[|[|p]]] [|[|[|q]]] Hp Hq; try lia; vm_compute; reflexivity|]. split; [reflexivity|].
  intros NT a b c. cbv zeta. repeat split; vm_compute; reflexivity.
Qed.

(** ** Cases *)
(** C124: three cells at pressure 10; a solve and a run of two steps, the pressure on the
    left held at 6; threads in the run. *)
Example ex_C124_threads_case : forall NT : NumT Q, exists (m : bo Q) l l', build 3 1 1 None 1%Q (Some 10%Q) None = Ok m /\ 2 <= length (b_ids m) /\
  all_ok (m, None) (map (with_threads false) l) /\ Forall2 but_threads l l' /\ l <> l' /\
  option_map (fun s => length (s_p s)) (snd (after (m, None) l')) = Some 4.
Proof.
  intros NT. eexists. exists [Set_boundaries [(0%Z, ("pressure"%string, 6%Q))]; Compile; Solve (gives [7; 8; 9]%Q) oneQ 1 false (mkOpts false false false true false None); Run (gives [7; 7; 8]%Q) oneQ 2 1 false false false false false None],
    [Set_boundaries [(0%Z, ("pressure"%string, 6%Q))]; Compile; Solve (gives [7; 8; 9]%Q) oneQ 1 false (mkOpts false false false true false None); Run (gives [7; 7; 8]%Q) oneQ 2 1 false true false false false None].
  split; [vm_compute; reflexivity|]. split; [vm_compute; lia|]. split; [vm_compute; repeat split|]. split; [repeat constructor|]. split; [congruence|vm_compute; reflexivity].
Qed.
(** C124: a vectorised run. *)
Example ex_C124_vectorised_case : forall NT : NumT Q, exists (m : bo Q) c c' x, build 3 1 1 None 1%Q (Some 10%Q) None = Ok m /\ x = (m, Some (fdm_new m)) /\
  vectorised c /\ c' = with_threads true c /\ c' <> c /\ snd (exec c x) = Ok tt.
Proof.
  intros NT. do 2 eexists. exists (with_threads true (Run (gives [10; 10; 10]%Q) oneQ 2 1 false false true false false None)). eexists. split; [vm_compute; reflexivity|]. split; [reflexivity|].
  split; [|split; [reflexivity|split]]; [split; reflexivity|discriminate|vm_compute; reflexivity].
Qed.
