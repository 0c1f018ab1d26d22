(** Boundary conditions on corners and edges of the grid. *)
From Coq Require Import String ZArith Bool Arith List Lia Reals Lra QArith.
From Verif Require Import Prelude PreludeFacts Num GridModel GridSpec GridProofs GridNeighbors GridThm GeoModel PropModel PropSpec FaceFacts UnitsModel BlackOilModel FdmModel MonadFacts InvFacts
  HistSpec ModelSpec ModelFacts Samples SampleFacts SampleBal QSamples CanonFacts BalanceSpec ThreadSpec.
Import ListNotations.
Close Scope R_scope.
Close Scope Q_scope.
Open Scope nat_scope.

Section corner.
Context {F : Type} {NF : Num F}.
Lemma fold_nil {A X} (f : res (list X) -> A -> res (list X)) l : (forall a, f (Ok []) a = Ok [] \/ exists e, f (Ok []) a = Err e) -> (forall e a, exists e', f (Err e) a = Err e') ->
  fold_left f l (Ok []) = Ok [] \/ exists e, fold_left f l (Ok []) = Err e.
Proof.
  intros H1 H2. assert (H3 : forall l e, exists e', fold_left f l (Err e) = Err e').
  { clear l. induction l as [|a l IH]; intros e; cbn [fold_left]; [eauto|]. destruct (H2 e a) as (e' & ->). apply IH. }
  induction l as [|a l IH]; cbn [fold_left]; [now left|]. destruct (H1 a) as [->|(e & ->)]; auto.
Qed.
Lemma corner_alone (m : bo F) c : let g := gr (geom (b_grid m)) in wf g -> has_flow g -> boundary_cell g c -> ~ on_one_face g c ->
  forall T, get_cell_trans m (natural_id g c) false = Ok T -> T = [].
Proof.
  intros g W HF B N T. destruct (L_C11_boundary_cell_one_neighbor g c W HF B) as (d & Ed & Le & T1).
  assert (Z : total d = 0) by (destruct (total d) as [|[|]]; try lia; exfalso; apply N, T1; reflexivity). clear Le T1 N.
  unfold get_cell_trans, get_cell_G. change (ggrid (b_grid m)) with g. rewrite Ed. cbn [rbind]. generalize (get_fdir g).
  assert (Q : forall a, dirs_get a d = []).
  { destruct d as [dx dy dz]. unfold total in Z. cbn [d_x d_y d_z] in Z. rewrite ?app_length in Z.
    intros []; cbn [dirs_get d_x d_y d_z]; apply length_zero_iff_nil; cbn; lia. }
  intros l. match goal with |- context [fold_left ?f l (Ok [])] => pose proof (fold_nil f l) as G end.
  destruct G as [G|(e & G)]; [| |rewrite G; cbn [rbind map]; congruence|rewrite G; cbn [rbind]; congruence].
  - intros a. cbn [rbind]. rewrite Q. cbn [fold_left]. destruct (cell_kAd (b_grid m) a (ById (natural_id g c))); cbn [rbind]; eauto.
  - intros e a. exists e. reflexivity.
Qed.

Context {NT : NumT F}.
Context (slv : solver_kind -> @mat F -> list (option F) -> res (list (option F))) (sc : Z -> F).
Definition at_corner (gr0 : gobj F) (id : Z) (m : bo F) : Prop := b_grid m = gr0 /\ In id (b_bup m).
Ltac kept := intros; unfold at_corner in *; match goal with |- context [b_grid (?f ?v ?m)] => destruct m end; assumption.
Lemma miter_in {S A} (f : A -> M S unit) l a x y : In a l -> miter f l x = (y, Ok tt) -> exists x1 x2, f a x1 = (x2, Ok tt) /\ exists l1 l2, l = (l1 ++ a :: l2)%list /\ miter f l1 x = (x1, Ok tt).
Proof.
  revert x. induction l as [|b l IH]; intros x I E; [destruct I|]. cbn [miter] in E. apply mbind_ok in E as ([] & x1 & E1 & E).
  destruct I as [->|I]; [exists x, x1; split; auto; exists [], l; split; reflexivity|].
  destruct (IH x1 I E) as (y1 & y2 & H1 & l1 & l2 & -> & H2). exists y1, y2. split; auto. exists (b :: l1), l2. split; auto. cbn [miter]. now rewrite (mbind_run _ _ _ x1 tt).
Qed.
Lemma corner_solve fuel sparse o (x : st F) gr0 c : let g := gr (geom gr0) in wf g -> has_flow g -> boundary_cell g c -> ~ on_one_face g c ->
  at_corner gr0 (natural_id g c) (fst x) -> o_upd o = true -> snd (solve slv sc fuel sparse o x) <> Ok tt.
Proof.
  intros g W HF B N H U E. destruct (solve slv sc fuel sparse o x) as [y r] eqn:S. cbn in E. subst r.
  destruct fuel as [|fuel]; [discriminate|]. cbn [solve] in S. rewrite U in S.
  apply mbind_ok in S as (Ad & x1 & E1 & S). apply mbind_ok in S as (p & x2 & E2 & S). apply mread_ok in E2 as (-> & _).
  apply mbind_ok in S as ([] & x3 & E3 & S). apply mbind_ok in S as ([] & x4 & E4 & S). clear S.
  assert (H1 : at_corner gr0 (natural_id g c) (fst x1)) by (pose proof (c_system (at_corner gr0 (natural_id g c)) ltac:(kept) sc o x H) as Q; now rewrite E1 in Q).
  assert (H3 : at_corner gr0 (natural_id g c) (fst x3)) by (pose proof (c_rows (at_corner gr0 (natural_id g c)) (fst Ad) (snd Ad) p x1 H1) as Q; now rewrite E3 in Q).
  unfold update_boundaries in E4. apply mbind_ok in E4 as (ids & x5 & E5 & E4). apply mread_ok in E5 as (-> & E5). injection E5 as <-.
  destruct (miter_in _ _ _ _ _ (proj2 H3) E4) as (y1 & y2 & F1 & l1 & l2 & _ & F2).
  assert (H4 : at_corner gr0 (natural_id g c) (fst y1)).
  { assert (I : inv (fun x => at_corner gr0 (natural_id g c) (fst x)) (miter update_boundary l1)).
    { apply i_iter. intros a _. unfold update_boundary. isplit. intros. apply c_put_r. }
    specialize (I x3 H3). now rewrite F2 in I. }
  unfold update_boundary in F1. apply mbind_ok in F1 as (T & y3 & F3 & _). apply mread_ok in F3 as (_ & F3).
  destruct (get_cell_trans (fst y1) (natural_id g c) false) as [L|e] eqn:Q; [|discriminate]. cbn [rbind] in F3.
  destruct H4 as (H4 & _). pose proof (corner_alone (fst y1) c) as K. cbv zeta in K. rewrite H4 in K. rewrite (K W HF B N L Q) in F3. discriminate.
Qed.
End corner.

(** C125, what holds: a boundary cell of a reservoir is coupled to interior cells only
    if it lies on one face of the grid, and then to exactly one, with a positive
    transmissibility. *)
Lemma L_C125_face_partial :
  forall (m : bo R) x y z u dx dy dz c, model m x y z u dx dy dz -> let g := gr (geom (b_grid m)) in boundary_cell g c ->
  (on_one_face g c <-> exists id T, get_cell_trans m (natural_id g c) false = Ok [(id, T)]) /\
  (forall T, get_cell_trans m (natural_id g c) false = Ok T -> forall id t, In (id, t) T -> In id (b_ids m) /\ (0 < t)%R).
Proof.
  intros m x y z u dx dy dz c K g B. pose proof (md_wf K) as W. pose proof (md_flow _ _ _ _ _ _ _ _ K) as HF.
  destruct (L_C11_boundary_cell_one_neighbor g c W HF B) as (d & Ed & Le & T1).
  assert (D : on_one_face g c \/ ~ on_one_face g c).
  { destruct (Nat.eq_dec (total d) 1) as [E|E]; [left; now apply T1|right; intros H; apply E; now apply T1]. }
  destruct D as [D|D].
  - assert (Fi : face_id m (natural_id g c)) by (exists c; auto). destruct (edge_face K _ Fi) as (E1 & E2 & E3 & _).
    destruct (get_cell_trans m (natural_id g c) false) as [[|[id t] [|]]|] eqn:Q; cbn [rbind the_only] in E1; try discriminate.
    assert (E : edge (m := m) (natural_id g c) = (id, t)) by congruence. rewrite E in E2, E3. cbn [fst snd] in *.
    split; [split; [intros _; eauto|auto]|]. intros T ET id' t' I. assert (T = [(id, t)]) by congruence. subst T. destruct I as [I|[]]. assert (id' = id /\ t' = t) by (split; congruence). intuition congruence.
  - pose proof (corner_alone m c W HF B D) as Q. split; [split; [tauto|]|].
    + intros (id & T & E). apply Q in E. discriminate.
    + intros T E. apply Q in E. subst T. intros id t [].
Qed.
(** C125: after [set_boundaries] has accepted a pressure for a cell on an edge or corner
    of the grid, no step succeeds, whatever the path, the solver and the state of the
    solution. *)
Lemma L_C125_corner_pressure :
  forall (F : Type) (NF : Num F) slv sc fuel sparse o (x x1 : ws F) s bd c v, let g := gr (geom (b_grid (fst x))) in
  wf g -> has_flow g -> boundary_cell g c -> ~ on_one_face g c ->
  set_boundaries bd x = (x1, Ok tt) -> In (natural_id g c, ("pressure"%string, v)) bd -> o_upd o = true ->
  snd (solve slv sc fuel sparse o (fst x1, s)) <> Ok tt.
Proof.
  intros F NF slv sc fuel sparse o x x1 s bd c v g W HF B N E I U. apply (corner_solve slv sc fuel sparse o (fst x1, s) (b_grid (fst x)) c W HF B N); auto. cbn [fst].
  unfold set_boundaries in E. apply mbind_ok in E as ([] & y1 & E1 & E). apply mset_ok in E1. injection E1 as <-.
  apply mbind_ok in E as (bs & y2 & E2 & E). apply mread_ok in E2 as (-> & _). apply mbind_ok in E as ([] & y3 & E3 & E). apply mset_ok in E. injection E as <-. cbn [fst].
  set (y1 := (set_bdict bd (fst x), snd x)) in *.
  assert (G : b_grid (fst y3) = b_grid (fst x) /\ b_bdict (fst y3) = bd).
  { match type of E3 with miter ?f _ _ = _ => assert (Iv : inv (fun X : ws F => b_grid (fst X) = b_grid (fst x) /\ b_bdict (fst X) = bd) (miter f bd)) end.
    { apply i_iter. intros [id [cnd v']] _. unfold set_boundary, put_rate, put_pressure. isplit; apply i_set; intros [[] [[]|]] [? ?] (? & ?) Q; cbn [fst snd] in *;
      repeat match goal with H : rbind ?e _ = Ok _ |- _ => destruct e eqn:?; cbn [rbind] in H | H : (if ?b then _ else _) = Ok _ |- _ => destruct b | H : Err _ = Ok _ |- _ => discriminate | H : Ok _ = Ok _ |- _ => injection H; intros; subst; clear H end; auto. }
    assert (G1 : b_grid (fst y1) = b_grid (fst x) /\ b_bdict (fst y1) = bd) by (unfold y1; cbn [fst]; destruct (fst x); split; reflexivity).
    specialize (Iv y1 G1). now rewrite E3 in Iv. }
  destruct G as (G1 & G2). split; [rewrite <- G1; destruct (fst y3); reflexivity|].
  assert (Q : forall l (m : bo F), b_bup (set_bup l m) = l) by (intros l []; reflexivity). rewrite Q, G2.
  apply in_map_iff. exists (natural_id g c, ("pressure"%string, v)). split; auto. apply filter_In. split; auto.
Qed.
(** C125 is false: a rate of 5 at a corner of a closed square of four cells at
    pressure 10 is accepted and recorded, but the system of either path has the solution
    of the closed square: the pressures stay at 10 though 5 flows in. *)
Lemma L_C125_corner_rate_refuted :
  exists (m m1 : bo Q), build 2 2 1 None 1%Q (Some 10%Q) None = Ok m /\
  set_boundaries [(0%Z, ("rate"%string, 5%Q))] (m, None) = ((m1, None), Ok tt) /\ In 0%Z (match get_boundaries_id (gr (geom (b_grid m))) with Ok l => l | Err _ => [] end) /\
  forall vect, let y := solve (gives [10; 10; 10; 10]%Q) oneQ 1 false (mkOpts false vect true true false None) (m1, fdm_new m1) in let s1 := snd (fst y) in snd y = Ok tt /\
  (exists A d, s_As s1 = [A] /\ s_ds s1 = [d] /\ msize A = 4 /\
    forall p, p < 4 -> match nth p d None with Some v => (v == 10 * (ment A p 0 + ment A p 1 + ment A p 2 + ment A p 3))%Q | None => False end) /\
  length (s_r s1) = 2 /\ (forall row, In row (s_r s1) -> nth 0 row None = Some 5%Q) /\
  (forall id, In id (b_ids m) -> pyget (last (s_p s1) []) id = Ok (Some 10%Q)) /\ s_err s1 = Some (Some 1%Q).
Proof.
  do 2 eexists. split; [vm_compute; reflexivity|]. split; [vm_compute; reflexivity|]. split; [vm_compute; tauto|].
  intros vect y s1. split; [destruct vect; vm_compute; reflexivity|]. split; [|split; [|split; [|split]]].
  - assert (L : length (s_As s1) = 1 /\ length (s_ds s1) = 1) by (destruct vect; vm_compute; split; reflexivity). destruct L as (L1 & L2).
    exists (hd (mkMat 0 (fun _ _ => 0%Q)) (s_As s1)), (hd [] (s_ds s1)).
    split; [destruct (s_As s1) as [|? [|]]; try discriminate; reflexivity|]. split; [destruct (s_ds s1) as [|? [|]]; try discriminate; reflexivity|].
    clear L1 L2. split; [destruct vect; vm_compute; reflexivity|]. intros [|[|[|[|p]]]] Hp; try lia; destruct vect; vm_compute; reflexivity.
  - destruct vect; vm_compute; reflexivity.
  - assert (E : map (fun row => nth 0 row None) (s_r s1) = [Some 5%Q; Some 5%Q]) by (destruct vect; vm_compute; reflexivity).
    intros row I. apply (in_map (fun row => nth 0 row None)) in I. rewrite E in I. destruct I as [I|[I|[]]]; now symmetry.
  - assert (E : map (fun id => pyget (last (s_p s1) []) id) [5; 6; 9; 10]%Z = [Ok (Some 10%Q); Ok (Some 10%Q); Ok (Some 10%Q); Ok (Some 10%Q)]) by (destruct vect; vm_compute; reflexivity).
    intros id I. apply (in_map (fun id => pyget (last (s_p s1) []) id)) in I. cbn [b_ids] in I. rewrite E in I. destruct I as [I|[I|[I|[I|[]]]]]; now symmetry.
  - destruct vect; vm_compute; reflexivity.
Qed.
(** C125 is false of pressures as well: accepted and recorded, then both paths raise
    ValueError, and the symbolic one leaves half a step behind. *)
Lemma L_C125_corner_pressure_refuted :
  exists (m m1 : bo Q), build 2 2 1 None 1%Q (Some 10%Q) None = Ok m /\
  set_boundaries [(0%Z, ("pressure"%string, 5%Q))] (m, None) = ((m1, None), Ok tt) /\ nth 0 (b_ip m1) None = Some 5%Q /\
  forall a b c d,
  let solve_with vect := solve (gives [a; b; c; d]) oneQ 1 false (mkOpts false vect false true false None) (m1, fdm_new m1) in
  snd (solve_with true) = Err ValueError /\ length (s_p (snd (fst (solve_with true)))) = 1 /\
  snd (solve_with false) = Err ValueError /\ length (s_p (snd (fst (solve_with false)))) = 2.
Proof.
  do 2 eexists. split; [vm_compute; reflexivity|]. split; [vm_compute; reflexivity|]. split; [reflexivity|].
  intros a b c d. cbv zeta. repeat split; vm_compute; reflexivity.
Qed.

(** ** Cases *)
(** C125: the left face cell and the corner of a row and of a square. *)
Example ex_C125_face_case : exists m : bo R, build 3 1 1 None 1%R (Some 10%R) None = Ok m /\ (exists x y z u dx dy dz, model m x y z u dx dy dz) /\
  let g := gr (geom (b_grid m)) in boundary_cell g (0, 0, 0)%Z /\ on_one_face g (0, 0, 0)%Z.
Proof.
  exists (line3 (1 + 0) true (Some 10%R)). split; [apply line3_pos; lra|]. split; [do 7 eexists; apply line3_model; intros; lra|]. cbv zeta.
  destruct (side_faces (1 + 0)%R true (Some 10%R) 0%Z (or_introl eq_refl)) as (c & B & O & E).
  assert (c = (0, 0, 0)%Z).
  { apply (natural_id_inj (gr (geom (b_grid (line3 (1 + 0)%R true (Some 10%R)))))); [apply B|apply gridb_true; reflexivity|now rewrite <- E]. }
  subst c. auto.
Qed.
(** C125: a pressure at the corner of a square of four cells. *)
Example ex_C125_corner_case : exists (m : bo Q) x1, build 2 2 1 None 1%Q (Some 10%Q) None = Ok m /\
  let g := gr (geom (b_grid m)) in wf g /\ has_flow g /\ boundary_cell g (0, 0, 0)%Z /\ ~ on_one_face g (0, 0, 0)%Z /\
  let bd := [(natural_id g (0, 0, 0)%Z, ("pressure"%string, 5%Q))] in set_boundaries bd (m, None) = (x1, Ok tt).
Proof.
  do 2 eexists. split; [vm_compute; reflexivity|]. cbv zeta. split; [repeat split; cbn; lia|]. split; [left; unfold flows; cbn; lia|].
  split; [split; [apply gridb_true; reflexivity|rewrite <- interiorb_true; discriminate]|]. split; [|vm_compute; reflexivity].
  intros (a & _ & H). assert (X : AX = a) by (apply H; unfold outer, flows; cbn; lia). assert (Y : AY = a) by (apply H; unfold outer, flows; cbn; lia). congruence.
Qed.
