(** Boundary conditions: property lemmas. *)
From Coq Require Import String ZArith Bool Arith List Lia QArith Reals Lra.
From Verif Require Import Prelude PreludeFacts Num GridModel GridSpec GridProofs GeoModel PropModel PropSpec
  UnitsModel BlackOilModel FdmModel MonadFacts EqvFacts Samples WellSpec WellThm GridThm BoundarySpec.
Import ListNotations.
Close Scope Q_scope. Close Scope R_scope.
Open Scope string_scope.
Open Scope nat_scope.

(** ** Spellings *)
Lemma smem_in s l : smem s l = true <-> In s l.
Proof.
  unfold smem. rewrite existsb_exists. split.
  - intros (y & I & E). apply String.eqb_eq in E. now subst.
  - intros I. exists s. split; auto. apply String.eqb_refl.
Qed.
Lemma kind_mem c c' : same_kind c c' -> forall l, In l [RATE; PRESS; GRAD] -> smem (lower c) l = smem (lower c') l.
Proof.
  intros (k & K & I & I') l L. cbn in K, L.
  destruct K as [<-|[<-|[<-|[]]]]; cbn in I, I';
  repeat match goal with H : _ \/ _ |- _ => destruct H end; try contradiction;
  repeat match goal with H : _ = lower _ |- _ => rewrite <- H; clear H end; subst; reflexivity.
Qed.
Lemma set_boundary_kind {F} {NF : Num F} id c c' (v : F) x : same_kind c c' -> set_boundary id c v x = set_boundary id c' v x.
Proof.
  intros K. unfold set_boundary. rewrite (kind_mem c c' K RATE), (kind_mem c c' K PRESS), (kind_mem c c' K GRAD) by (cbn; auto). reflexivity.
Qed.
Lemma variants_get {F} (bd bd' : list (Z * (string * F))) : variants bd bd' -> forall id,
  match dget id bd, dget id bd' with
  | None, None => True | Some (c, v), Some (c', v') => v = v' /\ same_kind c c' | _, _ => False end.
Proof.
  induction 1 as [|[i [c v]] [i' [c' v']] l l' (E1 & E2 & K) H IH]; intros id; cbn [dget]; auto.
  cbn [fst snd] in *. subst i' v'. destruct (Z.eqb id i); auto. apply IH.
Qed.
Lemma b_term_variants {F} {NF : Num F} (bd bd' : list (Z * (string * F))) up m : variants bd bd' -> b_bdict m = bd ->
  (forall id idb T, b_term (set_bup up (set_bdict bd' m)) id idb T = b_term m id idb T) /\
  (forall id idb T, b_term (set_bdict bd' m) id idb T = b_term m id idb T) /\
  (forall id idb p T, b_num (set_bdict bd' m) id idb p T = b_num m id idb p T).
Proof.
  intros V E. pose proof (variants_get bd bd' V) as D. subst bd.
  assert (B1 : b_bdict (set_bup up (set_bdict bd' m)) = bd') by (destruct m; reflexivity).
  assert (B2 : b_bdict (set_bdict bd' m) = bd') by (destruct m; reflexivity).
  assert (Z1 : forall a b, dz (set_bup up (set_bdict bd' m)) a b = dz m a b) by (destruct m; reflexivity).
  assert (Z2 : forall a b, dz (set_bdict bd' m) a b = dz m a b) by (destruct m; reflexivity).
  assert (G1 : b_g (set_bup up (set_bdict bd' m)) = b_g m) by (destruct m; reflexivity).
  assert (G2 : b_g (set_bdict bd' m) = b_g m) by (destruct m; reflexivity).
  split; [|split]; intros id idb; specialize (D idb); intros; unfold b_term, b_num; rewrite ?B1, ?B2, ?Z1, ?Z2, ?G1, ?G2;
  destruct (dget idb (b_bdict m)) as [[c v]|], (dget idb bd') as [[c' v']|]; try contradiction; auto;
  destruct D as (-> & K); rewrite (kind_mem c c' K PRESS) by (cbn; auto); reflexivity.
Qed.

Lemma eqv_boundary {F} {NF : Num F} bd' id c (v : F) : eqv (fun _ => True) (fun x : ws F => (set_bdict bd' (fst x), snd x)) (set_boundary id c v).
Proof.
  assert (PR : forall id v, eqv (fun _ => True) (fun x : ws F => (set_bdict bd' (fst x), snd x)) (put_rate id v)).
  { intros i w. apply e_set. intros [m o] _. cbn [fst snd]. destruct m. cbn. destruct o as [s|].
    - destruct (s_tstep s =? 0); [destruct (pyset b_ir i w); cbn; auto|]. destruct (set2 (s_r s) (s_tstep s) i w); cbn; auto.
    - destruct (pyset b_ir i w); cbn; auto. }
  assert (PP : forall id v, eqv (fun _ => True) (fun x : ws F => (set_bdict bd' (fst x), snd x)) (put_pressure id v)).
  { intros i w. apply e_set. intros [m o] _. cbn [fst snd]. destruct m. cbn. destruct o as [s|].
    - destruct (s_tstep s =? 0); [destruct (pyset b_ip i w); cbn; auto|]. destruct (set2 (s_p s) (s_tstep s) i w); cbn; auto.
    - destruct (pyset b_ip i w); cbn; auto. }
  unfold set_boundary. apply e_if; [apply PR|]. apply e_if; [apply PP|]. apply e_if; [|apply e_read; auto].
  apply e_bind; [|intros; apply PR]. apply e_read. intros [m o] _. destruct m. reflexivity.
Qed.

Definition bbody {F} {NF : Num F} (bs : list Z) (e : Z * (string * F)) : M (ws F) unit :=
  match e with (id, (cond, v)) => do _ <- mread (fun _ => passert (zmem id bs)) ;; set_boundary id cond v end.
Lemma set_boundaries_unfold {F} {NF : Num F} (bd : list (Z * (string * F))) (x : ws F) :
  set_boundaries bd x =
  let x0 := (set_bdict bd (fst x), snd x) in
  match get_boundaries_id (bgrid (fst x0)) with
  | Err e => (x0, Err e)
  | Ok bs => match miter (bbody bs) bd x0 with
             | (y, Err e) => (y, Err e)
             | (y, Ok _) => ((set_bup (map fst (filter (fun e => String.eqb (fst (snd e)) "pressure") (b_bdict (fst y)))) (fst y), snd y), Ok tt)
             end
  end.
Proof.
  unfold set_boundaries, mbind, mset, mread. cbn [fst snd]. destruct (get_boundaries_id _); reflexivity.
Qed.
Lemma eqv_bbody {F} {NF : Num F} bd' bs e : eqv (fun _ => True) (fun x : ws F => (set_bdict bd' (fst x), snd x)) (bbody bs e).
Proof.
  destruct e as [i [c v]]. apply e_bind; [apply e_read; auto|]. intros _. apply eqv_boundary.
Qed.
Lemma miter_bdict {F} {NF : Num F} bs (l : list (Z * (string * F))) x : b_bdict (fst (fst (miter (bbody bs) l x))) = b_bdict (fst x).
Proof.
  assert (H : eqv (fun _ => True) (fun y : ws F => (set_bdict (b_bdict (fst x)) (fst y), snd y)) (miter (bbody bs) l)).
  { apply e_iter. intros; apply eqv_bbody. }
  destruct (H x I) as (E & _). replace (set_bdict (b_bdict (fst x)) (fst x), snd x) with x in E by (destruct x as [[] ?]; reflexivity).
  rewrite E at 1. cbn [fst]. destruct (fst (fst (miter (bbody bs) l x))). reflexivity.
Qed.
Lemma miter_variants {F} {NF : Num F} bs (l l' : list (Z * (string * F))) : variants l l' -> forall y, miter (bbody bs) l' y = miter (bbody bs) l y.
Proof.
  intros H. induction H as [|[i [c v]] [i' [c' v']] l l' (E1 & E2 & K) H IH]; intros y; [reflexivity|].
  cbn [fst snd] in *. subst i' v'. cbn [miter]. unfold mbind.
  assert (E : bbody bs (i, (c', v)) y = bbody bs (i, (c, v)) y).
  { unfold bbody, mbind, mread. destruct (passert (zmem i bs)); [|reflexivity]. symmetry. now apply set_boundary_kind. }
  rewrite E. destruct (bbody bs (i, (c, v)) y) as [y' [a|e]]; auto.
Qed.
Lemma set_boundaries_run {F} {NF : Num F} (bd bd' : list (Z * (string * F))) (x : ws F) :
  variants bd bd' -> same_pressure_word bd bd' ->
  set_boundaries bd' x = ((set_bdict bd' (fst (fst (set_boundaries bd x))), snd (fst (set_boundaries bd x))), snd (set_boundaries bd x)).
Proof.
  intros V W. rewrite !set_boundaries_unfold. cbv zeta.
  set (phi := fun x : ws F => (set_bdict bd' (fst x), snd x)). set (x0 := (set_bdict bd (fst x), snd x)).
  replace (set_bdict bd' (fst x), snd x) with (phi x0) by (unfold phi, x0; destruct x as [[] ?]; reflexivity).
  replace (bgrid (fst (phi x0))) with (bgrid (fst x0)) by (unfold phi, x0; destruct x as [[] ?]; reflexivity).
  destruct (get_boundaries_id (bgrid (fst x0))) as [bs|]; [|reflexivity].
  rewrite (miter_variants bs bd bd' V).
  assert (H : eqv (fun _ => True) phi (miter (bbody bs) bd)) by (apply e_iter; intros; apply eqv_bbody).
  destruct (H x0 I) as (E & _). rewrite E. pose proof (miter_bdict bs bd x0) as D.
  replace (b_bdict (fst x0)) with bd in D by (unfold x0; destruct x as [[] ?]; reflexivity).
  destruct (miter (bbody bs) bd x0) as [y [[]|e]]; cbn [fst snd] in *; [|reflexivity].
  replace (b_bdict (fst (phi y))) with bd' by (unfold phi; destruct y as [[] ?]; reflexivity). rewrite D.
  assert (U : map fst (filter (fun e : Z * (string * F) => String.eqb (fst (snd e)) "pressure") bd') =
              map fst (filter (fun e : Z * (string * F) => String.eqb (fst (snd e)) "pressure") bd)).
  { clear -V W. revert W. unfold same_pressure_word. induction V as [|[i [c v]] [i' [c' v']] l l' (E1 & E2 & K) H IH]; intros W; [reflexivity|].
    inversion W as [|? ? ? ? W1 W2]; subst. cbn [fst snd filter] in *. subst i'.
    destruct (String.eqb_spec c "pressure"), (String.eqb_spec c' "pressure"); cbn; try (f_equal; now apply IH); try now apply IH.
    - destruct n. now apply W1.
    - destruct n. now apply W1. }
  rewrite U. unfold phi. cbn [fst snd]. destruct (fst y). reflexivity.
Qed.

(** C34, full statement: dictionaries that are spelling variants of each other
    are equivalent.  It fails in the vectorised path (below).  What holds: if
    the word "pressure" itself is used for the same cells in both, set_boundaries
    has the same effect but for the dictionary stored, and any run afterwards the
    same results. *)
Lemma L_C34_variants_partial :
  forall (bd bd' : list (Z * (string * R))), variants bd bd' -> same_pressure_word bd bd' ->
  (forall x : ws R, set_boundaries bd' x =
     ((set_bdict bd' (fst (fst (set_boundaries bd x))), snd (fst (set_boundaries bd x))), snd (set_boundaries bd x))) /\
  (forall slv sc n fuel sparse thr vect mb pr iso (m : bo R) s, b_bdict m = bd ->
     let r := run slv sc n fuel sparse thr vect mb pr iso in
     r (with_dict bd' (m, s)) = (with_dict bd' (fst (r (m, s))), snd (r (m, s)))).
Proof.
  intros bd bd' V W. split; [intros x; now apply set_boundaries_run|].
  intros slv sc n fuel sparse thr vect mb pr iso m s E r.
  apply (e_run (set_bdict bd') (fun m => b_bdict m = bd)); try (intros m0; destruct m0; reflexivity); try (intros v m0; destruct m0; auto; reflexivity); auto.
  - intros m0 id idb T E0. now apply (b_term_variants bd bd' []).
  - intros m0 id idb p T E0. now apply (b_term_variants bd bd' []).
  - intros m0 s0 d E0. replace (b_bdict (set_bdict bd' m0)) with bd' by (destruct m0; reflexivity). rewrite E0.
    assert (Vb : forall d e, vect_b (set_bdict bd' m0, s0) d e = vect_b (m0, s0) d e) by (intros; destruct m0; reflexivity).
    generalize dependent (set_bdict bd' m0). intros m1 Vb.
    generalize (@Ok (list (fl R)) d). clear -V W Vb. revert W. unfold same_pressure_word.
    induction V as [|[i [c v]] [i' [c' v']] l l' (E1 & E2 & K) H IH]; intros W acc; [reflexivity|].
    inversion W as [|? ? ? ? W1 W2]; subst. cbn [fst snd] in *. subst i' v'. cbn [fold_left]. rewrite IH by auto. f_equal.
    destruct acc as [d|]; [|reflexivity]. cbn [rbind]. rewrite Vb. unfold vect_b. cbn [fst snd].
    assert (Ew : String.eqb c' "pressure" = String.eqb c "pressure").
    { destruct (String.eqb_spec c "pressure"), (String.eqb_spec c' "pressure"); auto; exfalso; intuition congruence. }
    rewrite Ew. reflexivity.
Qed.
(** "Rate" and "q" for one cell, "gradient" and "G" for another. *)
Example ex_C34_case :
  variants [(0%Z, ("Rate", 1%R)); (4%Z, ("gradient", 2%R)); (5%Z, ("pressure", 3%R))]
           [(0%Z, ("q", 1%R)); (4%Z, ("G", 2%R)); (5%Z, ("pressure", 3%R))] /\
  same_pressure_word [(0%Z, ("Rate", 1%R)); (4%Z, ("gradient", 2%R)); (5%Z, ("pressure", 3%R))]
           [(0%Z, ("q", 1%R)); (4%Z, ("G", 2%R)); (5%Z, ("pressure", 3%R))].
Proof.
  split.
  - repeat constructor; cbn; auto.
    + exists ["rate"; "q"]. cbn. auto 10.
    + exists ["gradient"; "grad"; "g"]. cbn. auto 10.
    + exists ["pressure"; "press"; "p"]. cbn. auto 10.
  - repeat constructor; cbn; intros; congruence.
Qed.
(** The symbolic path treats all spellings alike. *)
Lemma L_C34_symbolic :
  forall (bd bd' : list (Z * (string * R))) up sc thr (m : bo R) s, variants bd bd' -> b_bdict m = bd ->
  let r := get_matrices_symb sc thr in
  r (with_dict_up bd' up (m, s)) = (with_dict_up bd' up (fst (r (m, s))), snd (r (m, s))).
Proof.
  intros bd bd' up sc thr m s V E r.
  apply (e_symb (fun m => set_bup up (set_bdict bd' m)) (fun m => b_bdict m = bd));
  try (intros m0; destruct m0; reflexivity); try (intros v m0; destruct m0; auto; reflexivity); auto.
  intros m0 id idb T E0. now apply (b_term_variants bd bd' up).
Qed.
(** The refutation: "press" at the left end of a row of three cells is a closed
    boundary for the vectorised path, "pressure" is not; the symbolic path agrees
    with the latter. *)
Lemma L_C34_press_refuted :
  exists (m : bo Q) y y', build 3 1 1 None 1%Q (Some 7%Q) None = Ok m /\
  set_boundaries [(0%Z, ("pressure", 10%Q))] (m, None) = (y, Ok tt) /\
  set_boundaries [(0%Z, ("press", 10%Q))] (m, None) = (y', Ok tt) /\
  right_side (get_matrices_vect (fst y, fdm_new (fst y))) = Some [Some (-27); Some (-7); Some (-7)]%Q /\
  right_side (get_matrices_vect (fst y', fdm_new (fst y'))) = Some [Some (-7); Some (-7); Some (-7)]%Q /\
  right_side (get_matrices_symb (fun _ => 1%Q) false (fst y', fdm_new (fst y'))) = Some [Some (-27); Some (-7); Some (-7)]%Q.
Proof.
  do 3 eexists. split; [vm_compute; reflexivity|]. split; [vm_compute; reflexivity|]. split; [vm_compute; reflexivity|].
  split; [vm_compute; reflexivity|]. split; vm_compute; reflexivity.
Qed.

(** ** set_all_boundaries *)
(** everything but the initial rows and the rows of the solution *)
Lemma set_boundary_keeps {F} {NF : Num F} id c (v : F) x y r : set_boundary id c v x = (y, r) ->
  set_ip [] (set_ir [] (fst y)) = set_ip [] (set_ir [] (fst x)) /\
  option_map (fun s => set_p [] (set_r [] s)) (snd y) = option_map (fun s => set_p [] (set_r [] s)) (snd x).
Proof.
  assert (PR : forall i w, put_rate i w x = (y, r) -> set_ip [] (set_ir [] (fst y)) = set_ip [] (set_ir [] (fst x)) /\
     option_map (fun s => set_p [] (set_r [] s)) (snd y) = option_map (fun s => set_p [] (set_r [] s)) (snd x)).
  { intros i w. unfold put_rate, mset. destruct x as [[] o]. cbn [fst snd BlackOilModel.b_ir]. destruct o as [s|].
    - destruct (s_tstep s =? 0).
      + destruct (pyset _ i w); cbn [rbind]; intros E; inversion E; cbn; auto.
      + destruct (set2 _ _ i w); cbn [rbind]; intros E; inversion E; cbn; auto. destruct s; auto.
    - destruct (pyset _ i w); cbn [rbind]; intros E; inversion E; cbn; auto. }
  assert (PP : forall i w, put_pressure i w x = (y, r) -> set_ip [] (set_ir [] (fst y)) = set_ip [] (set_ir [] (fst x)) /\
     option_map (fun s => set_p [] (set_r [] s)) (snd y) = option_map (fun s => set_p [] (set_r [] s)) (snd x)).
  { intros i w. unfold put_pressure, mset. destruct x as [[] o]. cbn [fst snd BlackOilModel.b_ip]. destruct o as [s|].
    - destruct (s_tstep s =? 0).
      + destruct (pyset _ i w); cbn [rbind]; intros E; inversion E; cbn; auto.
      + destruct (set2 _ _ i w); cbn [rbind]; intros E; inversion E; cbn; auto. destruct s; auto.
    - destruct (pyset _ i w); cbn [rbind]; intros E; inversion E; cbn; auto. }
  unfold set_boundary. destruct (smem (lower c) RATE); [apply PR|]. destruct (smem (lower c) PRESS); [apply PP|].
  destruct (smem (lower c) GRAD); [|intros E; inversion E; auto].
  unfold mbind, mread. destruct (grad_rate (fst x) id v); [apply PR|]. intros E; inversion E; auto.
Qed.
(** C35, full statement: set_all_boundaries(cond, v) has the effect of
    set_boundaries with (cond, v) for every boundary cell.  It fails (below).
    What holds: the initial pressures and rates, those of the solution and the
    outcome are the same; missing: bdict and bdict_update, which the assembly
    reads, are left as they were. *)
Lemma L_C35_all_boundaries_partial :
  forall (x : ws R) bs cond v, get_boundaries_id (gr (geom (b_grid (fst x)))) = Ok bs ->
  let all := map (fun id => (id, (cond, v))) bs in
  let y := fst (set_all_boundaries cond v x) in let z := fst (set_boundaries all x) in
  snd (set_all_boundaries cond v x) = snd (set_boundaries all x) /\
  b_ip (fst y) = b_ip (fst z) /\ b_ir (fst y) = b_ir (fst z) /\ snd y = snd z /\
  b_bdict (fst y) = b_bdict (fst x) /\ b_bup (fst y) = b_bup (fst x) /\ b_bdict (fst z) = all.
Proof.
  intros x bs cond v Hb all y z. subst y z. rewrite set_boundaries_unfold. cbv zeta.
  unfold set_all_boundaries, mbind, mread at 1 2 3 4 5 6.
  set (phi := fun x : ws R => (set_bdict all (fst x), snd x)). change (set_bdict all (fst x), snd x) with (phi x).
  replace (bgrid (fst (phi x))) with (bgrid (fst x)) by (unfold phi; destruct x as [[] ?]; reflexivity).
  unfold bgrid, ggrid. rewrite Hb.
  assert (Em : forall l (w : ws R), incl l bs -> miter (bbody bs) (map (fun id => (id, (cond, v))) l) w = miter (fun id => set_boundary id cond v) l w).
  { induction l as [|i l IH]; intros w Il; [reflexivity|]. cbn [map miter]. unfold mbind at 1 2.
    assert (E : bbody bs (i, (cond, v)) w = set_boundary i cond v w).
    { unfold bbody, mbind, mread. rewrite (proj2 (zmem_In i bs)) by (apply Il; now left). reflexivity. }
    rewrite E. destruct (set_boundary i cond v w) as [w' [[]|e]]; [|reflexivity]. apply IH. intros a Ha. apply Il. now right. }
  assert (Em' : forall w, miter (bbody bs) all w = miter (fun id => set_boundary id cond v) bs w) by (intros w; apply Em, incl_refl).
  rewrite !Em'.
  assert (H : eqv (fun _ => True) phi (miter (fun id => set_boundary id cond v) bs)) by (apply e_iter; intros; apply eqv_boundary).
  destruct (H x I) as (E & _). rewrite E.
  assert (K : b_bdict (fst (fst (miter (fun id => set_boundary id cond v) bs x))) = b_bdict (fst x) /\
              b_bup (fst (fst (miter (fun id => set_boundary id cond v) bs x))) = b_bup (fst x)).
  { clear. revert x. induction bs as [|i l IH]; intros x; [auto|]. cbn [miter]. unfold mbind.
    destruct (set_boundary i cond v x) as [w r] eqn:Eb. destruct (set_boundary_keeps _ _ _ _ _ _ Eb) as (K & _).
    assert (Kd : b_bdict (fst w) = b_bdict (fst x)) by (apply (f_equal (@b_bdict R)) in K; destruct (fst w), (fst x); exact K).
    assert (Ku : b_bup (fst w) = b_bup (fst x)) by (apply (f_equal (@b_bup R)) in K; destruct (fst w), (fst x); exact K).
    destruct r; cbn [fst]; [|auto]. destruct (IH w) as (-> & ->). auto. }
  destruct K as (K1 & K2).
  destruct (miter (fun id => set_boundary id cond v) bs x) as [w [[]|e]]; cbn [fst snd] in *; unfold phi; cbn [fst snd];
  destruct (fst w); cbn in *; auto 10.
Qed.
Example ex_C35_case :
  exists m : bo R, build 3 1 1 None 1%R (Some 7%R) None = Ok m /\ get_boundaries_id (gr (geom (b_grid m))) = Ok [0; 4]%Z.
Proof. destruct (line3_built 1 (Some 7%R)) as (m & E & G & _); [lra|]. exists m. split; auto. rewrite G. reflexivity. Qed.
(** The refutation: pressure 10 on all boundaries. *)
Lemma L_C35_all_boundaries_refuted :
  exists (m : bo Q) y y', build 3 1 1 None 1%Q (Some 7%Q) None = Ok m /\
  set_all_boundaries "pressure" 10%Q (m, None) = (y, Ok tt) /\
  set_boundaries [(0%Z, ("pressure", 10%Q)); (4%Z, ("pressure", 10%Q))] (m, None) = (y', Ok tt) /\
  right_side (get_matrices_vect (fst y, fdm_new (fst y))) = Some [Some (-7); Some (-7); Some (-7)]%Q /\
  right_side (get_matrices_vect (fst y', fdm_new (fst y'))) = Some [Some (-27); Some (-7); Some (-27)]%Q /\
  right_side (get_matrices_symb (fun _ => 1%Q) false (fst y, fdm_new (fst y))) = Some [Some (-7); Some (-7); Some (-7)]%Q.
Proof.
  do 3 eexists. split; [vm_compute; reflexivity|]. split; [vm_compute; reflexivity|]. split; [vm_compute; reflexivity|].
  split; [vm_compute; reflexivity|]. split; vm_compute; reflexivity.
Qed.

(** ** Before or after compile *)
Section firststep.
Context {F : Type} {NF : Num F}.
Variable (pp rr : list (list (fl F))) (ids : list Z).
Notation phi := (fun x : st F => (fst x, set_r rr (set_p pp (snd x)))).
Definition agreeP (x : st F) : Prop :=
  s_tstep (snd x) = 0 /\ b_ids (fst x) = ids /\
  (exists a b, nth_error (s_p (snd x)) 0 = Some a /\ nth_error pp 0 = Some b /\ forall id, In id ids -> pyget b id = pyget a id) /\
  (forall id, dget id (b_wells (fst x)) <> None -> In id ids).
Definition agreeR (x : st F) : Prop := agreeP x /\ s_r (snd x) = rr.

Lemma ag_at2 x id : agreeP x -> In id ids -> at2 pp 0 id = at2 (s_p (snd x)) (s_tstep (snd x)) id.
Proof. intros (T & _ & (a & b & Ea & Eb & E) & _) I. unfold at2. rewrite T, Ea, Eb. now apply E. Qed.
Lemma ag_a x id : agreeP x -> In id ids -> a_term (fst x) (set_r rr (set_p pp (snd x))) id = a_term (fst x) (snd x) id.
Proof.
  intros H I. unfold a_term. destruct (b_cmp (fst x)); [|reflexivity].
  replace (s_p (set_r rr (set_p pp (snd x)))) with pp by (destruct (snd x); reflexivity).
  replace (s_tstep (set_r rr (set_p pp (snd x)))) with 0 by (destruct H as (T & _); destruct (snd x); symmetry; exact T).
  now rewrite (ag_at2 x id H I).
Qed.
Lemma e_bind_read {S A B} (P : S -> Prop) ph (f : S -> res A) (k : A -> M S B) : (forall s, P s -> f (ph s) = f s) ->
  (forall a, (exists s, P s /\ f s = Ok a) -> eqv P ph (k a)) -> eqv P ph (mbind (mread f) k).
Proof.
  intros H K s Ps. unfold mbind, mread. rewrite H by auto. destruct (f s) as [a|] eqn:E; [|cbn; auto].
  apply K; [|exact Ps]. now exists s.
Qed.
Lemma fe_cell_eq sc id : In id ids -> eqv agreeP phi (get_cell_eq sc id).
Proof.
  intros I. unfold get_cell_eq. apply e_bind; [|intros t; apply e_bind; [|intros; apply e_read; auto]].
  - apply e_read. intros x H. cbn [fst]. destruct (dget id (b_terms (fst x))) as [t|].
    + pose proof (ag_a x id H I) as E. destruct x as [m s]. unfold old_terms. cbn [fst snd] in *. now rewrite E.
    + pose proof (ag_a x id H I) as E. destruct x as [m s]. unfold new_terms. cbn [fst snd] in *. now rewrite E.
  - apply e_set. intros x H. cbn [fst snd]. split; [reflexivity|]. destruct H as (T & Eids & E & W).
    repeat split; cbn [fst snd]; auto; destruct (fst x); auto.
Qed.
Lemma fe_loop sc l : incl l ids -> eqv agreeP phi (cells_eq_loop sc l).
Proof.
  induction l as [|i l IH]; intros I; cbn; [apply e_ret|].
  apply e_bind; [apply fe_cell_eq, I; now left|]. intros e. apply e_bind; [apply IH; intros a Ha; apply I; now right|]. intros; apply e_ret.
Qed.
Lemma fe_symb sc thr : eqv agreeP phi (get_matrices_symb sc thr).
Proof.
  unfold get_matrices_symb. apply e_bind; [|intros eqs; apply e_bind; [|intros _; apply e_bind; [|intros _]]].
  - unfold get_cells_eq. apply e_bind_read; [auto|]. intros l (x & H & E). apply fe_loop.
    assert (Ei : b_ids (fst x) = ids) by apply H. rewrite Ei in E.
    destruct (thr && (length ids / 2 =? 0)); inversion E. apply incl_refl.
  - apply e_set. intros x H. cbn [fst snd].
    assert (T : s_tstep (snd x) = 0) by apply H.
    replace (s_tstep (set_r rr (set_p pp (snd x)))) with (s_tstep (snd x)) by (destruct (snd x); reflexivity). rewrite T. cbn [Nat.eqb orb].
    split; [destruct (snd x); reflexivity|]. unfold agreeP in *. cbn [fst snd] in *.
    destruct (snd x); exact H.
  - apply e_set. intros x H. cbn [fst snd].
    replace (s_sym (set_r rr (set_p pp (snd x)))) with (s_sym (snd x)) by (destruct (snd x); reflexivity).
    destruct (attrE (s_sym (snd x))); cbn [rbind]; [|auto]. destruct (symb_rows _ _ _ _ _); cbn [rbind]; [|auto].
    split; [destruct (snd x); reflexivity|]. unfold agreeP in *. cbn [fst snd] in *. destruct (snd x); exact H.
  - apply e_read. intros x H. cbn. destruct (snd x); reflexivity.
Qed.
Lemma fe_keep (f : bo F -> fs F -> res (fs F)) :
  (forall m s s', f m s = Ok s' -> s_p s' = s_p s /\ s_r s' = s_r s /\ s_tstep s' = s_tstep s) ->
  (forall m s, f m (set_r rr (set_p pp s)) = match f m s with Ok s' => Ok (set_r rr (set_p pp s')) | Err e => Err e end) ->
  eqv agreeR phi (mset (fun x => let* s := f (fst x) (snd x) in Ok (fst x, s))).
Proof.
  intros K E. apply e_set. intros x H. cbn [fst snd]. rewrite E. specialize (K (fst x) (snd x)).
  destruct (f (fst x) (snd x)) as [s'|e]; cbn [rbind]; [|auto]. split; [reflexivity|].
  destruct (K s' eq_refl) as (K1 & K2 & K3). unfold agreeR, agreeP in *. cbn [fst snd] in *. now rewrite K1, K2, K3.
Qed.
Lemma eqv_ext {S A} P (ph : S -> S) (c c' : M S A) : (forall s, c s = c' s) -> eqv P ph c -> eqv P ph c'.
Proof. intros E H s Ps. rewrite <- !E. now apply H. Qed.
Lemma fe_addto id v : eqv agreeR phi (addto_A id v).
Proof.
  eapply eqv_ext; [|apply (fe_keep (fun m s => let* i := cell_i m id in let* A := attrE (s_A s) in
     match v with Some v => Ok (set_A (Some (mat_addto A i v)) s) | None => Err ValueError end))].
  - intros [m s]. unfold addto_A, mset. cbn [fst snd]. destruct (cell_i m id); cbn [rbind]; [|reflexivity].
    destruct (attrE (s_A s)); cbn [rbind]; [|reflexivity]. destruct v; reflexivity.
  - intros m s s'. destruct (cell_i m id); cbn [rbind]; [|discriminate].
    destruct (attrE (s_A s)); cbn [rbind]; [|discriminate]. destruct v; [|discriminate]. intros E; inversion E. destruct s; auto.
  - intros m s. replace (s_A (set_r rr (set_p pp s))) with (s_A s) by (destruct s; reflexivity).
    destruct (cell_i m id); cbn [rbind]; [|reflexivity].
    destruct (attrE (s_A s)); cbn [rbind]; [|reflexivity]. destruct v; [|reflexivity]. destruct s; reflexivity.
Qed.
Lemma fe_setr (f : bo F -> fs F -> res (fs F)) (c : M (st F) unit) :
  (forall x, c x = mset (fun x => let* s := f (fst x) (snd x) in Ok (fst x, s)) x) ->
  (forall m s s', f m s = Ok s' -> s_p s' = s_p s /\ s_r s' = s_r s /\ s_tstep s' = s_tstep s) ->
  (forall m s, f m (set_r rr (set_p pp s)) = match f m s with Ok s' => Ok (set_r rr (set_p pp s')) | Err e => Err e end) ->
  eqv agreeR phi c.
Proof. intros E K1 K2. eapply eqv_ext; [intros x; symmetry; apply E|]. now apply fe_keep. Qed.
Lemma fe_init_b idb : eqv agreeR phi (init_b idb).
Proof.
  unfold init_b. apply e_bind; [apply e_read; auto|]. intros T. apply e_bind; [apply e_read; auto|]. intros b.
  apply e_bind; [apply e_read; auto|]. intros v. apply e_bind; [|intros; apply fe_addto].
  apply (fe_setr (fun m s => Ok (set_bv (dset idb (fst v, snd v, fst T) (s_bv s)) s))).
  - reflexivity.
  - intros m s s' E. inversion E. destruct s; auto.
  - intros m s. destruct s; reflexivity.
Qed.
Lemma fe_init : eqv agreeR phi init_vect.
Proof.
  unfold init_vect. apply e_bind; [|intros _; apply e_bind; [|intros _; apply e_bind; [|intros _; apply e_bind; [apply e_read; auto|]]]].
  - apply (fe_setr (fun m s => Ok (set_res [] s))); [reflexivity| |intros m s; destruct s; reflexivity].
    intros m s s' E. inversion E. destruct s; auto.
  - apply (fe_setr (fun m s => let* A := init_A m in Ok (set_A (Some A) s))).
    + intros [m s]. unfold mset. cbn [fst snd]. destruct (init_A m); reflexivity.
    + intros m s s'. destruct (init_A m); cbn [rbind]; [|discriminate]. intros E. inversion E. destruct s; auto.
    + intros m s. destruct (init_A m); [destruct s; reflexivity|reflexivity].
  - apply (fe_setr (fun m s => Ok (set_bv [] s))); [reflexivity| |intros m s; destruct s; reflexivity].
    intros m s s' E. inversion E. destruct s; auto.
  - intros l. apply e_iter. intros; apply fe_init_b.
Qed.
Lemma fe_well id du : In id ids -> eqv agreeR phi (vect_well id du).
Proof.
  intros I. unfold vect_well. apply e_bind; [apply e_read; auto|]. intros w. apply e_bind; [apply e_read; auto|]. intros cq.
  apply e_if.
  - apply e_read. intros x [H _]. cbn [fst snd].
    replace (s_p (set_r rr (set_p pp (snd x)))) with pp by (destruct (snd x); reflexivity).
    replace (s_tstep (set_r rr (set_p pp (snd x)))) with 0 by (destruct H as (T & _); destruct (snd x); symmetry; exact T).
    now rewrite (ag_at2 x id H I).
  - apply e_bind; [apply e_read; auto|]. intros cp. apply e_if; [|apply e_ret].
    apply e_bind; [apply e_read; auto|]. intros v. apply e_bind; [apply e_read; auto|]. intros d.
    apply e_bind; [apply e_read; intros x _; cbn [fst snd]; destruct (snd x); reflexivity|]. intros done.
    apply e_bind; [|intros; apply e_ret]. apply e_when. intros _. apply e_bind; [apply fe_addto|]. intros _.
    apply (fe_setr (fun m s => Ok (set_res (dset id true (s_res s)) s))); [reflexivity| |intros m s; destruct s; reflexivity].
    intros m s s' E. inversion E. destruct s; auto.
Qed.
Lemma fe_wells l : incl l ids -> forall du, eqv agreeR phi (vect_wells l du).
Proof.
  induction l as [|i l IH]; intros I du; cbn; [apply e_ret|].
  apply e_bind; [apply fe_well, I; now left|]. intros du'. apply IH. intros a Ha; apply I; now right.
Qed.
Lemma fe_vect : eqv agreeR phi get_matrices_vect.
Proof.
  unfold get_matrices_vect. apply e_bind.
  { apply e_read. intros x _. cbn [fst snd]. destruct (snd x); reflexivity. }
  intros ini. apply e_bind; [apply e_when; intros _; apply fe_init|]. intros _. apply e_bind.
  { apply e_read. intros x [H _]. destruct x as [m s]. unfold init_d. cbn [fst snd] in *. destruct (b_cmp m); [|reflexivity].
    destruct H as (T & Ei & (a & b & Ea & Eb & E) & _). cbn [fst snd] in *.
    replace (s_p (set_r rr (set_p pp s))) with pp by (destruct s; reflexivity).
    replace (s_tstep (set_r rr (set_p pp s))) with 0 by (destruct s; symmetry; exact T).
    rewrite T, Ea, Eb, Ei. cbn [rbind]. destruct (at_ids ids (b_RHS m)); cbn [rbind]; [|reflexivity].
    assert (Ep : at_ids ids b = at_ids ids a).
    { unfold at_ids. clear -E. revert E. generalize ids. intros l E. induction l as [|i l IH]; cbn; [reflexivity|].
      rewrite E by now left. rewrite IH; [reflexivity|]. intros; apply E; now right. }
    rewrite Ep. reflexivity. }
  intros d. apply e_bind_read; [auto|]. intros l (x & H & E). inversion E; subst l.
  assert (I : incl (dkeys (b_wells (fst x))) ids).
  { intros i Hi. destruct H as [(_ & _ & _ & W) _]. apply W. now apply dget_keys. }
  clear H E. generalize dependent (dkeys (b_wells (fst x))). intros l I. clear x.
  apply e_bind; [now apply fe_wells|]. intros du. apply e_bind.
  { apply e_read. intros x [H R]. cbn [fst snd]. generalize (@Ok (list (fl F)) (fst du)). induction (b_bdict (fst x)) as [|e l' IH]; intros acc; [reflexivity|].
    cbn [fold_left]. rewrite IH. f_equal. destruct acc as [d'|]; cbn [rbind]; [|reflexivity].
    destruct x as [m s]. cbn [fst snd] in *. destruct s. cbn in R. subst. reflexivity. }
  intros d'. apply e_bind; [apply e_read; auto|]. intros d''. apply e_bind.
  { apply e_read. intros x _. cbn [fst snd]. destruct (snd x); reflexivity. }
  intros; apply e_ret.
Qed.
End firststep.

(** setting boundaries at step 0 does not touch the solution, nor differ by it *)
Lemma boundary_step0 {F} {NF : Num F} id c (v : F) (m : bo F) s : s_tstep s = 0 ->
  set_boundary id c v (m, Some s) = ((fst (fst (set_boundary id c v (m, None))), Some s), snd (set_boundary id c v (m, None))) /\
  snd (fst (set_boundary id c v (m, None))) = None.
Proof.
  intros T. unfold set_boundary.
  assert (PR : forall i w, put_rate i w (m, Some s) = ((fst (fst (put_rate i w (m, None))), Some s), snd (put_rate i w (m, None))) /\
     snd (fst (put_rate i w (m, None))) = None).
  { intros i w. unfold put_rate, mset. cbn [fst snd]. rewrite T. cbn [Nat.eqb]. destruct (pyset (b_ir m) i w); cbn; auto. }
  assert (PP : forall i w, put_pressure i w (m, Some s) = ((fst (fst (put_pressure i w (m, None))), Some s), snd (put_pressure i w (m, None))) /\
     snd (fst (put_pressure i w (m, None))) = None).
  { intros i w. unfold put_pressure, mset. cbn [fst snd]. rewrite T. cbn [Nat.eqb]. destruct (pyset (b_ip m) i w); cbn; auto. }
  destruct (smem (lower c) RATE); [apply PR|]. destruct (smem (lower c) PRESS); [apply PP|].
  destruct (smem (lower c) GRAD); [|cbn; auto]. unfold mbind, mread. cbn [fst]. destruct (grad_rate m id v); [apply PR|cbn; auto].
Qed.
Lemma boundaries_step0 {F} {NF : Num F} (bd : list (Z * (string * F))) (m : bo F) s : s_tstep s = 0 ->
  set_boundaries bd (m, Some s) = ((fst (fst (set_boundaries bd (m, None))), Some s), snd (set_boundaries bd (m, None))) /\
  snd (fst (set_boundaries bd (m, None))) = None.
Proof.
  intros T. rewrite !set_boundaries_unfold. cbv zeta. cbn [fst snd]. destruct (get_boundaries_id _) as [bs|]; [|cbn; auto].
  assert (K : forall l (m : bo F), miter (bbody bs) l (m, Some s) = ((fst (fst (miter (bbody bs) l (m, None))), Some s), snd (miter (bbody bs) l (m, None))) /\
     snd (fst (miter (bbody bs) l (m, None))) = None).
  { induction l as [|[i [c v]] l IH]; intros m0; [cbn; auto|]. cbn [miter]. unfold mbind.
    assert (Eb : forall y, bbody bs (i, (c, v)) y = match passert (zmem i bs) with Ok _ => set_boundary i c v y | Err e => (y, Err e) end) by reflexivity.
    rewrite !Eb.
    destruct (passert (zmem i bs)); [|cbn; auto]. destruct (boundary_step0 i c v m0 s T) as (E1 & E2). rewrite E1.
    destruct (set_boundary i c v (m0, None)) as [[m1 o] [[]|e]]; cbn [fst snd] in *; subst o; [|auto]. apply IH. }
  destruct (K bd (set_bdict bd m)) as (E1 & E2). rewrite E1.
  destruct (miter (bbody bs) bd (set_bdict bd m, None)) as [[m1 o] [[]|e]]; cbn [fst snd] in *; subst o; auto.
Qed.

Lemma nth_error_upd_other {A} (l : list A) i j v : i <> j -> nth_error (upd l i v) j = nth_error l j.
Proof. revert i j; induction l as [|a l IH]; intros [|i] [|j] N; cbn; auto; try lia. Qed.
Lemma pyset_other {A} (l : list A) i j (v : A) l' : pyset l i v = Ok l' -> (0 <= i)%Z -> (0 <= j)%Z -> i <> j -> pyget l' j = pyget l j.
Proof.
  unfold pyset, pyget. intros H Hi Hj N. destruct (Z.ltb_spec i 0); [lia|]. destruct (Z.ltb_spec j 0); [lia|].
  destruct (Z.leb_spec 0 i); [|lia]. destruct (Z.leb_spec 0 j); [|lia]. cbn [andb] in *.
  destruct (Z.ltb_spec i (Z.of_nat (length l))); [|discriminate]. inversion H. rewrite nth_error_upd_other by lia. reflexivity.
Qed.
Lemma boundary_pressures {F} {NF : Num F} id c (v : F) (m : bo F) m' o : (0 <= id)%Z -> set_boundary id c v (m, None) = ((m', o), Ok tt) ->
  o = None /\ set_ip [] (set_ir [] m') = set_ip [] (set_ir [] m) /\
  (forall j, (0 <= j)%Z -> j <> id -> pyget (b_ip m') j = pyget (b_ip m) j) /\
  (In (lower c) ["pressure"; "press"; "p"] -> b_ir m' = b_ir m).
Proof.
  intros Hid H. destruct (set_boundary_keeps _ _ _ _ _ _ H) as (K & Ko). cbn [fst snd] in *. destruct o; [discriminate|].
  split; auto. split; auto. revert H. unfold set_boundary.
  assert (PR : forall w, put_rate id w (m, None) = ((m', None), Ok tt) -> b_ip m' = b_ip m).
  { intros w E. unfold put_rate, mset in E. cbn [fst snd] in E. destruct (pyset (b_ir m) id w); inversion E. destruct m; reflexivity. }
  destruct (smem (lower c) RATE) eqn:E1.
  { intros E. split; [rewrite (PR _ E); auto|]. intros I. apply smem_in in E1. cbn in E1, I. intuition congruence. }
  destruct (smem (lower c) PRESS) eqn:E2.
  { intros E. unfold put_pressure, mset in E. cbn [fst snd] in E. destruct (pyset (b_ip m) id (Some v)) as [row|] eqn:Er; inversion E. subst.
    split; [|destruct m; reflexivity]. intros j Hj N. replace (b_ip (set_ip row m)) with row by (destruct m; reflexivity).
    eapply pyset_other; eauto. }
  destruct (smem (lower c) GRAD) eqn:E3; [|intros E; inversion E].
  unfold mbind, mread. cbn [fst]. destruct (grad_rate m id v); [|intros E; inversion E]. intros E. split; [rewrite (PR _ E); auto|].
  intros I. apply smem_in in I. unfold PRESS in E2. congruence.
Qed.
Lemma boundaries_pressures {F} {NF : Num F} bs : (forall b, In b bs -> (0 <= b)%Z) -> forall l (m : bo F) m' o,
  miter (bbody bs) l (m, None) = ((m', o), Ok tt) ->
  o = None /\ set_ip [] (set_ir [] m') = set_ip [] (set_ir [] m) /\
  (forall j, (0 <= j)%Z -> ~ In j bs -> pyget (b_ip m') j = pyget (b_ip m) j) /\
  (pressures_only l -> b_ir m' = b_ir m).
Proof.
  intros Hbs. induction l as [|[i [c v]] l IH]; intros m m' o H.
  - inversion H. auto.
  - cbn [miter] in H. unfold mbind in H.
    assert (Eb : forall y, bbody bs (i, (c, v)) y = match passert (zmem i bs) with Ok _ => set_boundary i c v y | Err e => (y, Err e) end) by reflexivity.
    rewrite Eb in H. destruct (zmem i bs) eqn:Z; cbn [passert] in H; [|inversion H]. apply zmem_In in Z.
    destruct (set_boundary i c v (m, None)) as [[m1 o1] [[]|e]] eqn:E; [|inversion H].
    destruct (boundary_pressures i c v m m1 o1 (Hbs i Z) E) as (-> & K1 & K2 & K3).
    destruct (IH m1 m' o H) as (-> & J1 & J2 & J3). split; auto. split; [congruence|]. split.
    + intros j Hj N. rewrite J2, K2; auto. intros ->. contradiction.
    + intros P. inversion P; subst. rewrite J3, K3; auto.
Qed.

(** C36, full statement: setting the same boundary conditions before or after
    compile gives the same linear system for the first step.  It fails for rates
    in the vectorised path (below).  What holds: the symbolic path always agrees,
    the vectorised one for dictionaries of pressures. *)
Lemma L_C36_compile_order_partial :
  forall (m : bo R) bd y, sound m -> set_boundaries bd (m, None) = (y, Ok tt) ->
  exists y' s', set_boundaries bd (m, Some (fdm_new m)) = ((y', Some s'), Ok tt) /\ y' = fst y /\
  (forall sc thr, snd (get_matrices_symb sc thr (y', s')) = snd (get_matrices_symb sc thr (fst y, fdm_new (fst y)))) /\
  (pressures_only bd -> snd (get_matrices_vect (y', s')) = snd (get_matrices_vect (fst y, fdm_new (fst y)))).
Proof.
  intros m bd y (W & HF & Ei & Lp & Hw) H.
  destruct (boundaries_step0 bd m (fdm_new m) eq_refl) as (E & En). rewrite H in E, En. cbn [fst snd] in *.
  exists (fst y), (fdm_new m). split; [exact E|]. split; [reflexivity|].
  destruct (L_C03_interior_boundary_partition (gr (geom (b_grid m))) W HF) as (inner & bound & E1 & E2 & _ & _ & _ & _ & Rng & Disj & _).
  rewrite Ei in E1. inversion E1; subst inner. clear E1.
  rewrite set_boundaries_unfold in H. cbv zeta in H. cbn [fst snd] in H.
  replace (bgrid (set_bdict bd m)) with (gr (geom (b_grid m))) in H by (destruct m; reflexivity). rewrite E2 in H.
  destruct (miter (bbody bound) bd (set_bdict bd m, None)) as [[m1 o1] [[]|e]] eqn:Em; [|inversion H].
  destruct (boundaries_pressures bound (fun b Hb => proj1 (proj1 (Rng b) (or_intror Hb))) bd (set_bdict bd m) m1 o1 Em) as (-> & K1 & K2 & K3).
  inversion H; subst y. clear H. cbn [fst snd] in *. set (m2 := set_bup _ m1) in *.
  assert (Pp : b_ip m2 = b_ip m1 /\ b_ir m2 = b_ir m1 /\ b_ids m2 = b_ids m1 /\ b_wells m2 = b_wells m1) by (unfold m2; destruct m1; auto).
  destruct Pp as (Q1 & Q2 & Q3 & Q4).
  assert (I1 : b_ids m1 = b_ids m) by (apply (f_equal (@b_ids R)) in K1; destruct m1, m; exact K1).
  assert (I2 : b_wells m1 = b_wells m) by (apply (f_equal (@b_wells R)) in K1; destruct m1, m; exact K1).
  assert (I3 : b_ip (set_bdict bd m) = b_ip m /\ b_ir (set_bdict bd m) = b_ir m) by (destruct m; auto). destruct I3 as (I3 & I4).
  rewrite I3 in K2. rewrite I4 in K3.
  assert (A : agreeP [b_ip m] (b_ids m) (m2, fdm_new m2)).
  { split; [reflexivity|]. split; [cbn [fst]; congruence|]. split.
    - exists (b_ip m2), (b_ip m). split; [reflexivity|]. split; [reflexivity|]. intros id Hid. rewrite Q1. symmetry. apply K2.
      + apply (Rng id). now left.
      + intros Hb. apply (Disj id). auto.
    - cbn [fst]. rewrite Q4, I2. exact Hw. }
  assert (Ephi : (fst (m2, fdm_new m2), set_r [b_ir m] (set_p [b_ip m] (snd (m2, fdm_new m2)))) = (m2, fdm_new m)) by reflexivity.
  split.
  - intros sc thr. destruct (fe_symb [b_ip m] [b_ir m] (b_ids m) sc thr (m2, fdm_new m2) A) as (Es & _). rewrite Ephi in Es. now rewrite Es.
  - intros P. destruct (fe_vect [b_ip m] [b_ir m] (b_ids m) (m2, fdm_new m2)) as (Es & _).
    { split; [exact A|]. cbn [snd fdm_new s_r]. now rewrite Q2, K3. }
    rewrite Ephi in Es. now rewrite Es.
Qed.
Lemma ok_run {S A} (c : M S A) s a : snd (c s) = Ok a -> c s = (fst (c s), Ok a).
Proof. intros <-. now destruct (c s). Qed.
Example ex_C36_case :
  exists (m : bo R) y, build 3 1 1 None 1%R (Some 7%R) None = Ok m /\ sound m /\
  set_boundaries [(0%Z, ("pressure", 10%R))] (m, None) = (y, Ok tt) /\ pressures_only [(0%Z, ("pressure", 10%R))].
Proof.
  destruct (line3_built 1 (Some 7%R)) as (m & E & G & Ids & Wl & Wp & Ip & _); [lra|]. exists m, (fst (set_boundaries [(0%Z, ("pressure", 10%R))] (m, None))). split; auto.
  split; [|split].
  - unfold sound. rewrite G, Ids, Wl, Ip. split; [split; [|split]; cbn; lia|]. split; [left; cbn; unfold flows; cbn; lia|].
    split; [reflexivity|]. split; [reflexivity|]. intros id N. now destruct N.
  - apply ok_run. clear E. destruct m. cbn in G, Ids, Wl, Wp, Ip. subst. lazy -[sqrt ln PI IZR Rplus Rmult Rdiv Rinv Ropp]. reflexivity.
  - repeat constructor.
Qed.
(** The refutation: a rate of 5 set after compile is not seen by the
    vectorised path. *)
Lemma L_C36_compile_order_refuted :
  exists (m : bo Q) y y' s', build 3 1 1 None 1%Q (Some 7%Q) None = Ok m /\
  set_boundaries [(0%Z, ("rate", 5%Q))] (m, None) = (y, Ok tt) /\
  set_boundaries [(0%Z, ("rate", 5%Q))] (m, Some (fdm_new m)) = ((y', Some s'), Ok tt) /\
  right_side (get_matrices_vect (fst y, fdm_new (fst y))) = Some [Some (-12); Some (-7); Some (-7)]%Q /\
  right_side (get_matrices_vect (y', s')) = Some [Some (-7); Some (-7); Some (-7)]%Q.
Proof.
  do 4 eexists. split; [vm_compute; reflexivity|]. split; [vm_compute; reflexivity|]. split; [vm_compute; reflexivity|].
  split; vm_compute; reflexivity.
Qed.
