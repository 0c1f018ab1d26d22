(** The kept equations are those the model would write now, while the conditions and
    the wells stay. *)
From Coq Require Import String ZArith Bool Arith List Lia.
From Verif Require Import Prelude PreludeFacts Num GridModel GeoModel PropModel BlackOilModel FdmModel MonadFacts HistSpec InvFacts SolveSpec DryFacts KeptSpec.
Import ListNotations.
Open Scope nat_scope.

Section kept.
Context {F : Type} {NF : Num F} {NT : NumT F}.
Notation T0 := (fun _ => True).

(** ** Methods that neither read nor write cells_terms *)
Definition ph {A} (V : list (Z * terms F)) (x : bo F * A) : bo F * A := (set_terms V (fst x), snd x).
Lemma ph_ph {A} V W (x : bo F * A) : ph V (ph W x) = ph V x. Proof. destruct x as [[] a]. reflexivity. Qed.
Lemma ph_same {A} (x : bo F * A) : ph (b_terms (fst x)) x = x. Proof. destruct x as [[] a]. reflexivity. Qed.
Lemma ph_terms {A} V (x : bo F * A) : b_terms (fst (ph V x)) = V. Proof. destruct x as [[] a]. reflexivity. Qed.
Ltac er := apply e_read; intros [[] ?] _; reflexivity.
Ltac es := apply e_set; intros [[] ?] _; cbn;
  repeat match goal with |- context [rbind ?t _] => destruct t; cbn; [|reflexivity] end;
  repeat match goal with |- context [match ?v with Some _ => Ok _ | None => Err _ end] => destruct v; cbn; [|reflexivity] end; auto.
Section st.
Variable V : list (Z * terms F).
Notation E c := (eqv T0 (@ph (fs F) V) c).
Notation W c := (eqv T0 (@ph (option (fs F)) V) c).
Lemma e_addto id v : E (addto_A id v).
Proof. unfold addto_A. apply e_set. intros [m s] _. unfold ph. cbn [fst snd]. rewrite cell_i_terms. destruct (cell_i m id); cbn [rbind]; auto. destruct (attrE (s_A s)); cbn [rbind]; auto. destruct v; auto. Qed.
Lemma e_init : E init_vect.
Proof.
  unfold init_vect, init_b. esplit'; try er; auto using e_addto; try (es; fail).
  apply e_set. intros [m s] _. unfold ph. cbn [fst snd]. rewrite init_A_terms. destruct (init_A m); cbn [rbind]; auto.
Qed.
Lemma e_vwell id du : E (vect_well id du).
Proof. unfold vect_well. esplit'; try er; auto using e_addto. es. Qed.
Lemma e_vwells l : forall du, E (vect_wells l du).
Proof. induction l as [|i l IH]; intros du; cbn [vect_wells]; esplit'; auto using e_vwell. Qed.
Lemma e_vect : E get_matrices_vect.
Proof. unfold get_matrices_vect. esplit'; try er; auto using e_init, e_vwells. Qed.
Lemma e_put_r id v : E (put_r id v).
Proof. unfold put_r. apply e_set. intros [m s] _. unfold ph. cbn [fst snd]. destruct (set2 _ _ _ _); cbn [rbind]; auto. Qed.
Lemma e_ub : E update_boundaries.
Proof. unfold update_boundaries, update_boundary. esplit'; try er; auto using e_put_r. Qed.
Lemma e_uw id f : E (upd_wells id f).
Proof. unfold upd_wells. apply e_set. intros [[] s] _. cbn. destruct (dgetE id b_wells); cbn; auto. Qed.
Lemma e_update_well id : E (update_well id).
Proof. unfold update_well. esplit'; try er; auto using e_put_r, e_uw. Qed.
Lemma e_uloop l : forall acc, E (update_wells_loop l acc).
Proof. induction l as [|i l IH]; intros acc; cbn [update_wells_loop]; esplit'; auto using e_update_well. Qed.
Lemma e_update_wells : E update_wells.
Proof.
  unfold update_wells. esplit'; try er; auto using e_uloop. destruct a0 as [t|]; esplit'.
  apply e_set. intros [[] s] _. cbn. destruct (dgetE a0 t); cbn; auto.
Qed.
Lemma e_MB : E check_MB.
Proof.
  unfold check_MB. apply e_set. intros [[] s] _. cbn -[row_at at_ids].
  repeat match goal with |- context [rbind ?t _] => destruct t; cbn -[row_at at_ids]; [|reflexivity] end.
  destruct b_cmp; cbn -[row_at at_ids]; repeat match goal with |- context [rbind ?t _] => destruct t; cbn -[row_at at_ids]; [|reflexivity] end; auto.
Qed.
Lemma e_rows A d p : E (new_rows A d p).
Proof.
  unfold new_rows. esplit'; try (apply e_set; intros [[] s] _; cbn; auto; fail).
  apply e_set. intros [[] s] _. cbn -[row_at set_many]. destruct (row_at _ _); cbn -[row_at set_many]; auto. destruct (set_many _ _ _); cbn; auto.
Qed.
(** The setters. *)
Lemma w_upd_well id f : (forall m w, f (set_terms V m) w = f m w) -> W (upd_well id f).
Proof.
  intros H. unfold upd_well. apply e_set. intros [m s] _. unfold ph. cbn [fst snd]. replace (b_wells (set_terms V m)) with (b_wells m) by now destruct m.
  destruct (dgetE id (b_wells m)) as [w|]; cbn [rbind]; auto. rewrite H. destruct (f m w); cbn [rbind]; auto. split; auto. destruct m; reflexivity.
Qed.
Lemma w_log id : W (log_pressure id).
Proof.
  unfold log_pressure. apply e_set. intros [m s] _. assert (G : get_pressure (ph V (m, s)) id = get_pressure (m, s) id) by (destruct m; reflexivity). rewrite G.
  destruct (get_pressure (m, s) id); cbn [rbind]; auto. split; auto. destruct m; reflexivity.
Qed.
Lemma w_tail id : W (set_well_tail id).
Proof. unfold set_well_tail. esplit'; try er; auto using w_log; apply w_upd_well; intros []; reflexivity. Qed.
Lemma w_set_well cell q pwf r s : W (set_well cell q pwf r s).
Proof.
  unfold set_well, assert_inside. destruct cell as [id|]; [|er]. esplit'; try er; auto using w_tail;
    try (apply e_opt; intros; esplit'; auto using w_log); try (apply w_upd_well; intros []; reflexivity).
  apply e_set. intros [[] o] _. cbn. destruct (din id b_wells); auto.
Qed.
Lemma w_set_well_obj w cell : W (set_well_obj w cell).
Proof. unfold set_well_obj, assert_inside. esplit'; try er; auto using w_tail. apply e_set. intros [[] o] _. cbn. auto. Qed.
Lemma w_put_p id v : W (put_pressure id v).
Proof.
  unfold put_pressure. apply e_set. intros [[] [s|]] _; cbn -[pyset set2]; [destruct (s_tstep s =? 0)|].
  all: repeat match goal with |- context [rbind ?t _] => destruct t; cbn -[pyset set2]; [|reflexivity] end; auto.
Qed.
Lemma w_put_q id v : W (put_rate id v).
Proof.
  unfold put_rate. apply e_set. intros [[] [s|]] _; cbn -[pyset set2]; [destruct (s_tstep s =? 0)|].
  all: repeat match goal with |- context [rbind ?t _] => destruct t; cbn -[pyset set2]; [|reflexivity] end; auto.
Qed.
Lemma w_boundary id c v : W (set_boundary id c v).
Proof. unfold set_boundary. esplit'; try er; auto using w_put_p, w_put_q. Qed.
Lemma w_boundaries bd : W (set_boundaries bd).
Proof.
  unfold set_boundaries. esplit'; try er; try (apply e_set; intros [[] o] _; cbn; auto; fail). destruct a1 as [id [c v]]. esplit'; try er. apply w_boundary.
Qed.
Lemma w_all c v : W (set_all_boundaries c v).
Proof. unfold set_all_boundaries. esplit'; try er. apply w_boundary. Qed.
End st.

(** ** The kept terms are those of now *)
Definition conns (m : bo F) (id : Z) : res (list (lin F)) :=
  let* _ := passert (zmem id (b_ids m)) in
  let* nb := get_cell_neighbors (bgrid m) id false in
  let* bn := get_cell_boundaries (bgrid m) id in
  let* T := get_cell_trans m id true in
  let* ns := rmapM (fun idn => let* t := dgetE idn T in n_term m id idn t) (dirs_list nb) in
  let* bs := rmapM (fun idb => let* t := dgetE idb T in b_term m id idb t) (dirs_list bn) in
  Ok (ns ++ bs)%list.
Definition wpart (m : bo F) (id : Z) : res (list (lin F)) :=
  match dget id (b_wells m) with Some w => let* t := w_term m id w in Ok [t] | None => Ok [] end.
Lemma new_split m s id : new_terms (m, s) id =
  let* cs := conns m id in let* w := wpart m id in let* a := a_term m s id in Ok (mkTerms (cs ++ w)%list a).
Proof.
  unfold new_terms, conns, wpart. destruct (passert _); cbn [rbind]; auto. destruct (get_cell_neighbors _ _ _); cbn [rbind]; auto.
  destruct (get_cell_boundaries _ _); cbn [rbind]; auto. destruct (get_cell_trans _ _ _); cbn [rbind]; auto.
  do 2 (match goal with |- rbind ?e _ = _ => destruct e end; cbn [rbind]; auto).
  match goal with |- rbind ?e _ = _ => destruct e end; cbn [rbind]; auto. destruct (a_term m s id); cbn [rbind]; auto. now rewrite app_assoc.
Qed.
Definition is_pwf (w : well F) : bool := match w_con w with Some (Some c) => String.eqb c "pwf" | _ => false end.
Definition KI (T : list (Z * terms F)) (m : bo F) : Prop := forall id t, dget id T = Some t ->
  exists cs, conns m id = Ok cs /\ (b_cmp m = false -> t_a t = lconst (Some n0)) /\
  match dget id (b_wells m) with
  | None => t_f t = cs
  | Some w => exists wt, t_f t = (cs ++ [wt])%list /\ w_con w <> None /\ (is_pwf w = false -> w_term m id w = Ok wt)
  end.
Lemma KI0 m : KI [] m. Proof. intros id t E. discriminate. Qed.
Lemma KI_old T m s id t : KI T m -> dget id T = Some t -> old_terms (m, s) id t = new_terms (m, s) id.
Proof.
  intros K E. destruct (K id t E) as (cs & C & A & W). rewrite new_split, C. cbn [rbind]. unfold old_terms, wpart.
  assert (Ea : (if b_cmp m then a_term m s id else Ok (t_a t)) = a_term m s id).
  { destruct (b_cmp m) eqn:Ec; auto. unfold a_term. rewrite Ec, A; auto. }
  rewrite Ea. destruct (dget id (b_wells m)) as [w|].
  - destruct W as (wt & Ef & Nc & Hw). unfold con_is, keyE. unfold is_pwf in Hw. destruct (w_con w) as [c|]; [|congruence]. cbn [rbind].
    destruct (match c with Some c0 => String.eqb c0 "pwf" | None => false end) eqn:Ep.
    + destruct (w_term m id w) as [wt'|]; cbn [rbind]; auto. rewrite Ef, replace_app. reflexivity.
    + assert (Hp : w_term m id w = Ok wt) by (destruct c; auto).
      rewrite Hp. cbn [rbind]. now rewrite Ef.
  - cbn [rbind]. rewrite W, app_nil_r. reflexivity.
Qed.
Lemma KI_add T m s id t : good_wells m -> KI T m -> new_terms (m, s) id = Ok t -> KI (dset id t T) m.
Proof.
  intros Gw K E j t' D. rewrite dget_dset_z in D. destruct (Z.eqb_spec j id) as [->|]; [|now apply K]. inversion D; subst t'; clear D.
  rewrite new_split in E. destruct (conns m id) as [cs|]; cbn [rbind] in E; [|discriminate]. unfold wpart in E. exists cs. split; auto.
  destruct (dget id (b_wells m)) as [w|] eqn:Ew.
  - destruct (w_term m id w) as [wt|] eqn:Et; cbn [rbind] in E; [|discriminate]. destruct (a_term m s id) as [a|] eqn:Ea; cbn [rbind] in E; [|discriminate]. inversion E; subst. cbn [t_a t_f].
    split; [intros Ec; unfold a_term in Ea; rewrite Ec in Ea; congruence|]. exists wt. split; auto. split; auto.
    intros Nc. destruct (Gw id w Ew Nc) as (G1 & G2). unfold w_term, w_mode in Et. rewrite G1, G2 in Et. cbn in Et. destruct (w_G w); discriminate.
  - cbn [rbind] in E. destruct (a_term m s id) as [a|] eqn:Ea; cbn [rbind] in E; [|discriminate]. inversion E; subst. cbn [t_a t_f].
    split; [intros Ec; unfold a_term in Ea; rewrite Ec in Ea; congruence|]. apply app_nil_r.
Qed.
Lemma conns_same m m' id : core m' = core m -> (forall idb, dget idb (b_bdict m') = dget idb (b_bdict m)) -> conns m' id = conns m id.
Proof.
  intros C B. pose proof (core_fields _ _ C) as (Eg & Ei & Emu & EB & Egr & Etc & Evc & Edt & Eco & Ecm & Er).
  unfold conns, bgrid. rewrite Ei, Eg. destruct (passert _); cbn [rbind]; auto. destruct (get_cell_neighbors _ _ _); cbn [rbind]; auto. destruct (get_cell_boundaries _ _); cbn [rbind]; auto.
  assert (Et : get_cell_trans m' id true = get_cell_trans m id true).
  { revert Eg Ei Emu EB Etc Evc. clear. destruct m, m'. cbn. intros -> -> -> -> -> ->. reflexivity. }
  rewrite Et. destruct (get_cell_trans m id true) as [Tr|]; cbn [rbind]; auto.
  assert (En : forall idn t, n_term m' id idn t = n_term m id idn t) by (intros; unfold n_term, dz, gz; now rewrite Eg, Egr).
  assert (Eb : forall idb t, b_term m' id idb t = b_term m id idb t) by (intros; unfold b_term, dz, gz; now rewrite B, Eg, Egr).
  assert (M : forall (f g : Z -> res (lin F)) l, (forall a, f a = g a) -> rmapM f l = rmapM g l).
  { intros f g l H. induction l as [|b0 l IH]; cbn [rmapM]; auto. now rewrite H, IH. }
  rewrite (M _ (fun idn => let* t := dgetE idn Tr in n_term m id idn t)) by (intros; destruct (dgetE _ _); cbn [rbind]; auto).
  destruct (rmapM _ _); cbn [rbind]; auto.
  now rewrite (M _ (fun idb => let* t := dgetE idb Tr in b_term m id idb t)) by (intros; destruct (dgetE _ _); cbn [rbind]; auto).
Qed.
Lemma w_same m m' id w : core m' = core m -> w_term m' id w = w_term m id w.
Proof. intros C. pose proof (core_fields _ _ C) as (_ & _ & Emu & EB & _). unfold w_term, w_mode. now rewrite Emu, EB. Qed.
(** The wells and the conditions stay: the terms are still those of now. *)
Definition stay (T : list (Z * terms F)) (m m' : bo F) : Prop := forall id, dget id T <> None ->
  (forall idb, dget idb (b_bdict m') = dget idb (b_bdict m)) /\ well_stays (dget id (b_wells m)) (dget id (b_wells m')).
Lemma KI_stay T m m' : KI T m -> core m' = core m -> stay T m m' -> KI T m'.
Proof.
  intros K C S id t D. destruct (S id) as (B & Ws); [congruence|]. destruct (K id t D) as (cs & E & A & W).
  exists cs. rewrite (conns_same m m' id C B). split; auto. pose proof (core_fields _ _ C) as (_ & _ & _ & _ & _ & _ & _ & _ & _ & Ec & _). rewrite Ec. split; auto.
  unfold well_stays in Ws. destruct (dget id (b_wells m)) as [w|], (dget id (b_wells m')) as [w'|]; try contradiction; auto.
  destruct W as (wt & Ef & Nc & Hw). exists wt. split; auto. destruct Ws as [H|[(H1 & H2 & H3 & H4)| ->]].
  - rewrite H. split; [discriminate|]. unfold is_pwf. rewrite H. cbn. discriminate.
  - rewrite H2. split; [congruence|]. intros _. rewrite (w_same m m' id w' C). assert (P : is_pwf w = false) by (unfold is_pwf; now rewrite H1). rewrite <- (Hw P).
    unfold w_term, w_mode. rewrite H4. unfold con_is, keyE. rewrite H2, H1. destruct (w_q w); [reflexivity|congruence].
  - split; auto. intros P. rewrite (w_same m m' id w C). auto.
Qed.

(** ** The symbolic assembly with any kept terms *)
Definition addall (L T : list (Z * terms F)) : list (Z * terms F) := fold_left (fun T e => dset (fst e) (snd e) T) L T.
Definition below (V T : list (Z * terms F)) : Prop := forall id, dget id V <> None -> dget id T <> None.
Lemma below_add L : forall V T, below V T -> below (addall L V) (addall L T).
Proof.
  induction L as [|[i t] L IH]; intros V T H; cbn [addall fold_left]; auto. apply IH. intros id. cbn [fst snd]. rewrite !dget_dset_z. destruct (Z.eqb id i); [congruence|apply H].
Qed.
(** The method run with [T] kept adds the same terms and returns the same, for all good [T]. *)
Definition uni {A} (c : M (st F) A) (m : bo F) (s : fs F) (L : list (Z * terms F)) (s' : fs F) (r : res A) : Prop :=
  forall T, KI T m -> c (set_terms T m, s) = ((set_terms (addall L T) m, s'), r) /\ KI (addall L T) m.
Lemma terms_set T (m : bo F) : b_terms (set_terms T m) = T. Proof. now destruct m. Qed.
Lemma set_set T T' (m : bo F) : set_terms T (set_terms T' m) = set_terms T m. Proof. now destruct m. Qed.
Lemma new_set T (m : bo F) s id : new_terms (set_terms T m, s) id = new_terms (m, s) id. Proof. destruct m. reflexivity. Qed.
Lemma old_set T (m : bo F) s id t : old_terms (set_terms T m, s) id t = old_terms (m, s) id t. Proof. destruct m. reflexivity. Qed.
Lemma addall_app L1 L2 T : addall (L1 ++ L2) T = addall L2 (addall L1 T). Proof. unfold addall. apply fold_left_app. Qed.
Lemma uni_eq sc m s id : good_wells m -> exists L r, uni (get_cell_eq sc id) m s L s r.
Proof.
  intros Gw. destruct (new_terms (m, s) id) as [t|e] eqn:E.
  - exists [(id, t)], (cell_row (sc id) (fold_left ladd (t_f t) (lconst (Some n0))) (t_a t)). intros T K. split; [|cbn; eapply KI_add; eauto].
    rewrite get_eq_tm. unfold tm. cbn [fst]. rewrite terms_set. assert (H : match dget id T with Some t => old_terms (set_terms T m, s) id t | None => new_terms (set_terms T m, s) id end = Ok t).
    { destruct (dget id T) as [t0|] eqn:D; [rewrite old_set, (KI_old T m s id t0 K D)|rewrite new_set]; exact E. }
    rewrite H. unfold put_tm. cbn [fst snd]. rewrite terms_set, set_set. reflexivity.
  - exists [], (Err e). intros T K. split; auto. rewrite get_eq_tm. unfold tm. cbn [fst]. rewrite terms_set.
    assert (H : match dget id T with Some t => old_terms (set_terms T m, s) id t | None => new_terms (set_terms T m, s) id end = Err e).
    { destruct (dget id T) as [t0|] eqn:D; [rewrite old_set, (KI_old T m s id t0 K D)|rewrite new_set]; exact E. }
    rewrite H. reflexivity.
Qed.
Lemma uni_bind {A B} (c : M (st F) A) (f : A -> M (st F) B) m s L s' r :
  uni c m s L s' r -> (forall a, r = Ok a -> exists L' s'' r', uni (f a) m s' L' s'' r') -> exists L' s'' r', uni (mbind c f) m s L' s'' r'.
Proof.
  intros Hc Hf. destruct r as [a|e].
  - destruct (Hf a eq_refl) as (L' & s'' & r' & H). exists (L ++ L')%list, s'', r'. intros T K. destruct (Hc T K) as (E & K'). unfold mbind. rewrite E, addall_app. now apply H.
  - exists L, s', (Err e). intros T K. destruct (Hc T K) as (E & K'). unfold mbind. rewrite E. auto.
Qed.
Lemma uni_ret {A} (a : A) m s : uni (mret a) m s [] s (Ok a). Proof. intros T K. auto. Qed.
Lemma uni_eqv {A} (c : M (st F) A) m s : (forall V, eqv T0 (@ph (fs F) V) c) -> fst (fst (c (set_terms [] m, s))) = set_terms [] m ->
  exists s' r, uni c m s [] s' r.
Proof.
  intros H E. destruct (c (set_terms [] m, s)) as [[m' s'] r] eqn:Ec. cbn [fst] in E. subst m'. exists s', r. intros T K. split; auto.
  destruct (H T (set_terms [] m, s) I) as (E & _). rewrite Ec in E. unfold ph in E. cbn [fst snd] in E. rewrite set_set in E. exact E.
Qed.
Lemma uni_loop sc m s ids : good_wells m -> exists L s' r, uni (cells_eq_loop sc ids) m s L s' r.
Proof.
  intros Gw. induction ids as [|id ids IH]; cbn [cells_eq_loop].
  - exists [], s, (Ok []). apply uni_ret.
  - destruct (uni_eq sc m s id Gw) as (L & r & H). eapply uni_bind; [exact H|]. intros e _. destruct IH as (L' & s' & r' & H'). eapply uni_bind; [exact H'|]. intros es _. do 3 eexists. apply uni_ret.
Qed.
Lemma uni_symb sc thr m s : good_wells m -> exists L s' r, uni (get_matrices_symb sc thr) m s L s' r.
Proof.
  intros Gw. unfold get_matrices_symb, get_cells_eq.
  assert (H1 : exists L s' r, uni (do ids <- mread (fun x => if thr && (length (b_ids (fst x)) / 2 =? 0) then Err ValueError else Ok (b_ids (fst x))) ;; cells_eq_loop sc ids) m s L s' r).
  { destruct (uni_eqv (mread (fun x : st F => if thr && (length (b_ids (fst x)) / 2 =? 0) then Err ValueError else Ok (b_ids (fst x)))) m s) as (s' & r & H); [intros V; er|reflexivity|].
    eapply uni_bind; [exact H|]. intros a _. now apply uni_loop. }
  destruct H1 as (L & s1 & r & H1). eapply uni_bind; [exact H1|]. intros eqs _. clear H1.
  match goal with |- context [mbind ?c _] => destruct (uni_eqv c m s1) as (s2 & r2 & H2); [intros V; es|reflexivity|] end. eapply uni_bind; [exact H2|]. intros [] _. clear H2.
  match goal with |- context [mbind ?c _] => destruct (uni_eqv c m s2) as (s3 & r3 & H3) end.
  { intros V. apply e_set. intros [m' s'] _. unfold ph. cbn [fst snd]. destruct (attrE (s_sym s')) as [Ad|]; cbn [rbind]; auto.
    assert (Es : symb_rows (set_terms V m') thr eqs (b_ids (set_terms V m')) Ad = symb_rows m' thr eqs (b_ids m') Ad) by (destruct m'; reflexivity). rewrite Es. destruct (symb_rows m' thr eqs (b_ids m') Ad); cbn [rbind]; auto. }
  { unfold mset. cbn [fst snd]. destruct (attrE (s_sym s2)); cbn [rbind]; auto. destruct (symb_rows _ _ _ _ _); auto. }
  eapply uni_bind; [exact H3|]. intros [] _. clear H3.
  match goal with |- exists L s' r, uni ?c m s3 L s' r => destruct (uni_eqv c m s3) as (s4 & r4 & H4); [intros V; er|reflexivity|] end. eauto.
Qed.
Lemma vect_bo : forall m, inv (fun x : st F => fst x = m) get_matrices_vect.
Proof.
  assert (A1 : forall m id v, inv (fun x : st F => fst x = m) (addto_A id v)).
  { intros m id v. unfold addto_A. apply i_set. intros [mx sx] [my sy] H E. cbn [fst snd] in *. destruct (cell_i mx id); cbn [rbind] in E; [|discriminate]. destruct (attrE _); cbn [rbind] in E; [|discriminate]. destruct v; inversion E; subst; auto. }
  assert (A2 : forall m id du, inv (fun x : st F => fst x = m) (vect_well id du)).
  { intros m id du. unfold vect_well. isplit; auto. apply i_set. intros [mx sx] [my sy] H E. cbn [fst snd] in *. inversion E; subst; auto. }
  assert (A3 : forall m l du, inv (fun x : st F => fst x = m) (vect_wells l du)).
  { intros m l. induction l as [|i l IH]; intros du; cbn [vect_wells]; isplit; auto. }
  intros m. unfold get_matrices_vect, init_vect, init_b. isplit; auto; apply i_set; intros [mx sx] [my sy] HH EE; cbn [fst snd] in *; try (inversion EE; subst; auto; fail).
  destruct (init_A mx); cbn [rbind] in EE; inversion EE; subst; auto.
Qed.
Lemma uni_system sc o m s : good_wells m -> exists L s' r, uni (get_system sc o) m s L s' r.
Proof.
  intros Gw. unfold get_system.
  assert (V : forall s, exists s' r, uni get_matrices_vect m s [] s' r) by (intros s0; apply uni_eqv; [apply e_vect|apply vect_bo; reflexivity]).
  destruct (o_print o).
  - destruct (uni_symb sc (o_thr o) m s Gw) as (L & s1 & r & H). eapply uni_bind; [exact H|]. intros Ad _. destruct (V s1) as (s2 & r2 & H2). eapply uni_bind; [exact H2|]. intros a _. do 3 eexists. apply uni_ret.
  - destruct (o_vect o); [destruct (V s) as (s2 & r2 & H2); eauto|now apply uni_symb].
Qed.

(** ** A step *)
Section step.
Context (slv : solver_kind -> @mat F -> list (fl F) -> res (list (fl F))) (sc : Z -> F) (sp : bool).
(** A pass, up to the question whether to solve again. *)
Definition mid (A : @mat F) (d p : list (fl F)) : M (st F) bool :=
  do _ <- new_rows A d p ;; do _ <- update_boundaries ;; update_wells.
Definition front (o : sopts) : M (st F) (option bool) :=
  do Ad <- get_system sc o ;;
  do p <- mread (fun _ => let* k := pick_solver sp (o_iso o) in slv k (fst Ad) (snd Ad)) ;;
  if o_upd o then do a <- mid (fst Ad) (snd Ad) p ;; mret (Some a) else mret None.
Definition again_opts (o : sopts) := mkOpts (o_thr o) (o_vect o) false true false (Some "cgs"%string).
Lemma solve_front k o x : solve slv sc (S k) sp o x =
  match front o x with
  | (x1, Err e) => (x1, Err e)
  | (x1, Ok None) => (x1, Ok tt)
  | (x1, Ok (Some a)) =>
      mbind (mwhen a (do _ <- mset (fun x : st F => Ok (fst x, drop_rows (snd x))) ;; solve slv sc k sp (again_opts o))) (fun _ => mwhen (o_mb o) check_MB) x1
  end.
Proof.
  cbn [solve]. unfold front, mid, mbind. destruct (get_system sc o x) as [x1 [Ad|e]]; auto.
  destruct (mread _ x1) as [x2 [p|e]]; auto. destruct (o_upd o); auto. destruct (new_rows (fst Ad) (snd Ad) p x2) as [x3 [[]|e]]; auto. destruct (update_boundaries x3) as [x4 [[]|e]]; auto.
  destruct (update_wells x4) as [x5 [a|e]]; auto.
Qed.
Lemma e_mid A d p V : eqv T0 (@ph (fs F) V) (mid A d p).
Proof. unfold mid. esplit'; auto using e_rows, e_ub, e_update_wells. Qed.
Lemma mid_inv (P : bo F -> Prop) A d p : (forall v m, P m -> P (set_wells v m)) -> (forall v m, P m -> P (set_wp v m)) -> inv (fun x : st F => P (fst x)) (mid A d p).
Proof. intros H1 H2. unfold mid. isplit; [apply c_rows|apply c_ub|apply c_update_wells; auto]. Qed.
Lemma mid_good A d p : inv goods (mid A d p).
Proof. unfold mid. isplit; auto using gs_rows, gs_ub, gs_wells. Qed.
Lemma front_uni o m s : good_wells m -> exists L m2 s2 r, core m2 = core m /\ good_wells m2 /\
  forall T, KI T m -> front o (set_terms T m, s) = ((set_terms (addall L T) m2, s2), r) /\ KI (addall L T) m.
Proof.
  intros Gw. destruct (uni_system sc o m s Gw) as (L & s1 & r & H). destruct r as [Ad|e].
  2:{ exists L, m, s1, (Err e). split; auto. split; auto. intros T K. destruct (H T K) as (E & K'). unfold front, mbind at 1. rewrite E. auto. }
  destruct (let* k := pick_solver sp (o_iso o) in slv k (fst Ad) (snd Ad)) as [p|e] eqn:Ep.
  2:{ exists L, m, s1, (Err e). split; auto. split; auto. intros T K. destruct (H T K) as (E & K'). unfold front, mbind at 1. rewrite E. unfold mbind, mread. rewrite Ep. auto. }
  destruct (o_upd o) eqn:U.
  2:{ exists L, m, s1, (Ok None). split; auto. split; auto. intros T K. destruct (H T K) as (E & K'). unfold front, mbind at 1. rewrite E. unfold mbind, mread. rewrite Ep, U. auto. }
  destruct (mid (fst Ad) (snd Ad) p (set_terms [] m, s1)) as [[m2 s2] r2] eqn:Em.
  exists L, m2, s2, (let* a := r2 in Ok (Some a)). split; [|split].
  - pose proof (mid_inv (fun m' => core m' = core m) (fst Ad) (snd Ad) p) as C. specialize (C ltac:(intros; cbv beta in *; now rewrite core_wells) ltac:(intros; cbv beta in *; now rewrite core_wp) (set_terms [] m, s1) ltac:(cbn; apply core_terms)). rewrite Em in C. exact C.
  - pose proof (mid_good (fst Ad) (snd Ad) p (set_terms [] m, s1)) as C. rewrite Em in C. apply C. unfold goods. cbn [fst]. eapply good_same; [|exact Gw]. now destruct m.
  - intros T K. destruct (H T K) as (E & K'). split; auto. unfold front, mbind at 1. rewrite E. unfold mbind, mread. rewrite Ep, U.
    destruct (e_mid (fst Ad) (snd Ad) p (addall L T) (set_terms [] m, s1) I) as (E2 & _). rewrite Em in E2. unfold ph in E2. cbn [fst snd] in E2. rewrite set_set in E2. rewrite E2. destruct r2; reflexivity.
Qed.
Definition chain (k : nat) (o : sopts) (x : st F) : Prop := forall j, j < k ->
  let y := fst (fst (solve slv sc j sp o x)) in let z := fst (fst (solve slv sc (S j) sp o x)) in stay (b_terms z) y z.
Lemma MB_bo (x : st F) : fst (fst (check_MB x)) = fst x.
Proof. exact (c_MB (fun m => m = fst x) x eq_refl). Qed.
Lemma MB_ph (m : bo F) s T : check_MB (set_terms T m, s) = ((set_terms T m, snd (fst (check_MB (m, s)))), snd (check_MB (m, s))).
Proof. destruct (e_MB T (m, s) I) as (E & _). unfold ph in E. cbn [fst snd] in E. rewrite E. pose proof (MB_bo (m, s)) as H. destruct (check_MB (m, s)) as [[m' s'] r]. cbn [fst snd] in *. subst. reflexivity. Qed.
Lemma when_MB b (m : bo F) s T V s' r : mwhen b check_MB (set_terms T m, s) = ((set_terms T m, s'), r) -> mwhen b check_MB (set_terms V m, s) = ((set_terms V m, s'), r).
Proof. destruct b; cbn [mwhen]; [rewrite !MB_ph; intros E; inversion E; reflexivity|intros E; inversion E; reflexivity]. Qed.
Lemma when_MB_ex b (m : bo F) s T : exists s' r, mwhen b check_MB (set_terms T m, s) = ((set_terms T m, s'), r).
Proof. destruct b; cbn [mwhen]; [rewrite MB_ph|]; eauto. unfold mret. eauto. Qed.
Lemma wells_t T (m : bo F) : b_wells (set_terms T m) = b_wells m. Proof. now destruct m. Qed.
Lemma bdict_t T (m : bo F) : b_bdict (set_terms T m) = b_bdict m. Proof. now destruct m. Qed.
Lemma stay_t T U V m m' : stay T (set_terms U m) (set_terms V m') <-> stay T m m'.
Proof. unfold stay. rewrite !wells_t, !bdict_t. reflexivity. Qed.
Lemma stay_below V T m m' : below V T -> stay T m m' -> stay V m m'.
Proof. intros B S id D. apply S, B, D. Qed.
Lemma solve_bo k o x x1 : front o x = (x1, Ok (Some true)) ->
  fst (fst (solve slv sc (S k) sp o x)) = fst (fst (solve slv sc k sp (again_opts o) (fst x1, drop_rows (snd x1)))).
Proof.
  intros E. rewrite solve_front, E. cbn [mwhen]. unfold mbind, mset. destruct (solve slv sc k sp (again_opts o) (fst x1, drop_rows (snd x1))) as [y [[]|e]]; [|reflexivity].
  destruct (o_mb o); cbn [mwhen]; [apply MB_bo|reflexivity].
Qed.
Lemma solve_same k o x x1 r : front o x = (x1, r) -> r <> Ok (Some true) -> fst (fst (solve slv sc (S k) sp o x)) = fst x1.
Proof.
  intros E N. rewrite solve_front, E. destruct r as [[[]|]|e]; try reflexivity; [congruence|]. cbn [mwhen]. unfold mbind, mret. destruct (o_mb o); cbn [mwhen]; [apply MB_bo|reflexivity].
Qed.
Lemma solve_sim k : forall o m s T V, good_wells m -> KI T m -> KI V m -> below V T -> chain k o (set_terms T m, s) ->
  exists T' V' m' s' r, solve slv sc k sp o (set_terms T m, s) = ((set_terms T' m', s'), r) /\ solve slv sc k sp o (set_terms V m, s) = ((set_terms V' m', s'), r) /\
    KI T' m' /\ KI V' m' /\ below V' T' /\ good_wells m' /\ core m' = core m.
Proof.
  induction k as [|k IH]; intros o m s T V Gw KT KV B Ch.
  - exists T, V, m, s, (Err RecursionError). cbn [solve]. unfold mread. repeat (split; auto).
  - destruct (front_uni o m s Gw) as (L & m2 & s2 & r & C2 & G2 & H). destruct (H T KT) as (ET & KT'). destruct (H V KV) as (EV & KV'). clear H.
    pose proof (below_add L V T B) as B'. set (T1 := addall L T) in *. set (V1 := addall L V) in *.
    assert (St : stay T1 m m2).
    { specialize (Ch 0 ltac:(lia)). cbv zeta in Ch. replace (fst (fst (solve slv sc 0 sp o (set_terms T m, s)))) with (set_terms T m) in Ch by reflexivity.
      assert (E1 : fst (fst (solve slv sc 1 sp o (set_terms T m, s))) = set_terms T1 m2).
      { destruct r as [[[]|]|e]; [rewrite (solve_bo 0 o _ _ ET); reflexivity|..]; rewrite (solve_same 0 o _ _ _ ET) by discriminate; reflexivity. }
      rewrite E1 in Ch. rewrite terms_set in Ch. now apply stay_t in Ch. }
    assert (K2 : KI T1 m2) by (eapply KI_stay; eauto). assert (K2' : KI V1 m2) by (eapply KI_stay; [exact KV'|exact C2|eapply stay_below; eauto]).
    rewrite !solve_front, ET, EV. destruct r as [[a|]|e].
    2:{ exists T1, V1, m2, s2, (Ok tt). repeat (split; auto). }
    2:{ exists T1, V1, m2, s2, (Err e). repeat (split; auto). }
    destruct a; cbn [mwhen].
    2:{ unfold mbind, mret. destruct (when_MB_ex (o_mb o) m2 s2 T1) as (s' & r' & E). exists T1, V1, m2, s', r'. split; [exact E|]. split; [exact (when_MB _ _ _ _ _ _ _ E)|]. repeat (split; auto). }
    unfold mbind, mset. cbn [fst snd].
    destruct (IH (again_opts o) m2 (drop_rows s2) T1 V1 G2 K2 K2' B') as (T' & V' & m' & s' & r' & E1 & E2 & A1 & A2 & A3 & A4 & A5).
    { intros j Hj. specialize (Ch (S j) ltac:(lia)). cbv zeta in *. rewrite !(solve_bo _ o _ _ ET) in Ch. exact Ch. }
    rewrite E1, E2. destruct r' as [[]|e].
    + destruct (when_MB_ex (o_mb o) m' s' T') as (s3 & r3 & E). exists T', V', m', s3, r3. split; [exact E|]. split; [exact (when_MB _ _ _ _ _ _ _ E)|]. repeat (split; auto). congruence.
    + exists T', V', m', s', (Err e). repeat (split; auto). congruence.
Qed.
End step.

(** ** Histories *)
Lemma w_setters c V : (forall slv sc fuel sp o, c <> Solve slv sc fuel sp o) -> (forall slv sc n fuel sp thr vect mb pr iso, c <> Run slv sc n fuel sp thr vect mb pr iso) ->
  eqv T0 (@ph (option (fs F)) V) (exec c).
Proof.
  intros N1 N2. destruct c; cbn [exec]; auto using w_set_well, w_set_well_obj, w_boundary, w_boundaries, w_all.
  - apply e_set. intros [[] o] _. cbn. auto.
  - now contradiction (N1 slv sc fuel sparse o).
  - now contradiction (N2 slv sc n fuel sparse thr vect mb pr iso).
Qed.
Lemma core_call c (x : ws F) : core (fst (fst (exec c x))) = core (fst x).
Proof.
  apply (c_exec (fun m => core m = core (fst x))); auto; intros; [rewrite core_ip|rewrite core_ir|rewrite core_wells|rewrite core_wp|rewrite core_bdict|rewrite core_bup|rewrite core_terms]; auto.
Qed.
Definition agree (x y : ws F) : Prop := forget x = forget y /\ KI (b_terms (fst x)) (fst x) /\ KI (b_terms (fst y)) (fst y) /\ good_wells (fst x) /\ below (b_terms (fst y)) (b_terms (fst x)).
Lemma KI_t U T m : KI T (set_terms U m) <-> KI T m.
Proof.
  unfold KI. rewrite wells_t. assert (E : forall id, conns (set_terms U m) id = conns m id) by (intros; destruct m; reflexivity).
  assert (E2 : forall id w, w_term (set_terms U m) id w = w_term m id w) by (intros; destruct m; reflexivity). assert (E3 : b_cmp (set_terms U m) = b_cmp m) by now destruct m.
  split; intros H id t D; destruct (H id t D) as (cs & H1 & H2 & H3); exists cs; rewrite ?E, ?E3 in *; split; auto; split; auto; destruct (dget id (b_wells m)) as [w|]; auto;
    destruct H3 as (wt & H3 & H4 & H5); exists wt; rewrite ?E2 in *; auto.
Qed.
Lemma agree_call c x y : agree x y -> steady_call x c -> snd (exec c x) = snd (exec c y) /\ agree (fst (exec c x)) (fst (exec c y)).
Proof.
  intros (Ef & Kx & Ky & Gx & B) St. destruct x as [mx ox], y as [my oy]. unfold forget in Ef. cbn [fst snd] in *. injection Ef as Em Eo. subst oy.
  set (m := set_terms [] mx) in *. assert (Ex : mx = set_terms (b_terms mx) m) by (unfold m; destruct mx; reflexivity). assert (Ey : my = set_terms (b_terms my) m) by (rewrite Em; destruct my; reflexivity).
  set (T := b_terms mx) in *. set (V := b_terms my) in *. clearbody T V. clearbody m. clear Em. subst mx my. apply (proj1 (KI_t _ _ _)) in Kx, Ky.
  assert (Gm : good_wells m) by (eapply good_same; [|exact Gx]; now destruct m).
  assert (Setter : (forall V, eqv T0 (@ph (option (fs F)) V) (exec c)) -> steady (set_terms T m, ox) (fst (exec c (set_terms T m, ox))) ->
    snd (exec c (set_terms T m, ox)) = snd (exec c (set_terms V m, ox)) /\ agree (fst (exec c (set_terms T m, ox))) (fst (exec c (set_terms V m, ox)))).
  { intros He S. destruct (He T (m, ox) I) as (E1 & _). destruct (He V (m, ox) I) as (E2 & _). unfold ph in E1, E2. cbn [fst snd] in E1, E2. rewrite E1 in S. rewrite E1, E2. cbn [fst snd]. split; auto.
    pose proof (core_call c (m, ox)) as Co. pose proof (go_exec c (m, ox) Gm) as Go. unfold goodx in Go. destruct (exec c (m, ox)) as [[m' o'] r]. cbn [fst snd] in *.
    unfold steady in S. cbn [fst] in S. rewrite terms_set in S. change (stay T (set_terms T m) (set_terms T m')) in S. apply stay_t in S.
    unfold agree, forget. cbn [fst snd]. rewrite !terms_set, !set_set. split; auto. split; [apply KI_t; eapply KI_stay; eauto|]. split; [apply KI_t; eapply KI_stay; [exact Ky|exact Co|eapply stay_below; eauto]|].
    split; auto. eapply good_same; [|exact Go]. now destruct m'. }
  destruct c as [a1 a2 a3 a4 a5|a1 a2|a1 a2 a3|a1|a1 a2| |slv sc fuel sp o|slv sc n fuel sp thr vect mb pr iso]; cbn [steady_call] in St; try (apply Setter; auto; intros; apply w_setters; discriminate).
  2:contradiction.
  clear Setter. cbn [exec] in *. unfold of_solution in *. cbn [fst snd] in *. destruct ox as [s|].
  2:{ cbn [fst snd]. split; auto. unfold agree, forget. cbn [fst snd]. rewrite !terms_set, !set_set. repeat (split; auto); now apply KI_t. }
  destruct (solve_sim slv sc sp fuel o m s T V Gm Kx Ky B) as (T' & V' & m' & s' & r & E1 & E2 & A1 & A2 & A3 & A4 & A5).
  { intros j Hj. specialize (St j Hj). cbv zeta. unfold steady in St. destruct (solve slv sc j sp o (set_terms T m, s)) as [[mj sj] rj]. destruct (solve slv sc (S j) sp o (set_terms T m, s)) as [[mk sk] rk]. exact St. }
  rewrite E1, E2. cbn [fst snd]. split; auto. unfold agree, forget. cbn [fst snd]. rewrite !terms_set, !set_set. split; auto. split; [now apply KI_t|]. split; [now apply KI_t|]. split; auto.
  eapply good_same; [|exact A4]. now destruct m'.
Qed.
Lemma agree_forget x y : agree x y -> agree x (forget y).
Proof.
  intros (Ef & Kx & Ky & Gx & B). unfold agree. split; [rewrite Ef; unfold forget; cbn [fst snd]; now rewrite set_set|]. split; auto. unfold forget. cbn [fst snd]. rewrite terms_set. split; [apply KI0|]. split; auto. intros id D. now contradiction D.
Qed.
End kept.
