(** The vectorised system in canonical form: what the matrix and the right side
    consist of, for every model with boundaries on faces and settled wells. *)
From Coq Require Import String ZArith Bool Arith List Lia Reals Lra.
From Verif Require Import Prelude PreludeFacts Num GridModel GridSpec GridThm GeoModel GeoSpec GeoProofs
  PropModel PropSpec MatrixProofs BlackOilModel FdmModel MonadFacts HistSpec InvFacts SumFacts ModelSpec ModelFacts VectFacts FaceFacts AsmFacts WellStepFacts BalanceSpec.
Import ListNotations.
Close Scope R_scope.
Open Scope nat_scope.

(** ** Sums over lists of sources *)
Definition one (i : nat) (v : R) (p : nat) : R := if i =? p then v else 0%R.
Definition over {A} (l : list A) (i : A -> nat) (v : A -> R) (p : nat) : R := sumR (map (fun a => one (i a) (v a) p) l).
Lemma sumR_app l l' : sumR (l ++ l') = (sumR l + sumR l')%R.
Proof. induction l as [|a l IH]; cbn [app sumR]; [lra|]. rewrite IH. lra. Qed.
Lemma sumR_ext {A} (f h : A -> R) l : (forall a, In a l -> f a = h a) -> sumR (map f l) = sumR (map h l).
Proof. induction l as [|a l IH]; intros H; cbn [map sumR]; [reflexivity|]. rewrite H, IH; auto using in_eq. intros; apply H; now right. Qed.
Lemma sumR_plus {A} (f h : A -> R) l : sumR (map (fun a => (f a + h a)%R) l) = (sumR (map f l) + sumR (map h l))%R.
Proof. induction l as [|a l IH]; cbn [map sumR]; [lra|]. rewrite IH. lra. Qed.
Lemma sumR_opp {A} (f : A -> R) l : sumR (map (fun a => (- f a)%R) l) = (- sumR (map f l))%R.
Proof. induction l as [|a l IH]; cbn [map sumR]; [lra|]. rewrite IH. lra. Qed.
Lemma sumR_minus {A} (f h : A -> R) l : sumR (map (fun a => (f a - h a)%R) l) = (sumR (map f l) - sumR (map h l))%R.
Proof. induction l as [|a l IH]; cbn [map sumR]; [lra|]. rewrite IH. lra. Qed.
Lemma rsum_one i v n : i < n -> rsum (one i v) 0 n = v.
Proof. intros H. unfold one. now rewrite (rsum_single 0 n i (fun _ => v)) by lia. Qed.
Lemma rsum_over {A} (l : list A) i v n : (forall a, In a l -> i a < n) -> rsum (over l i v) 0 n = sumR (map v l).
Proof.
  unfold over. induction l as [|a l IH]; intros H; cbn [map sumR].
  - apply rsum_zero. auto.
  - rewrite rsum_plus, IH, rsum_one; auto using in_eq. intros; apply H; now right.
Qed.
Lemma over_times {A} (l : list A) i v y p : (over l i v p * y p)%R = over l i (fun a => (v a * y (i a))%R) p.
Proof.
  unfold over. induction l as [|a l IH]; cbn [map sumR]; [lra|]. rewrite Rmult_plus_distr_r, IH. f_equal. unfold one.
  destruct (Nat.eqb_spec (i a) p) as [->|]; lra.
Qed.
Lemma rsum_over_times {A} (l : list A) i v y n : (forall a, In a l -> i a < n) ->
  rsum (fun p => over l i v p * y p)%R 0 n = sumR (map (fun a => v a * y (i a))%R l).
Proof. intros H. rewrite (rsum_ext _ (over l i (fun a => (v a * y (i a))%R))) by (intros; apply over_times). now apply rsum_over. Qed.
Lemma sumR_filter {A} (b : A -> bool) f (l : list A) : sumR (map f (filter b l)) = sumR (map (fun a => if b a then f a else 0%R) l).
Proof. induction l as [|a l IH]; cbn [filter map sumR]; [reflexivity|]. destruct (b a); cbn [map sumR]; rewrite IH; lra. Qed.

(** ** Right sides without NaN *)
Section canon.
Context {m : bo R} {x y z : nat} {u : bool} {dx dy dz : dinput R} (K : model m x y z u dx dy dz).
Notation N := (length (b_ids m)).
Definition vals (d : list (fl R)) (f : nat -> R) : Prop := length d = N /\ forall p, p < N -> nth p d None = Some (f p).
Lemma vals_ext d f h : (forall p, p < N -> f p = h p) -> vals d f -> vals d h.
Proof. intros E (L & H). split; auto. intros p Hp. rewrite H, E; auto. Qed.
(** The position of a cell. *)
Definition pos (id : Z) : nat := match cell_i m id with Ok i => i | Err _ => 0 end.
Lemma pos_lt id i : cell_i m id = Ok i -> i < N.
Proof.
  unfold cell_i, dgetE. destruct (dget id _) eqn:Ed; [|discriminate]. intros E. inversion E; subst.
  apply dget_In, in_combine_r, in_seq in Ed. lia.
Qed.
Lemma pos_in id : In id (b_ids m) -> pos id < N.
Proof. intros I. destruct (cell_i_pos K id I) as (p & Hp & _ & E). unfold pos. now rewrite E. Qed.
Lemma pos_nth id : In id (b_ids m) -> nth_error (b_ids m) (pos id) = Some id.
Proof. intros I. destruct (cell_i_pos K id I) as (p & Hp & E' & E). unfold pos. now rewrite E. Qed.
Lemma upd_length' {A} (l : list A) i v : length (upd l i v) = length l.
Proof. revert i. induction l as [|a l IH]; intros [|i]; cbn; auto. Qed.
Lemma sub_back d id v d' f : sub_d m d id v = Ok d' -> vals d' f ->
  exists i r, cell_i m id = Ok i /\ v = Some r /\ vals d (fun p => f p + one i r p)%R.
Proof.
  unfold sub_d. destruct (cell_i m id) as [i|] eqn:Ei; cbn [rbind]; [|discriminate]. intros E (L & H). inversion E; subst d'; clear E.
  rewrite upd_length' in L. pose proof (pos_lt _ _ Ei) as Hi. pose proof (H i Hi) as Hv.
  rewrite (nth_error_nth _ _ _ (nth_error_upd_same d i _ ltac:(lia))) in Hv.
  destruct (nth i d None) as [a|] eqn:Ea; [|discriminate]. destruct v as [r|]; [|discriminate]. cbn in Hv. inversion Hv as [Hv'].
  exists i, r. split; auto. split; auto. split; auto. intros p Hp. unfold one. destruct (Nat.eqb_spec i p) as [<-|Ne].
  - rewrite Ea, <- Hv'. f_equal. lra.
  - specialize (H p Hp). rewrite Rplus_0_r, <- H.
    assert (Q : forall l : list (fl R), nth p l None = match nth_error l p with Some v => v | None => None end).
    { intros l. destruct (nth_error l p) eqn:Q; [now apply nth_error_nth|]. apply nth_overflow. now apply nth_error_None. }
    rewrite !Q, nth_error_upd_ne; auto.
Qed.

(** ** Wells *)
Definition Jw (w : well R) : R := match w_G w with Some G => (G / (b_B m * b_mu m))%R | None => 0%R end.
Definition con (w : well R) : string := match w_con w with Some (Some c) => c | _ => ""%string end.
Definition rate_of (w : well R) : R := match w_q w with Some (Some q) => q | _ => 0%R end.
Definition pwf_set (w : well R) : R := match w_pwf w with Some (Some p) => p | _ => 0%R end.
(** What a well adds to the flow into its cell: [wk1 w - wk2 w * p]. *)
Definition wk1 (w : well R) : R := if String.eqb (con w) "q" then rate_of w else if String.eqb (con w) "pwf" then (Jw w * pwf_set w)%R else 0%R.
Definition wk2 (w : well R) : R := if String.eqb (con w) "pwf" then Jw w else 0%R.
Definition wof (id : Z) : well R := match dget id (b_wells m) with Some w => w | None => mkWell None None None None None None None None None end.
(** A well with a rate, or with a bottom-hole pressure other than 0. *)
Definition settled (w : well R) : Prop :=
  (w_con w = Some (Some "q"%string) /\ exists q, w_q w = Some (Some q)) \/
  (w_con w = Some (Some "pwf"%string) /\ exists p, w_pwf w = Some (Some p) /\ w_pwfsp w = Some p /\ p <> 0%R).
Definition flag (rs : list (Z * bool)) (id : Z) : bool := match dget id rs with Some b => b | None => false end.
Definition fsumw (rs : list (Z * bool)) (p : nat) : R :=
  over (dkeys (b_wells m)) pos (fun id => if flag rs id then wk2 (wof id) else 0%R) p.
Definition same_rows (s s' : fs R) : Prop := s_p s' = s_p s /\ s_r s' = s_r s /\ s_tstep s' = s_tstep s /\ s_bv s' = s_bv s.

Lemma vwell id d0 u0 s X d' u' w : dget id (b_wells m) = Some w -> settled w ->
  vect_well id (d0, u0) (m, s) = (X, Ok (d', u')) ->
  fst X = m /\ same_rows s (snd X) /\ (forall f, vals d' f -> vals d0 (fun p => f p + one (pos id) (wk1 w) p)%R) /\ (exists i, cell_i m id = Ok i) /\
  (u' = true -> u0 = true \/ con w = "q"%string) /\
  (con w = "q"%string /\ snd X = s \/
   con w = "pwf"%string /\ (if flag (s_res s) id then snd X = s
     else exists A, s_A s = Some A /\ snd X = set_res (dset id true (s_res s)) (set_A (Some (mat_addto A (pos id) (- Jw w)%R)) s))).
Proof.
  intros Ew St E. unfold vect_well in E.
  apply mbind_ok in E as (w0 & X1 & E1 & E). apply mread_ok in E1 as (-> & E1). cbn [fst snd] in E1. unfold dgetE in E1. rewrite Ew in E1. inversion E1; subst w0; clear E1.
  apply mbind_ok in E as (cq & X1 & E1 & E). apply mread_ok in E1 as (-> & E1).
  destruct St as [(C & q & Q)|(C & pw & P1 & P2 & P3)]; unfold con_is in E1; rewrite C in E1; cbn in E1; inversion E1; subst cq; clear E1.
  - apply mread_ok in E as (-> & E). cbn [fst snd] in E. destruct (at2 _ _ _) as [p|]; cbn [rbind] in E; [|discriminate].
    unfold w_num, w_mode, con_is in E. rewrite Q, C in E. cbn [has rbind keyE String.eqb Ascii.eqb Bool.eqb] in E.
    destruct (sub_d m d0 id (Some q)) as [d1|] eqn:Es; cbn [rbind] in E; [|discriminate]. inversion E; subst d1 u'; clear E.
    assert (Hi : exists i, cell_i m id = Ok i) by (unfold sub_d in Es; destruct (cell_i m id); [eauto|discriminate]). destruct Hi as (i & Ei).
    assert (Cw : con w = "q"%string) by (unfold con; now rewrite C).
    split; auto. split; [repeat split|]. split.
    { intros f V. destruct (sub_back _ _ _ _ _ Es V) as (i' & r & Ei' & Er & V'). inversion Er; subst r; clear Er. rewrite Ei in Ei'. inversion Ei'; subst i'.
      unfold wk1. rewrite Cw. cbn. unfold rate_of. rewrite Q. unfold pos. rewrite Ei. exact V'. }
    split; [eauto|]. split; [auto|]. left. auto.
  - apply mbind_ok in E as (cp & X1 & E1 & E). apply mread_ok in E1 as (-> & E1). unfold con_is in E1; rewrite C in E1; cbn in E1; inversion E1; subst cp; clear E1.
    apply mbind_ok in E as (v & X1 & E1 & E). apply mread_ok in E1 as (-> & E1). cbn [fst snd] in E1.
    apply mbind_ok in E as (d1 & X1 & E2 & E). apply mread_ok in E2 as (-> & E2). cbn [fst snd] in E2.
    apply mbind_ok in E as (done & X1 & E3 & E). apply mread_ok in E3 as (-> & E3). cbn [fst snd] in E3.
    apply mbind_ok in E as ([] & X1 & E4 & E). inversion E; subst X1 d1 u'; clear E.
    unfold w_term, w_mode, con_is in E1. rewrite C, P1 in E1.
    replace (if has (w_q w) then let* c := keyE (Some (Some "pwf"%string)) in Ok (match c with Some c => String.eqb c "q" | None => false end) else Ok false) with (@Ok bool false) in E1 by (destruct (has (w_q w)); reflexivity).
    cbn [rbind] in E1. destruct (w_G w) as [G|] eqn:EG; cbn [keyE rbind] in E1; [|discriminate]. cbn [option_map fmul lift2] in E1. rewrite lvalues_one in E1. cbn [ndiv nopp nmul Num_R] in E1.
    set (J := (- G / (b_B m * b_mu m))%R) in *. assert (HJ : Jw w = (- J)%R) by (unfold Jw, J; rewrite EG; unfold Rdiv; lra).
    assert (Hv : v = (Some (J * - pw)%R, Some J)).
    { destruct (Reqb_spec (J * - pw) 0) as [Z1|Z1], (Reqb_spec J 0) as [Z2|Z2]; cbn [app] in E1; try discriminate; [|exfalso; apply Z1; rewrite Z2; lra|now inversion E1].
      exfalso. apply Rmult_integral in Z1 as [Z1|Z1]; [auto|lra]. }
    subst v. cbn [fst snd] in *. assert (Hi : exists i, cell_i m id = Ok i) by (unfold sub_d in E2; destruct (cell_i m id); [eauto|discriminate]). destruct Hi as (i & Ei).
    assert (Cw : con w = "pwf"%string) by (unfold con; now rewrite C).
    assert (V1 : forall f, vals d' f -> vals d0 (fun p => f p + one (pos id) (wk1 w) p)%R).
    { intros f V. destruct (sub_back _ _ _ _ _ E2 V) as (i' & r & Ei' & Er & V'). inversion Er; subst r; clear Er. rewrite Ei in Ei'. inversion Ei'; subst i'.
      unfold wk1. rewrite Cw. cbn. unfold pwf_set. rewrite P1, HJ. unfold pos. rewrite Ei. replace (- J * pw)%R with (J * - pw)%R by lra. exact V'. }
    assert (Ed : done = flag (s_res s) id) by (unfold flag; destruct (dget id (s_res s)); congruence). subst done. clear E3.
    destruct (flag (s_res s) id) eqn:Ef; cbn [negb mwhen] in E4.
    + inversion E4; subst X. cbn [fst snd]. split; auto. split; [repeat split|]. split; auto. split; [eauto|]. split; [auto|]. right. split; auto.
    + apply mbind_ok in E4 as ([] & X1 & E5 & E4). apply mset_ok in E4. unfold addto_A in E5. apply mset_ok in E5. cbn [fst snd] in E5. rewrite Ei in E5. cbn [rbind] in E5.
      destruct (s_A s) as [A|] eqn:EA; cbn [attrE rbind] in E5; [|discriminate]. inversion E5; subst X1; clear E5. cbn [fst snd] in E4. inversion E4; subst X; clear E4. cbn [fst snd].
      split; auto. split; [destruct s; repeat split|]. split; auto. split; [eauto|]. split; [auto|]. right. split; auto. exists A. split; auto.
      unfold pos. rewrite Ei, HJ, Ropp_involutive. destruct s; reflexivity.
Qed.

Definition EI (e : nat -> R) (s : fs R) : Prop := exists A, s_A s = Some A /\ form (m := m) A (fun p => e p + fsumw (s_res s) p)%R.
Lemma form_ext' A e e' : (forall p, p < N -> e p = e' p) -> form (m := m) A e -> form (m := m) A e'.
Proof. apply form_ext. Qed.
Lemma flag_set rs id j : flag (dset id true rs) j = if Z.eqb j id then true else flag rs j.
Proof. unfold flag. rewrite dget_dset_z. destruct (Z.eqb j id); reflexivity. Qed.
Lemma over_flag rs id p l : NoDup l -> In id l -> flag rs id = false ->
  over l pos (fun j => if flag (dset id true rs) j then wk2 (wof j) else 0%R) p =
  (over l pos (fun j => if flag rs j then wk2 (wof j) else 0%R) p + one (pos id) (wk2 (wof id)) p)%R.
Proof.
  unfold over. induction l as [|a l IH]; intros D I Ef; [destruct I|]. inversion D; subst. cbn [map sumR].
  rewrite flag_set. destruct (Z.eqb_spec a id) as [->|Ne].
  - rewrite Ef.
    assert (Q : sumR (map (fun j => one (pos j) (if flag (dset id true rs) j then wk2 (wof j) else 0%R) p) l) =
                sumR (map (fun j => one (pos j) (if flag rs j then wk2 (wof j) else 0%R) p) l)).
    { apply sumR_ext. intros j Hj. rewrite flag_set. destruct (Z.eqb_spec j id) as [->|]; [contradiction|reflexivity]. }
    rewrite Q. unfold one. destruct (pos id =? p); lra.
  - destruct I as [->|I]; [congruence|]. rewrite IH by auto. lra.
Qed.
Lemma wof_some id : In id (dkeys (b_wells m)) -> dget id (b_wells m) = Some (wof id).
Proof. intros I. apply dget_keys in I. unfold wof. destruct (dget id (b_wells m)); congruence. Qed.
Lemma vwells ids : forall e d0 u0 s X d' u', NoDup (dkeys (b_wells m)) -> NoDup ids -> (forall id, In id ids -> In id (dkeys (b_wells m))) ->
  (forall id w, dget id (b_wells m) = Some w -> settled w) ->
  vect_wells ids (d0, u0) (m, s) = (X, Ok (d', u')) -> EI e s ->
  fst X = m /\ same_rows s (snd X) /\ (forall f, vals d' f -> vals d0 (fun p => f p + over ids pos (fun id => wk1 (wof id)) p)%R) /\
  (forall id, In id ids -> exists i, cell_i m id = Ok i) /\
  (u' = true -> u0 = true \/ exists id, In id ids /\ con (wof id) = "q"%string) /\
  EI e (snd X) /\
  (forall id, flag (s_res s) id = true -> flag (s_res (snd X)) id = true) /\
  (forall id, flag (s_res (snd X)) id = true -> flag (s_res s) id = true \/ In id ids /\ con (wof id) = "pwf"%string) /\
  (forall id, In id ids -> con (wof id) = "pwf"%string -> flag (s_res (snd X)) id = true).
Proof.
  induction ids as [|id ids IH]; intros e d0 u0 s X d' u' Dk D Ik St E I; cbn [vect_wells] in E.
  - inversion E; subst. cbn [fst snd]. split; auto. split; [repeat split|]. split; [intros f V; eapply vals_ext; [|exact V]; intros; unfold over; cbn; lra|].
    split; [intros ? []|]. split; [auto|]. split; [auto|]. split; [auto|]. split; [auto|intros ? []].
  - apply mbind_ok in E as ([d1 u1] & [m1 s1] & E1 & E). inversion D; subst.
    pose proof (wof_some id (Ik id (or_introl eq_refl))) as Ew. pose proof (St _ _ Ew) as Sw.
    destruct (vwell _ _ _ _ _ _ _ _ Ew Sw E1) as (F1 & S1 & V1 & P1 & U1 & C1). cbn [fst snd] in *. subst m1.
    assert (I1 : EI e s1 /\ (forall j, flag (s_res s) j = true -> flag (s_res s1) j = true) /\
      (forall j, flag (s_res s1) j = true -> flag (s_res s) j = true \/ j = id /\ con (wof id) = "pwf"%string) /\ (con (wof id) = "pwf"%string -> flag (s_res s1) id = true)).
    { destruct C1 as [(Cq & ->)|(Cp & C1)].
      - split; auto. split; auto. split; auto. rewrite Cq. discriminate.
      - destruct (flag (s_res s) id) eqn:Ef.
        + subst s1. auto.
        + destruct C1 as (A & EA & ->). destruct I as (A' & EA' & Fm). rewrite EA in EA'. inversion EA'; subst A'. clear EA'.
          assert (Rs : s_res (set_res (dset id true (s_res s)) (set_A (Some (mat_addto A (pos id) (- Jw (wof id))%R)) s)) = dset id true (s_res s)) by (destruct s; reflexivity).
          rewrite Rs. split.
          * exists (mat_addto A (pos id) (- Jw (wof id))%R). split; [destruct s; reflexivity|]. rewrite Rs.
            destruct P1 as (i & Ei). assert (Hp : pos id < N) by (unfold pos; rewrite Ei; eapply pos_lt; eauto).
            eapply form_ext; [|exact (form_addto _ _ (pos id) (- Jw (wof id))%R Fm Hp)]. intros p Hpp. unfold fsumw. cbv beta.
            rewrite over_flag by (auto; apply Ik; now left). assert (W2 : wk2 (wof id) = Jw (wof id)) by (unfold wk2; now rewrite Cp). rewrite W2. unfold one.
            destruct (pos id =? p); lra.
          * split; [intros j Hj; rewrite flag_set; destruct (Z.eqb j id); auto|]. split; [|intros _; rewrite flag_set, Z.eqb_refl; reflexivity].
            intros j. rewrite flag_set. destruct (Z.eqb_spec j id) as [->|]; auto. }
    destruct I1 as (I1 & M1 & M2 & M3).
    destruct (IH e d1 u1 s1 X d' u' Dk H2 (fun j h => Ik j (or_intror h)) St E I1) as (G1 & G2 & G3 & G4 & G5 & G6 & G7 & G8 & G9).
    split; auto. split; [unfold same_rows in *; destruct S1 as (? & ? & ? & ?), G2 as (? & ? & ? & ?); repeat split; congruence|].
    split. { intros f V. apply G3, V1 in V. eapply vals_ext; [|exact V]. intros p Hp. unfold over. cbn [map sumR]. lra. }
    split. { intros j [<-|Hj]; auto. }
    split. { intros Hu. destruct (G5 Hu) as [Hu1|(j & Hj & Cj)]; [|right; exists j; split; auto; now right]. destruct (U1 Hu1) as [Hu0|Cq]; auto. right. exists id. split; auto. now left. }
    split; auto. split; auto. split.
    + intros j Hj. destruct (G8 j Hj) as [Hj1|(Hj1 & Hj2)]; [|right; split; auto; now right]. destruct (M2 j Hj1) as [|(-> & Cj)]; auto. right. split; auto. now left.
    + intros j [<-|Hj] Cj; auto.
Qed.

(** ** Boundary conditions *)
Notation g := (gr (geom (b_grid m))).
Definition edge (idb : Z) : Z * R := match (let* T := get_cell_trans m idb false in the_only T) with Ok e => e | Err _ => (0%Z, 0%R) end.
Lemma edge_face idb : face_id m idb ->
  (let* T := get_cell_trans m idb false in the_only T) = Ok (edge idb) /\ (0 < snd (edge idb))%R /\ In (fst (edge idb)) (b_ids m) /\
  exists nb, get_cell_neighbors g idb false = Ok nb /\ dirs_list nb = [fst (edge idb)].
Proof.
  intros (c & B & OF & ->). destruct (face_cell _ _ _ _ _ _ _ _ (md_rock _ _ _ _ _ _ _ _ K) (md_flow _ _ _ _ _ _ _ _ K) c B OF) as (a & c' & iso & Fa & Ic & Ad & Ei & En & EG & Ps).
  assert (E : (let* T := get_cell_trans m (natural_id g c) false in the_only T) = Ok (edge (natural_id g c))).
  { unfold edge, get_cell_trans. rewrite EG. reflexivity. }
  split; auto. destruct (edge (natural_id g c)) as [id T] eqn:Ee. apply (edge_ok K); auto. exists c. auto.
Qed.
Definition bT (idb : Z) : R := (snd (edge idb) * 2)%R.
Definition bpos (idb : Z) : nat := pos (fst (edge idb)).
Definition bval (idb : Z) : R := match dget idb (b_bdict m) with Some (_, v) => v | None => 0%R end.
Definition bconst (idb : Z) : R := (bT idb * (bval idb - b_g m * match FdmModel.dz m (fst (edge idb)) idb with Ok d => d | Err _ => 0 end))%R.
Definition at_pressure (idb : Z) : Prop := exists v, dget idb (b_bdict m) = Some ("pressure"%string, v).
Lemma bpos_lt idb : face_id m idb -> bpos idb < N.
Proof. intros H. apply pos_in. now apply edge_face. Qed.

Lemma init_b_ok idb s X : face_id m idb -> at_pressure idb -> init_b idb (m, s) = (X, Ok tt) ->
  exists A, s_A s = Some A /\
  X = (m, set_A (Some (mat_addto A (bpos idb) (- bT idb)%R)) (set_bv (dset idb (Some (bconst idb), Some (- bT idb)%R, fst (edge idb)) (s_bv s)) s)).
Proof.
  intros Fc (v & Ev) E. destruct (edge_face _ Fc) as (Ee & Pe & Ie & _). unfold init_b in E.
  apply mbind_ok in E as (T & X1 & E1 & E). apply mread_ok in E1 as (-> & E1). cbn [fst snd] in E1. rewrite Ee in E1. inversion E1; subst T; clear E1.
  apply mbind_ok in E as (b & X1 & E1 & E). apply mread_ok in E1 as (-> & E1). cbn [fst snd] in E1. unfold b_term in E1. rewrite Ev in E1.
  replace (smem (lower "pressure") PRESS) with true in E1 by reflexivity.
  destruct (FdmModel.dz m (fst (edge idb)) idb) as [d|] eqn:Ed; cbn [rbind] in E1; [|discriminate]. inversion E1; subst b; clear E1.
  apply mbind_ok in E as (w & X1 & E1 & E). apply mread_ok in E1 as (-> & E1). rewrite lvalues_one in E1. cbn [lc] in E1.
  apply mbind_ok in E as ([] & X1 & E2 & E). apply mset_ok in E2. cbn [fst snd] in E2. inversion E2; subst X1; clear E2.
  unfold n2 in E1. cbn [nopp nmul nadd nsub n1 Num_R] in E1. replace (1 + 1)%R with 2%R in E1 by lra. change (snd (edge idb) * 2)%R with (bT idb) in E1.
  assert (PT : (0 < bT idb)%R) by (unfold bT; lra).
  assert (W : w = (Some (bT idb * (v - b_g m * d))%R, Some (- bT idb)%R)).
  { destruct (Reqb_spec (bT idb * (v - b_g m * d)) 0), (Reqb_spec (- bT idb) 0); cbn [app] in E1; try discriminate; try lra. now inversion E1. }
  subst w. cbn [fst snd] in E. unfold addto_A in E. apply mset_ok in E. cbn [fst snd] in E.
  destruct (cell_i_pos K _ Ie) as (i & Hi & _ & Ei). rewrite Ei in E. cbn [rbind] in E.
  destruct (s_A (set_bv _ s)) as [A|] eqn:EA; cbn [attrE rbind] in E; [|discriminate]. inversion E; subst X; clear E.
  exists A. split; [destruct s; exact EA|]. unfold bpos, pos, bconst, bval. rewrite Ei, Ev, Ed. reflexivity.
Qed.
Definition bv_ok (s : fs R) (l : list Z) : Prop := forall idb, In idb l -> dget idb (s_bv s) = Some (Some (bconst idb), Some (- bT idb)%R, fst (edge idb)).
Lemma init_bs l : forall e s X, NoDup l -> (forall idb, In idb l -> face_id m idb /\ at_pressure idb) ->
  miter init_b l (m, s) = (X, Ok tt) -> (exists A, s_A s = Some A /\ form (m := m) A e) ->
  fst X = m /\ (s_p (snd X) = s_p s /\ s_r (snd X) = s_r s /\ s_tstep (snd X) = s_tstep s /\ s_res (snd X) = s_res s) /\
  (exists A, s_A (snd X) = Some A /\ form (m := m) A (fun p => e p + over l bpos bT p)%R) /\
  bv_ok (snd X) l /\ (forall idb, ~ In idb l -> dget idb (s_bv (snd X)) = dget idb (s_bv s)).
Proof.
  induction l as [|i l IH]; intros e s X D H E (A & EA & Fm); cbn [miter] in E.
  - inversion E; subst. cbn [fst snd]. repeat split; auto. exists A. split; auto. eapply form_ext; [|exact Fm]. intros. unfold over. cbn. lra. intros ? [].
  - apply mbind_ok in E as ([] & X1 & E1 & E). inversion D; subst. destruct (H i (or_introl eq_refl)) as (Fc & At).
    destruct (init_b_ok _ _ _ Fc At E1) as (A' & EA' & ->). rewrite EA in EA'. inversion EA'; subst A'. clear EA' E1.
    pose proof (form_addto _ _ (bpos i) (- bT i)%R Fm (bpos_lt _ Fc)) as Fm'.
    match type of E with miter _ _ (m, ?s1) = _ => set (s' := s1) in E end.
    assert (S' : s_p s' = s_p s /\ s_r s' = s_r s /\ s_tstep s' = s_tstep s /\ s_res s' = s_res s /\ s_A s' = Some (mat_addto A (bpos i) (- bT i)%R) /\
       s_bv s' = dset i (Some (bconst i), Some (- bT i)%R, fst (edge i)) (s_bv s)) by (unfold s'; destruct s; repeat split).
    destruct S' as (S1 & S2 & S3 & S4 & S5 & S6).
    destruct (IH _ s' X H3 (fun j h => H j (or_intror h)) E (ex_intro _ _ (conj S5 Fm'))) as (G1 & (G2 & G3 & G4 & G5) & (A2 & G6 & G7) & G8 & G9).
    split; auto. split; [repeat split; congruence|]. split.
    + exists A2. split; auto. eapply form_ext; [|exact G7]. intros p Hp. unfold over, one. cbn [map sumR]. destruct (bpos i =? p); lra.
    + split.
      * intros j [<-|Hj]; [|now apply G8]. rewrite G9 by auto. rewrite S6. now rewrite dget_dset_z, Z.eqb_refl.
      * intros j Hj. rewrite G9 by (intros ?; apply Hj; now right). rewrite S6, dget_dset_z. destruct (Z.eqb_spec j i) as [->|]; auto. exfalso. apply Hj. now left.
Qed.

(** One entry of the dictionary on the right side. *)
Definition brate (s : fs R) (idb : Z) : R := match at2 (s_r s) (s_tstep s) idb with Ok (Some r) => r | _ => 0%R end.
Definition bk1 (s : fs R) (e : Z * (string * R)) : R := if String.eqb (fst (snd e)) "pressure" then bconst (fst e) else brate s (fst e).
Lemma vect_b_ok s d e d' : face_id m (fst e) -> (fst (snd e) = "pressure"%string -> bv_ok s [fst e]) -> vect_b (m, s) d e = Ok d' ->
  forall f, vals d' f -> vals d (fun p => f p + one (bpos (fst e)) (bk1 s e) p)%R /\
    (fst (snd e) <> "pressure"%string -> exists r, at2 (s_r s) (s_tstep s) (fst e) = Ok (Some r)).
Proof.
  intros Fc B E f V. destruct (edge_face _ Fc) as (_ & _ & Ie & nb & En & Dn). unfold vect_b in E. change (bgrid m) with g in E. rewrite En in E. cbn [rbind] in E. rewrite Dn in E.
  unfold bk1. destruct (String.eqb_spec (fst (snd e)) "pressure") as [Ep|Ep].
  - unfold dgetE in E. rewrite (B Ep (fst e) (or_introl eq_refl)) in E. cbn [rbind fst] in E.
    destruct (sub_back _ _ _ _ _ E V) as (i & r & Ei & Er & V'). inversion Er; subst r. split; [|congruence]. unfold bpos, pos. rewrite Ei. exact V'.
  - destruct (at2 _ _ _) as [q|] eqn:Eq; cbn [rbind] in E; [|discriminate].
    destruct (sub_back _ _ _ _ _ E V) as (i & r & Ei & Er & V'). subst q. split; [|eauto]. unfold bpos, pos, brate. rewrite Ei, Eq. exact V'.
Qed.
Lemma fold_b_err x0 l e : fold_left (fun acc e => let* d := acc in vect_b (NF := Num_R) x0 d e) l (Err e) = Err e.
Proof. induction l; cbn; auto. Qed.
Lemma vect_bs s l : forall d d', (forall e, In e l -> face_id m (fst e)) -> (forall e, In e l -> fst (snd e) = "pressure"%string -> bv_ok s [fst e]) ->
  fold_left (fun acc e => let* d := acc in vect_b (m, s) d e) l (Ok d) = Ok d' ->
  forall f, vals d' f -> vals d (fun p => f p + over l (fun e => bpos (fst e)) (bk1 s) p)%R /\
    (forall e, In e l -> fst (snd e) <> "pressure"%string -> exists r, at2 (s_r s) (s_tstep s) (fst e) = Ok (Some r)).
Proof.
  induction l as [|e l IH]; intros d d' H B E f V; cbn [fold_left] in E.
  - inversion E; subst. split; [eapply vals_ext; [|exact V]; intros; unfold over; cbn; lra|intros ? []].
  - cbn [rbind] in E. destruct (vect_b (m, s) d e) as [d1|] eqn:E1; [|rewrite fold_b_err in E; discriminate].
    destruct (IH d1 d' (fun a h => H a (or_intror h)) (fun a h => B a (or_intror h)) E f V) as (V1 & R1).
    destruct (vect_b_ok s d e d1 (H e (or_introl eq_refl)) (B e (or_introl eq_refl)) E1 _ V1) as (V2 & R2). split.
    + eapply vals_ext; [|exact V2]. intros p Hp. unfold over. cbn [map sumR]. lra.
    + intros a [<-|Ha]; auto.
Qed.

(** ** The whole system *)
Lemma rmap_nth' {A B} (f : A -> res B) l : forall ps i a, rmapM f l = Ok ps -> nth_error l i = Some a -> exists b, nth_error ps i = Some b /\ f a = Ok b.
Proof.
  induction l as [|a0 l IH]; intros ps i a E H; [destruct i; discriminate|]. cbn [rmapM] in E.
  destruct (f a0) as [b0|] eqn:E0; cbn [rbind] in E; [|discriminate]. destruct (rmapM f l) as [bs|] eqn:E1; cbn [rbind] in E; [|discriminate].
  inversion E; subst. destruct i; cbn in *; [inversion H; subst; eauto|eauto].
Qed.
Lemma rmap_length {A B} (f : A -> res B) l : forall ps, rmapM f l = Ok ps -> length ps = length l.
Proof.
  induction l as [|a0 l IH]; intros ps E; cbn [rmapM] in E; [now inversion E|].
  destruct (f a0); cbn [rbind] in E; [|discriminate]. destruct (rmapM f l) as [bs|] eqn:E1; cbn [rbind] in E; [|discriminate].
  inversion E; subst. cbn. f_equal. now apply IH.
Qed.
(** The pressure of a cell before the step. *)
Definition oldp (s : fs R) (p : nat) : R :=
  match nth_error (b_ids m) p with Some id => match at2 (s_p s) (s_tstep s) id with Ok (Some v) => v | _ => 0%R end | None => 0%R end.
Lemma init_d_ok s d f : init_d (m, s) = Ok d -> vals d f ->
  (forall p, p < N -> f p = (- (acc m p * oldp s p))%R) /\
  (b_cmp m = true -> forall p id, nth_error (b_ids m) p = Some id -> at2 (s_p s) (s_tstep s) id = Ok (Some (oldp s p))).
Proof.
  unfold init_d. intros E (L & V). destruct (b_cmp m) eqn:C.
  - destruct (at_ids (b_ids m) (b_RHS m)) as [rhs|] eqn:E1; cbn [rbind] in E; [|discriminate].
    destruct (nth_error (s_p s) (s_tstep s)) as [row|] eqn:E2; cbn [rbind] in E; [|discriminate].
    destruct (at_ids (b_ids m) row) as [ps|] eqn:E3; cbn [rbind] in E; [|discriminate]. inversion E; subst d; clear E.
    assert (H : forall p id, nth_error (b_ids m) p = Some id -> exists o, pyget row id = Ok (Some o) /\ f p = (- (acc m p * o))%R).
    { intros p id Hp. assert (Hl : p < N) by (apply nth_error_Some; congruence). specialize (V p Hl).
      destruct (rmap_nth' _ _ _ _ _ E1 Hp) as (c & Nc & Gc). destruct (rmap_nth' _ _ _ _ _ E3 Hp) as (o & No & Go).
      assert (Q := nth_map2 (fun (c : R) (p : fl R) => fmul (Some (nopp c)) p) rhs ps p 0%R None None).
      rewrite (rmap_length _ _ _ E1), (rmap_length _ _ _ E3) in Q. specialize (Q Hl Hl).
      pose proof (eq_trans (eq_sym Q) V) as V0. clear V. rename V0 into V.
      rewrite (nth_error_nth _ _ _ Nc), (nth_error_nth _ _ _ No) in V. destruct o as [o|]; [|discriminate]. exists o. split; auto.
      cbn in V. inversion V as [V']. unfold acc. rewrite Hp, Gc. lra. }
    split.
    + intros p Hp. destruct (nth_id p Hp) as (id & Ei & _). destruct (H p id Ei) as (o & Ho & ->). unfold oldp, at2. rewrite Ei, E2, Ho. reflexivity.
    + intros _ p id Ei. destruct (H p id Ei) as (o & Ho & _). unfold oldp, at2. rewrite Ei, E2, Ho. reflexivity.
  - split; [|discriminate]. inversion E; subst d. intros p Hp. specialize (V p Hp).
    pose proof (acc_sign K p Hp) as Ac. rewrite C in Ac.
    assert (Q : forall n, p < n -> nth p (repeat (Some (@n0 R Num_R)) n) None = Some 0%R).
    { clear. revert p. intros p n. revert p. induction n; intros [|p] H; cbn; try lia; auto. apply IHn. lia. }
    pose proof (eq_trans (eq_sym (Q N Hp)) V) as V0. inversion V0. rewrite Ac. lra.
Qed.
Lemma dget_In_nodup {A} k (v : A) l : NoDup (dkeys l) -> In (k, v) l -> dget k l = Some v.
Proof.
  unfold dkeys. induction l as [|[k0 v0] l IH]; intros D I; [destruct I|]. cbn [map fst] in D. inversion D; subst. cbn. destruct I as [E|I].
  - inversion E; subst. now rewrite Z.eqb_refl.
  - destruct (Z.eqb_spec k k0) as [->|]; auto. exfalso. apply H1. change k0 with (fst (k0, v)). now apply in_map.
Qed.
Definition pressured (l : list (Z * (string * R))) : list Z := map fst (filter (fun e => String.eqb (fst (snd e)) "pressure") l).
Definition DI3 (s : fs R) : Prop :=
  EI (over (b_bup m) bpos bT) s /\ bv_ok s (b_bup m) /\ (forall id, flag (s_res s) id = true -> con (wof id) = "pwf"%string).
Definition DI (s : fs R) : Prop := s_tstep s = 0 \/ s_A s = None \/ DI3 s.
Lemma update_z_level d d' : level m -> update_z m d = Ok d' -> d' = d.
Proof.
  intros (zs & h & Ez & H) E. unfold update_z in E. rewrite Ez in E. cbn [rbind] in E.
  destruct (at_ids (b_ids m) zs) as [zz|] eqn:E1; cbn [rbind] in E; [|discriminate].
  assert (Q : forall v, In v zz -> v = h).
  { intros v Hv. apply In_nth_error in Hv as (i & Hi). assert (Li : i < N) by (rewrite <- (rmap_length _ _ _ E1); apply nth_error_Some; congruence).
    destruct (nth_id i Li) as (id & Ei & Ii). destruct (rmap_nth' _ _ _ _ _ E1 Ei) as (b & Nb & Gb). rewrite Hi in Nb. inversion Nb; subst. rewrite (H id Ii) in Gb. now inversion Gb. }
  unfold all_same in E. destruct zz as [|a zz]; cbn [rbind] in E; [discriminate|].
  rewrite (proj2 (forallb_forall _ _)) in E; [now inversion E|]. intros v Hv. rewrite (Q v Hv), (Q a (or_introl eq_refl)). cbn. now destruct (Reqb_spec h h).
Qed.

Hypothesis Wk : NoDup (dkeys (b_wells m)).
Hypothesis Ws : forall id w, dget id (b_wells m) = Some w -> settled w.
Hypothesis Bk : NoDup (dkeys (b_bdict m)).
Hypothesis Bf : forall e, In e (b_bdict m) -> face_id m (fst e).
Hypothesis Bu : b_bup m = pressured (b_bdict m).
Hypothesis Lv : level m \/ forall id w, dget id (b_wells m) = Some w -> con w <> "q"%string.

Lemma bup_nodup : NoDup (b_bup m).
Proof.
  rewrite Bu. unfold pressured, dkeys in *. revert Bk. generalize (b_bdict m) as l. induction l as [|e l IH]; cbn [map filter]; intros D; [constructor|].
  inversion D; subst. destruct (String.eqb _ _); cbn [map]; auto. constructor; auto. intros I. apply in_map_iff in I as (e' & Q & I). apply filter_In in I as (I & _).
  apply H1. rewrite <- Q. now apply in_map.
Qed.
Lemma bup_spec idb : In idb (b_bup m) -> face_id m idb /\ at_pressure idb.
Proof.
  rewrite Bu. unfold pressured. intros I. apply in_map_iff in I as ([k [c v]] & <- & I). apply filter_In in I as (I & Ec). cbn [fst snd] in *. apply String.eqb_eq in Ec. subst c.
  split; [exact (Bf _ I)|]. exists v. apply dget_In_nodup; auto.
Qed.
Lemma in_bup e : In e (b_bdict m) -> fst (snd e) = "pressure"%string -> In (fst e) (b_bup m).
Proof. intros I Ec. rewrite Bu. unfold pressured. apply in_map, filter_In. rewrite Ec. auto. Qed.
Lemma flag_nil id : flag [] id = false. Proof. reflexivity. Qed.
Lemma over_zero {A} (l : list A) i p : over l i (fun _ => 0%R) p = 0%R.
Proof. unfold over, one. induction l as [|a l IH]; cbn [map sumR]; [reflexivity|]. rewrite IH. destruct (i a =? p); lra. Qed.
Lemma over_ext {A} (l : list A) i v v' p : (forall a, In a l -> v a = v' a) -> over l i v p = over l i v' p.
Proof. intros H. unfold over. apply sumR_ext. intros a Ha. now rewrite H. Qed.

Lemma init_vect_ok s X : init_vect (m, s) = (X, Ok tt) ->
  fst X = m /\ (s_p (snd X) = s_p s /\ s_r (snd X) = s_r s /\ s_tstep (snd X) = s_tstep s /\ s_res (snd X) = []) /\
  EI (over (b_bup m) bpos bT) (snd X) /\ bv_ok (snd X) (b_bup m).
Proof.
  intros E. unfold init_vect in E. apply mbind_ok in E as ([] & X1 & E1 & E). apply mset_ok in E1. cbn [fst snd] in E1. inversion E1; subst X1; clear E1.
  apply mbind_ok in E as ([] & X1 & E1 & E). apply mset_ok in E1. cbn [fst snd] in E1. destruct (form_init K) as (A & EA & Fm). rewrite EA in E1. cbn [rbind] in E1. inversion E1; subst X1; clear E1.
  apply mbind_ok in E as ([] & X1 & E1 & E). apply mset_ok in E1. cbn [fst snd] in E1. inversion E1; subst X1; clear E1.
  apply mbind_ok in E as (l & X1 & E1 & E). apply mread_ok in E1 as (-> & E1). cbn [fst snd] in E1. inversion E1; subst l; clear E1.
  destruct (init_bs (b_bup m) (fun _ => 0%R) _ X bup_nodup bup_spec E) as (G1 & (G2 & G3 & G4 & G5) & (A' & G6 & G7) & G8 & _).
  { exists A. split; [destruct s; reflexivity|exact Fm]. }
  assert (S : s_p (snd X) = s_p s /\ s_r (snd X) = s_r s /\ s_tstep (snd X) = s_tstep s /\ s_res (snd X) = []).
  { rewrite G2, G3, G4, G5. destruct s; repeat split. }
  split; auto. split; auto. split; auto. exists A'. split; auto. destruct S as (_ & _ & _ & ->). eapply form_ext; [|exact G7]. intros p Hp.
  unfold fsumw. rewrite (over_ext (dkeys (b_wells m)) _ _ (fun _ => 0%R)) by reflexivity. rewrite over_zero. lra.
Qed.

Theorem assemble s X A d : DI s -> get_matrices_vect (m, s) = (X, Ok (A, d)) ->
  fst X = m /\ s_A (snd X) = Some A /\ DI3 (snd X) /\
  form (m := m) A (fun p => over (b_bup m) bpos bT p + over (dkeys (b_wells m)) pos (fun id => wk2 (wof id)) p)%R /\
  (forall id, In id (dkeys (b_wells m)) -> exists i, cell_i m id = Ok i) /\
  forall f, vals d f -> (forall p, p < N -> f p = (- (acc m p * oldp s p) - over (dkeys (b_wells m)) pos (fun id => wk1 (wof id)) p
                             - over (b_bdict m) (fun e => bpos (fst e)) (bk1 s) p)%R) /\
  (b_cmp m = true -> forall p id, nth_error (b_ids m) p = Some id -> at2 (s_p s) (s_tstep s) id = Ok (Some (oldp s p))) /\
  (forall e, In e (b_bdict m) -> fst (snd e) <> "pressure"%string -> exists r, at2 (s_r s) (s_tstep s) (fst e) = Ok (Some r)).
Proof.
  intros D E. unfold get_matrices_vect in E. apply mbind_ok in E as (ini & X1 & E1 & E). apply mread_ok in E1 as (-> & E1). cbn [fst snd] in E1. inversion E1; subst ini; clear E1.
  apply mbind_ok in E as ([] & [m1 s1] & E1 & E).
  assert (I1 : m1 = m /\ (s_p s1 = s_p s /\ s_r s1 = s_r s /\ s_tstep s1 = s_tstep s) /\ EI (over (b_bup m) bpos bT) s1 /\ bv_ok s1 (b_bup m) /\
     (forall id, flag (s_res s1) id = true -> con (wof id) = "pwf"%string)).
  { destruct ((s_tstep s =? 0) || negb (has (s_A s))) eqn:Eb; cbn [mwhen] in E1.
    - destruct (init_vect_ok _ _ E1) as (G1 & (G2 & G3 & G4 & G5) & G6 & G7). cbn [fst snd] in *. split; auto. split; auto. split; auto. split; auto. rewrite G5. discriminate.
    - inversion E1; subst. split; auto. split; auto. destruct D as [D|[D|D]]; auto; [rewrite D in Eb; discriminate|].
      rewrite D in Eb. cbn in Eb. rewrite orb_true_r in Eb. discriminate. }
  destruct I1 as (-> & (Sp & Sr & St) & I1 & B1 & F1). clear E1 D.
  apply mbind_ok in E as (d0 & X2 & E2 & E). apply mread_ok in E2 as (-> & E2).
  apply mbind_ok in E as (wids & X2 & E3 & E). apply mread_ok in E3 as (-> & E3). cbn [fst snd] in E3. inversion E3; subst wids; clear E3.
  apply mbind_ok in E as ([d1 u1] & [m2 s2] & E3 & E). apply mbind_ok in E as (d2 & X3 & E4 & E). apply mread_ok in E4 as (-> & E4). cbn [fst snd] in E4.
  apply mbind_ok in E as (d3 & X3 & E5 & E). apply mread_ok in E5 as (-> & E5). cbn [fst snd] in E5.
  apply mbind_ok in E as (A' & X3 & E6 & E). apply mread_ok in E6 as (-> & E6). cbn [fst snd] in E6. inversion E; subst X A' d3; clear E. cbn [fst snd].
  destruct (vwells _ _ _ _ _ _ _ _ Wk Wk (fun _ h => h) Ws E3 I1) as (G1 & (G2a & G2b & G2c & G2d) & G3 & G4 & G5 & G6 & G7 & G8 & G9). cbn [fst snd] in *. subst m2.
  assert (Ed : d = d2).
  { destruct u1; [|now inversion E5]. destruct Lv as [L|L]; [now apply update_z_level|]. destruct (G5 eq_refl) as [|(id & Ii & C)]; [discriminate|].
    exfalso. apply (L id (wof id)); auto. now apply wof_some. }
  subst d2. clear E5.
  assert (EA : s_A s2 = Some A) by (destruct (s_A s2); cbn in E6; congruence).
  assert (B2 : bv_ok s2 (b_bup m)) by (intros j Hj; rewrite G2d; now apply B1).
  assert (V1 := vect_bs s2 (b_bdict m) d1 d Bf).
  assert (V2 : forall e, In e (b_bdict m) -> fst (snd e) = "pressure"%string -> bv_ok s2 [fst e]).
  { intros e Ie Ep j [<-|[]]. apply B2. now apply in_bup. }
  assert (Sq : s_r s2 = s_r s /\ s_tstep s2 = s_tstep s) by (split; congruence). destruct Sq as (Sr2 & St2).
  split; auto. split; auto. split. { split; auto. split; auto. intros id Hid. destruct (G8 id Hid) as [H|(H & C)]; auto. }
  split. { destruct G6 as (A' & EA' & Fm). rewrite EA in EA'. inversion EA'; subst A'. eapply form_ext; [|exact Fm]. intros p Hp. unfold fsumw. cbv beta. apply Rplus_eq_compat_l. apply over_ext.
    intros id Hid. destruct (flag (s_res s2) id) eqn:Ef; auto. unfold wk2. destruct (String.eqb_spec (con (wof id)) "pwf") as [C|]; auto. rewrite (G9 id Hid C) in Ef. discriminate. }
  split; auto. intros f V. destruct (V1 V2 E4 f V) as (V3 & V4). apply G3 in V3.
  destruct (init_d_ok _ _ _ E2 V3) as (H1 & H2).
  assert (O : forall p, oldp s1 p = oldp s p) by (intros p; unfold oldp; now rewrite Sp, St).
  split. { intros p Hp. specialize (H1 p Hp). rewrite O in H1.
    rewrite (over_ext (b_bdict m) (fun e => bpos (fst e)) (bk1 s) (bk1 s2)) by (intros; unfold bk1, brate; now rewrite Sr2, St2). lra. }
  split. { intros C p id Ei. rewrite <- O, <- Sp, <- St. now apply H2. }
  intros e Ie Ep. destruct (V4 e Ie Ep) as (r & Er). rewrite Sr2, St2 in Er. eauto.
Qed.
End canon.

(** Nothing of this depends on more than the rock, the fluid, the boundary
    conditions and the wells' modes. *)
Section same.
Context {m m' : bo R} (C : core m = core m').
Lemma same_N : length (b_ids m) = length (b_ids m'). Proof. now destruct (core_fields _ _ C) as (_ & -> & _). Qed.
Lemma same_edge idb : edge (m := m) idb = edge (m := m') idb. Proof. unfold edge. now rewrite (core_trans _ _ _ _ C). Qed.
Lemma same_pos id : pos (m := m) id = pos (m := m') id. Proof. unfold pos. now rewrite (core_cell_i _ _ _ C). Qed.
Lemma same_form A e : form (m := m) A e -> form (m := m') A e.
Proof.
  intros (H1 & H2). unfold form. rewrite <- same_N. split; auto. intros p q Hp Hq. rewrite (H2 p q Hp Hq). destruct (p =? q).
  - rewrite (acc_core _ _ _ C). f_equal. f_equal. f_equal. apply rsum_ext. intros. now apply coupling_core.
  - now apply coupling_core.
Qed.
Lemma same_wk (w : well R) : wk1 (m := m) w = wk1 (m := m') w /\ wk2 (m := m) w = wk2 (m := m') w.
Proof. unfold wk1, wk2, Jw. destruct (core_fields _ _ C) as (_ & _ & -> & -> & _). auto. Qed.
Hypothesis Bd : b_bdict m = b_bdict m'.
Lemma same_bconst idb : bconst (m := m) idb = bconst (m := m') idb.
Proof.
  unfold bconst, bT, bval. rewrite same_edge, (core_dz _ _ _ _ C), Bd. now destruct (core_fields _ _ C) as (_ & _ & _ & _ & -> & _).
Qed.
Hypothesis Bp : b_bup m = b_bup m'.
Hypothesis Wk : dkeys (b_wells m) = dkeys (b_wells m').
Hypothesis Wm : forall id, In id (dkeys (b_wells m)) -> wk2 (m := m) (wof (m := m) id) = wk2 (m := m') (wof (m := m') id) /\ con (wof (m := m) id) = con (wof (m := m') id).
Lemma same_DI3 s s' : s_A s = s_A s' -> s_res s = s_res s' -> s_bv s = s_bv s' -> DI3 (m := m) s -> DI3 (m := m') s'.
Proof.
  intros EA Er Eb ((A & H1 & H2) & H3 & H4). split; [|split].
  - exists A. split; [congruence|]. apply same_form in H2. eapply form_ext; [|exact H2]. intros p Hp. rewrite <- Bp, <- Er. f_equal.
    + unfold over. apply sumR_ext. intros j Hj. unfold bpos, bT. now rewrite same_pos, same_edge.
    + unfold fsumw, over. rewrite <- Wk. apply sumR_ext. intros j Hj. rewrite same_pos. destruct (Wm j Hj) as (-> & _). reflexivity.
  - intros j Hj. rewrite <- Bp in Hj. rewrite <- Eb. rewrite (H3 j Hj). now rewrite same_bconst, same_edge; unfold bT; rewrite same_edge.
  - intros id Hf. rewrite <- Er in Hf. destruct (in_dec Z.eq_dec id (dkeys (b_wells m))) as [I|I].
    + destruct (Wm id I) as (_ & <-). now apply H4.
    + specialize (H4 id Hf). unfold wof in H4. destruct (dget id (b_wells m)) eqn:Eg; [exfalso; apply I, dget_keys; congruence|discriminate].
Qed.
End same.
