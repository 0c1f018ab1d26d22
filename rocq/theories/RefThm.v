(** The property arrays of a grid and their names. *)
From Coq Require Import String ZArith QArith Reals Bool Arith Lia List.
From Verif Require Import Prelude PreludeFacts Num GridModel GeoModel PropModel RefModel RefSpec RefFacts PropProofs.
Import ListNotations.
Close Scope Q_scope. Close Scope R_scope. Open Scope nat_scope.

(** C128: the model of the properties the other theorems use (two copies and a flag)
    says what the code does with its array objects: after any calls, the arrays in
    __props__ and in the attributes and the compressibility are the same, and every
    call but allow_synonyms ends alike. *)
Lemma L_C128_arrays :
  forall F (NF : Num F) (g : grid) (l : list (rop F)),
    (forall n, of_props (fst (rrun g ref0 l)) n = cur (pget n (fst (prun g props0 l))) /\
               of_attr (fst (rrun g ref0 l)) n = att (pget n (fst (prun g props0 l)))) /\
    r_comp (fst (rrun g ref0 l)) = p_comp (fst (prun g props0 l)) /\
    forall i o, nth_error l i = Some o -> is_allow o = false -> nth_error (snd (rrun g ref0 l)) i = nth_error (snd (prun g props0 l)) i.
Proof.
  intros F NF g l. destruct (run_rel g l ref0 props0 rel0) as ((_ & C & _ & V) & E). split; [intros n; rewrite V; split; reflexivity|]. split; [symmetry; exact C|exact E].
Qed.
(** A line of two cells and a session on it. *)
Example ex_C128_arrays_case :
  let g := mkGrid 2 1 1 false in
  let l := [RSetProps (Some (Scalar 5%Q)) None None (Some (Scalar 1%Q)) None None None; RSetProps (Some (Scalar 7%Q)) None None None None None (Some (ById 2%Z));
            RSetProp KX (Scalar 9%Q) None; RSetProp KX (Scalar 8%Q) (Some (ById 1%Z)); RSetProp KY (Scalar 1%Q) (Some (ById 1%Z))] in
  of_props (fst (rrun g ref0 l)) KX = Some [9; 8; 9; 9]%Q /\ of_attr (fst (rrun g ref0 l)) KX = Some [5; 5; 7; 5]%Q /\
  snd (rrun g ref0 l) = [Ok tt; Ok tt; Ok tt; Ok tt; Err TypeError].
Proof.
  vm_compute. auto.
Qed.

(** C128: no two properties share an array: a call that does not mention a property
    leaves its values alone (the heights, if they were never set, are set to 0). *)
Lemma L_C128_apart :
  forall F (NF : Num F) (g : grid) (l : list (rop F)) o n,
    mentions n o = false -> (n = ZED -> of_props (fst (rrun g ref0 l)) ZED <> None) ->
    of_props (fst (rrun g ref0 (l ++ [o]))) n = of_props (fst (rrun g ref0 l)) n /\
    of_attr (fst (rrun g ref0 (l ++ [o]))) n = of_attr (fst (rrun g ref0 l)) n.
Proof.
  intros F NF g l o n M Z. destruct (run_rel g l ref0 props0 rel0) as (R & _). rewrite !rrun_app. cbn [rrun]. pose proof (step_alone g _ _ o n R M Z) as H. destruct (rstep g (fst (rrun g ref0 l)) o). exact H.
Qed.
Example ex_C128_apart_case :
  let g := mkGrid 2 1 1 false in
  let l := [RSetProps (Some (Scalar 5%Q)) (Some (Scalar 5%Q)) None None None None None] in
  let o := RSetProps (Some (Scalar 7%Q)) None None None None None (Some (ById 2%Z)) in
  mentions KY o = false /\ of_props (fst (rrun g ref0 (l ++ [o]))) KX = Some [5; 5; 7; 5]%Q /\ of_props (fst (rrun g ref0 (l ++ [o]))) KY = Some [5; 5; 5; 5]%Q.
Proof.
  vm_compute. auto.
Qed.

(** C128: an array someone took from the grid is never changed by calls for all cells. *)
Lemma L_C128_held :
  forall F (NF : Num F) (g : grid) (l : list (rop F)) o a x, whole o = true ->
    nth_error (r_heap (fst (rrun g ref0 l))) a = Some x -> nth_error (r_heap (fst (rrun g ref0 (l ++ [o])))) a = Some x.
Proof.
  intros F NF g l o a x W E. rewrite rrun_app. cbn [rrun]. destruct (step_grows g (fst (rrun g ref0 l)) o W) as (t & H). destruct (rstep g (fst (rrun g ref0 l)) o). cbn [fst] in *. rewrite H, nth_error_app1; [exact E|]. apply nth_error_Some. congruence.
Qed.
Example ex_C128_held_case :
  let g := mkGrid 2 1 1 false in
  let l := [RSetProps (Some (Scalar 5%Q)) None None None None None None] in
  r_att (fst (rrun g ref0 l)) KX = Some 0 /\ nth_error (r_heap (fst (rrun g ref0 l))) 0 = Some [5; 5; 5; 5]%Q /\
  whole (RSetProp KX (Scalar 9%Q) None) = true /\ of_props (fst (rrun g ref0 (l ++ [RSetProp KX (Scalar 9%Q) None]))) KX = Some [9; 9; 9; 9]%Q.
Proof.
  vm_compute. auto.
Qed.

(** C128: k["x"] and permeability["x"] are always the attribute kx (and alike). *)
Lemma L_C128_permeability :
  forall F (NF : Num F) (g : grid) (l : list (rop F)) n, In n [KX; KY; KZ] ->
    of_dict (fst (rrun g ref0 l)) n = of_attr (fst (rrun g ref0 l)) n /\
    (snd (rallow (fst (rrun g ref0 l))) = Ok tt ->
     of_permeability (fst (rallow (fst (rrun g ref0 l)))) n = of_attr (fst (rallow (fst (rrun g ref0 l)))) n).
Proof.
  intros F NF g l n I. assert (N : n <> PHI /\ n <> ZED) by (cbn in I; intuition congruence). pose proof (run_inv g l) as H. split; [unfold of_dict, of_attr; now rewrite (i_k _ H) by tauto|].
  intros A. unfold of_permeability. rewrite (allow_perm _ A). unfold of_dict, of_attr. now rewrite (i_k _ (allow_inv _ H)) by tauto.
Qed.
Example ex_C128_permeability_case :
  let g := mkGrid 2 1 1 false in
  let l := [RSetProps (Some (Scalar 5%Q)) (Some (Scalar 6%Q)) (Some (Scalar 7%Q)) (Some (Scalar 1%Q)) None None None] in
  snd (rallow (fst (rrun g ref0 l))) = Ok tt /\ of_permeability (fst (rallow (fst (rrun g ref0 l)))) KY = Some [6; 6; 6; 6]%Q.
Proof.
  vm_compute. auto.
Qed.

(** C128: allow_synonyms needs all three permeabilities, porosity and heights (also on
    a line); otherwise it raises AttributeError.  It changes no property. *)
Lemma L_C128_names_when :
  forall F (NF : Num F) (g : grid) (l : list (rop F)),
    let p := fst (rrun g ref0 l) in
    (snd (rallow p) = Ok tt <-> forall n, of_attr p n <> None) /\
    (snd (rallow p) <> Ok tt -> snd (rallow p) = Err AttributeError) /\
    (forall n, of_props (fst (rallow p)) n = of_props p n /\ of_attr (fst (rallow p)) n = of_attr p n).
Proof.
  intros F NF g l p. pose proof (run_inv g l : inv p) as H. split; [|split].
  - rewrite allow_when. split; intros A n; specialize (A n); unfold of_attr in *.
    + destruct (r_att p n) as [a|] eqn:E; [|congruence]. cbn. apply nth_error_Some. apply (i_len _ H n a). right. left. exact E.
    + intros E. rewrite E in A. now apply A.
  - destruct (allow_err p) as [E|E]; [congruence|auto].
  - intros n. destruct (allow_same p) as (S1 & S2 & S3 & _). unfold of_props, of_attr. rewrite S1, S2, S3. auto.
Qed.
Example ex_C128_names_when_case :
  let g := mkGrid 2 1 1 false in
  let p := fst (rrun g ref0 [RSetProps (Some (Scalar 5%Q)) None None (Some (Scalar 1%Q)) None None None]) in
  get_fdir g = [AX] /\ snd (rallow p) = Err AttributeError /\ of_name (fst (rallow p)) PHI = Some [1; 1; 1; 1]%Q /\ of_name (fst (rallow p)) KY = None.
Proof.
  vm_compute. auto.
Qed.

(** C128: after allow_synonyms, porosity, permeability_x and alike are the attributes
    phi, kx and alike, as long as no call for all cells gives that property anew
    (given that the attribute is the array of __props__, which every set_props
    establishes).  What is missing: calls for all cells, see the next theorem. *)
Lemma L_C128_names_partial :
  forall F (NF : Num F) (g : grid) (l l' : list (rop F)) n,
    let p := fst (rrun g ref0 l) in
    snd (rallow p) = Ok tt -> r_att p n = r_cur p n -> (forall o, In o l' -> replaces n o = false) ->
    let p' := fst (rrun g (fst (rallow p)) l') in
    of_name p' n = of_attr p' n /\ of_attr p' n = of_props p' n /\ of_name p' n <> None.
Proof.
  intros F NF g l l' n p A E R p'. pose proof (run_inv g l : inv p) as H. pose proof (proj1 (allow_when p) A) as S. destruct (allow_same p) as (S1 & S2 & S3 & _).
  destruct (r_att p n) as [a|] eqn:Ea; [|now destruct (S n)].
  assert (Z : r_cur p ZED <> None). { destruct (r_att p ZED) as [b|] eqn:Eb; [exact (i_set _ H ZED b Eb)|now destruct (S ZED)]. }
  destruct (run_named g n a l' (fst (rallow p))) as ((C & At) & N).
  - unfold at_. rewrite S2, S3. auto.
  - rewrite (allow_syn p n A). exact Ea.
  - exact R.
  - rewrite S2. exact Z.
  - fold p' in C, At, N. unfold of_name, of_attr, of_props. rewrite C, At, N. split; [reflexivity|]. split; [reflexivity|].
    assert (I' : inv p'). { unfold p'. assert (Q : fst (rrun g (fst (rallow p)) l') = fst (rrun g ref0 (l ++ RAllow :: l'))). { rewrite rrun_app. fold p. cbn [rrun rstep]. destruct (rallow p) as [p1 x]. cbn [fst]. now destruct (rrun g p1 l'). } rewrite Q. apply run_inv. }
    cbn. apply nth_error_Some, (i_len _ I' n a). left. exact C.
Qed.
Example ex_C128_names_case :
  let g := mkGrid 2 1 1 false in
  let p := fst (rrun g ref0 [RSetProps (Some (Scalar 5%Q)) (Some (Scalar 6%Q)) (Some (Scalar 7%Q)) (Some (Scalar 1%Q)) None None None]) in
  let l' := [RSetProps (Some (Scalar 9%Q)) None None None None None (Some (ById 1%Z))] in
  snd (rallow p) = Ok tt /\ r_att p KX = r_cur p KX /\ (forall o, In o l' -> replaces KX o = false) /\ of_name (fst (rrun g (fst (rallow p)) l')) KX = Some [5; 9; 5; 5]%Q.
Proof.
  cbv zeta. split; [vm_compute; reflexivity|]. split; [vm_compute; reflexivity|]. split; [intros o [<-|[]]; reflexivity|vm_compute; reflexivity].
Qed.

(** C128: set_props(phi=..) for all cells is not seen through the name porosity. *)
Lemma L_C128_names_refuted :
  exists (g : grid) (l l' : list (rop R)) (x y : list R),
    let p := fst (rrun g ref0 l) in let p' := fst (rrun g (fst (rallow p)) l') in
    snd (rallow p) = Ok tt /\ of_name p' PHI = Some x /\ of_attr p' PHI = Some y /\ x <> y.
Proof.
  exists (mkGrid 1 1 1 true), [RSetProps (Some (Scalar 5%R)) (Some (Scalar 5%R)) (Some (Scalar 5%R)) (Some (Scalar 1%R)) None (Some 0%R) None], [RSetProp PHI (Scalar 2%R) None; RSetProps None None None (Some (Scalar 3%R)) None None None], [1%R], [3%R].
  assert (E : comp_class 0%R = (Some "incompressible"%string, Ok tt)).
  { unfold comp_class. change (neqb 0%R n0) with (Reqb 0 0). rewrite (proj2 (Reqb_true 0%R 0%R) eq_refl). reflexivity. }
  cbv zeta. lazy -[comp_class IZR not]. lazy -[comp_class IZR not] in E. rewrite !E. lazy -[IZR not]. repeat split. intros H. injection H as H. revert H. apply Rlt_not_eq. apply (IZR_lt 1 3). reflexivity.
Qed.
