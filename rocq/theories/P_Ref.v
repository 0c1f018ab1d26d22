(** Property theorems (each one a lemma proved in [RefThm.v]), the assumptions they
    rest on, and for each a concrete case meeting its hypotheses. *)
From Coq Require Import String ZArith QArith Reals Bool Arith Lia List.
From Verif Require Import Prelude PreludeFacts Num GridModel GeoModel PropModel RefModel RefSpec RefFacts PropProofs.
Import ListNotations.
Close Scope Q_scope. Close Scope R_scope. Open Scope nat_scope.
From Verif Require Import RefThm.
Close Scope Q_scope. Close Scope R_scope. Open Scope nat_scope.

(** C128: the model of the properties the other theorems use (two copies and a flag)
    says what the code does with its array objects: after any calls, the arrays in
    __props__ and in the attributes and the compressibility are the same, and every
    call but allow_synonyms ends alike. *)
Theorem C128_arrays :
  forall F (NF : Num F) (g : grid) (l : list (rop F)),
    (forall n, of_props (fst (rrun g ref0 l)) n = cur (pget n (fst (prun g props0 l))) /\
               of_attr (fst (rrun g ref0 l)) n = att (pget n (fst (prun g props0 l)))) /\
    r_comp (fst (rrun g ref0 l)) = p_comp (fst (prun g props0 l)) /\
    forall i o, nth_error l i = Some o -> is_allow o = false -> nth_error (snd (rrun g ref0 l)) i = nth_error (snd (prun g props0 l)) i.
Proof. exact L_C128_arrays. Qed.
Print Assumptions C128_arrays.

(** A line of two cells and a session on it. *)
Example C128_arrays_case :
  let g := mkGrid 2 1 1 false in
  let l := [RSetProps (Some (Scalar 5%Q)) None None (Some (Scalar 1%Q)) None None None; RSetProps (Some (Scalar 7%Q)) None None None None None (Some (ById 2%Z));
            RSetProp KX (Scalar 9%Q) None; RSetProp KX (Scalar 8%Q) (Some (ById 1%Z)); RSetProp KY (Scalar 1%Q) (Some (ById 1%Z))] in
  of_props (fst (rrun g ref0 l)) KX = Some [9; 8; 9; 9]%Q /\ of_attr (fst (rrun g ref0 l)) KX = Some [5; 5; 7; 5]%Q /\
  snd (rrun g ref0 l) = [Ok tt; Ok tt; Ok tt; Ok tt; Err TypeError].
Proof. exact ex_C128_arrays_case. Qed.

(** C128: no two properties share an array: a call that does not mention a property
    leaves its values alone (the heights, if they were never set, are set to 0). *)
Theorem C128_apart :
  forall F (NF : Num F) (g : grid) (l : list (rop F)) o n,
    mentions n o = false -> (n = ZED -> of_props (fst (rrun g ref0 l)) ZED <> None) ->
    of_props (fst (rrun g ref0 (l ++ [o]))) n = of_props (fst (rrun g ref0 l)) n /\
    of_attr (fst (rrun g ref0 (l ++ [o]))) n = of_attr (fst (rrun g ref0 l)) n.
Proof. exact L_C128_apart. Qed.
Print Assumptions C128_apart.

Example C128_apart_case :
  let g := mkGrid 2 1 1 false in
  let l := [RSetProps (Some (Scalar 5%Q)) (Some (Scalar 5%Q)) None None None None None] in
  let o := RSetProps (Some (Scalar 7%Q)) None None None None None (Some (ById 2%Z)) in
  mentions KY o = false /\ of_props (fst (rrun g ref0 (l ++ [o]))) KX = Some [5; 5; 7; 5]%Q /\ of_props (fst (rrun g ref0 (l ++ [o]))) KY = Some [5; 5; 5; 5]%Q.
Proof. exact ex_C128_apart_case. Qed.

(** C128: an array someone took from the grid is never changed by calls for all cells. *)
Theorem C128_held :
  forall F (NF : Num F) (g : grid) (l : list (rop F)) o a x, whole o = true ->
    nth_error (r_heap (fst (rrun g ref0 l))) a = Some x -> nth_error (r_heap (fst (rrun g ref0 (l ++ [o])))) a = Some x.
Proof. exact L_C128_held. Qed.
Print Assumptions C128_held.

Example C128_held_case :
  let g := mkGrid 2 1 1 false in
  let l := [RSetProps (Some (Scalar 5%Q)) None None None None None None] in
  r_att (fst (rrun g ref0 l)) KX = Some 0 /\ nth_error (r_heap (fst (rrun g ref0 l))) 0 = Some [5; 5; 5; 5]%Q /\
  whole (RSetProp KX (Scalar 9%Q) None) = true /\ of_props (fst (rrun g ref0 (l ++ [RSetProp KX (Scalar 9%Q) None]))) KX = Some [9; 9; 9; 9]%Q.
Proof. exact ex_C128_held_case. Qed.

(** C128: k["x"] and permeability["x"] are always the attribute kx (and alike). *)
Theorem C128_permeability :
  forall F (NF : Num F) (g : grid) (l : list (rop F)) n, In n [KX; KY; KZ] ->
    of_dict (fst (rrun g ref0 l)) n = of_attr (fst (rrun g ref0 l)) n /\
    (snd (rallow (fst (rrun g ref0 l))) = Ok tt ->
     of_permeability (fst (rallow (fst (rrun g ref0 l)))) n = of_attr (fst (rallow (fst (rrun g ref0 l)))) n).
Proof. exact L_C128_permeability. Qed.
Print Assumptions C128_permeability.

Example C128_permeability_case :
  let g := mkGrid 2 1 1 false in
  let l := [RSetProps (Some (Scalar 5%Q)) (Some (Scalar 6%Q)) (Some (Scalar 7%Q)) (Some (Scalar 1%Q)) None None None] in
  snd (rallow (fst (rrun g ref0 l))) = Ok tt /\ of_permeability (fst (rallow (fst (rrun g ref0 l)))) KY = Some [6; 6; 6; 6]%Q.
Proof. exact ex_C128_permeability_case. Qed.

(** C128: allow_synonyms needs all three permeabilities, porosity and heights (also on
    a line); otherwise it raises AttributeError.  It changes no property. *)
Theorem C128_names_when :
  forall F (NF : Num F) (g : grid) (l : list (rop F)),
    let p := fst (rrun g ref0 l) in
    (snd (rallow p) = Ok tt <-> forall n, of_attr p n <> None) /\
    (snd (rallow p) <> Ok tt -> snd (rallow p) = Err AttributeError) /\
    (forall n, of_props (fst (rallow p)) n = of_props p n /\ of_attr (fst (rallow p)) n = of_attr p n).
Proof. exact L_C128_names_when. Qed.
Print Assumptions C128_names_when.

Example C128_names_when_case :
  let g := mkGrid 2 1 1 false in
  let p := fst (rrun g ref0 [RSetProps (Some (Scalar 5%Q)) None None (Some (Scalar 1%Q)) None None None]) in
  get_fdir g = [AX] /\ snd (rallow p) = Err AttributeError /\ of_name (fst (rallow p)) PHI = Some [1; 1; 1; 1]%Q /\ of_name (fst (rallow p)) KY = None.
Proof. exact ex_C128_names_when_case. Qed.

(** C128: after allow_synonyms, porosity, permeability_x and alike are the attributes
    phi, kx and alike, as long as no call for all cells gives that property anew
    (given that the attribute is the array of __props__, which every set_props
    establishes).  What is missing: calls for all cells, see the next theorem. *)
Theorem C128_names_partial :
  forall F (NF : Num F) (g : grid) (l l' : list (rop F)) n,
    let p := fst (rrun g ref0 l) in
    snd (rallow p) = Ok tt -> r_att p n = r_cur p n -> (forall o, In o l' -> replaces n o = false) ->
    let p' := fst (rrun g (fst (rallow p)) l') in
    of_name p' n = of_attr p' n /\ of_attr p' n = of_props p' n /\ of_name p' n <> None.
Proof. exact L_C128_names_partial. Qed.
Print Assumptions C128_names_partial.

Example C128_names_case :
  let g := mkGrid 2 1 1 false in
  let p := fst (rrun g ref0 [RSetProps (Some (Scalar 5%Q)) (Some (Scalar 6%Q)) (Some (Scalar 7%Q)) (Some (Scalar 1%Q)) None None None]) in
  let l' := [RSetProps (Some (Scalar 9%Q)) None None None None None (Some (ById 1%Z))] in
  snd (rallow p) = Ok tt /\ r_att p KX = r_cur p KX /\ (forall o, In o l' -> replaces KX o = false) /\ of_name (fst (rrun g (fst (rallow p)) l')) KX = Some [5; 9; 5; 5]%Q.
Proof. exact ex_C128_names_case. Qed.

(** C128: set_props(phi=..) for all cells is not seen through the name porosity. *)
Theorem C128_names_refuted :
  exists (g : grid) (l l' : list (rop R)) (x y : list R),
    let p := fst (rrun g ref0 l) in let p' := fst (rrun g (fst (rallow p)) l') in
    snd (rallow p) = Ok tt /\ of_name p' PHI = Some x /\ of_attr p' PHI = Some y /\ x <> y.
Proof. exact L_C128_names_refuted. Qed.
Print Assumptions C128_names_refuted.
