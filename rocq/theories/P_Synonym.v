(** Property theorems (each one a lemma proved in [SynonymThm.v]), the assumptions they
    rest on, and for each a concrete case meeting its hypotheses. *)
From Coq Require Import String ZArith QArith Reals Bool List Lia Lra.
From Verif Require Import Prelude Num UnitsModel BlackOilModel PropProofs SynonymModel SynonymSpec SynonymFacts.
Import ListNotations.
Local Open Scope string_scope.
From Verif Require Import SynonymThm.
Local Open Scope string_scope.

(** C121: when allow_synonyms of a fluid returns, every full name reads exactly what
    its short name reads, both can be read, and the short names are as before. *)
Theorem C121_fluid_names :
  forall F (NF : Num F) (x y : fobj F * syns F) s n, fluid_allow x = (y, Ok tt) ->
  In (s, n) (fluid_values ++ fluid_methods) ->
  (exists a, fluid_get y s = Ok a /\ fluid_get y n = Ok a) /\ fst y = fst x.
Proof. exact L_C121_fluid_names. Qed.
Print Assumptions C121_fluid_names.

Theorem C121_well_names :
  forall F (NF : Num F) (x y : single_cell F * syns F) s n, well_allow x = (y, Ok tt) ->
  In (s, n) (well_values ++ well_methods) ->
  (exists a, well_get y s = Ok a /\ well_get y n = Ok a) /\ fst y = fst x.
Proof. exact L_C121_well_names. Qed.
Print Assumptions C121_well_names.

Example C121_fluid_case :
  exists (o : fobj Q) y, fluid_new (Some (1#2)%Q) (Some 1%Q) (Some 50%Q) None "field" = Ok o /\
  fluid_allow (o, []) = (y, Ok tt) /\ fluid_get y "viscosity" = Ok (Value (1#2)%Q) /\
  fluid_get y "set_FVF" = Ok (Method "set_B").
Proof. exact ex_C121_fluid_case. Qed.

Example C121_well_case :
  exists y, well_allow (single_cell_new (Some 4%Z) (Some (-600)%Q) (Some (3#2)%Q) (Some (7#2)%Q) None, []) = (y, Ok tt) /\
  well_get y "rate" = Ok (Value (-600)%Q).
Proof. exact ex_C121_well_case. Qed.

(** C121: after that, whatever is done with the object, calling a method by its full
    name does what calling it by its short name does: same object, same outcome. *)
Theorem C121_fluid_methods :
  forall F (NF : Num F) (x y : fobj F * syns F) ops s n a, fluid_allow x = (y, Ok tt) ->
  In (s, n) fluid_methods ->
  fluid_call (fluid_ops y ops) s a = fluid_call (fluid_ops y ops) n a.
Proof. exact L_C121_fluid_methods. Qed.
Print Assumptions C121_fluid_methods.

Theorem C121_well_methods :
  forall F (NF : Num F) (x y : single_cell F * syns F) ops s n a, well_allow x = (y, Ok tt) ->
  In (s, n) well_methods ->
  well_call (well_ops y ops) s a = well_call (well_ops y ops) n a.
Proof. exact L_C121_well_methods. Qed.
Print Assumptions C121_well_methods.

Example C121_methods_case :
  exists (o : fobj Q) y, fluid_new (Some (1#2)%Q) (Some 1%Q) (Some 50%Q) None "field" = Ok o /\
  fluid_allow (o, []) = (y, Ok tt) /\
  fluid_get (fst (fluid_call (fluid_ops y [FCall "set_density" (Pos 60%Q); FAllow]) "set_viscosity" (Pos 2%Q))) "mu" = Ok (Value 2%Q).
Proof. exact ex_C121_methods_case. Qed.

Example C121_well_methods_case :
  exists y, well_allow (single_cell_new (Some 4%Z) (Some (-600)%Q) (Some (3#2)%Q) (Some (7#2)%Q) None, []) = (y, Ok tt) /\
  well_get (fst (well_call (well_ops y [WAllow]) "set_rate" (WPos (-5)%Q))) "q" = Ok (Value (-5)%Q).
Proof. exact ex_C121_well_methods_case. Qed.

(** C121: the full name of a number keeps the value the short name had when
    allow_synonyms was called, until allow_synonyms is called again. *)
Theorem C121_fluid_values_partial :
  forall F (NF : Num F) (x y : fobj F * syns F) ops s n, fluid_allow x = (y, Ok tt) ->
  In (s, n) fluid_values -> (forall c, In c ops -> c <> FAllow) ->
  fluid_get (fluid_ops y ops) s = fluid_get y n.
Proof. exact L_C121_fluid_values_partial. Qed.
Print Assumptions C121_fluid_values_partial.

Theorem C121_well_values_partial :
  forall F (NF : Num F) (x y : single_cell F * syns F) ops s n, well_allow x = (y, Ok tt) ->
  In (s, n) well_values -> (forall c, In c ops -> c <> WAllow) ->
  well_get (well_ops y ops) s = well_get y n.
Proof. exact L_C121_well_values_partial. Qed.
Print Assumptions C121_well_values_partial.

Example C121_values_case :
  exists (o : fobj Q) y, fluid_new (Some (1#2)%Q) (Some 1%Q) (Some 50%Q) None "field" = Ok o /\
  fluid_allow (o, []) = (y, Ok tt) /\
  (forall c, In c [FCall "set_comp" (Pos 1%Q); FSetUnits "metric"] -> c <> FAllow).
Proof. exact ex_C121_values_case. Qed.

Example C121_well_values_case :
  exists y, well_allow (single_cell_new (Some 4%Z) (Some (-600)%Q) (Some (3#2)%Q) (Some (7#2)%Q) None, []) = (y, Ok tt) /\
  (forall c, In c [WCall "set_q" (WPos 1%Q)] -> c <> WAllow).
Proof. exact ex_C121_well_values_case. Qed.

(** C121: calling allow_synonyms once more always succeeds and makes all names agree
    again. *)
Theorem C121_fluid_again :
  forall F (NF : Num F) mu B rho comp u o y ops1 ops2, fluid_new (F := F) mu B rho comp u = Ok o ->
  fluid_allow (fluid_ops (o, []) ops1) = (y, Ok tt) ->
  exists z, fluid_allow (fluid_ops y ops2) = (z, Ok tt) /\
  forall s n, In (s, n) (fluid_values ++ fluid_methods) -> fluid_get z s = fluid_get z n.
Proof. exact L_C121_fluid_again. Qed.
Print Assumptions C121_fluid_again.

Theorem C121_well_again :
  forall F (NF : Num F) cell q s0 r con y ops1 ops2,
  well_allow (well_ops (single_cell_new (F := F) cell q s0 r con, []) ops1) = (y, Ok tt) ->
  exists z, well_allow (well_ops y ops2) = (z, Ok tt) /\
  forall s n, In (s, n) (well_values ++ well_methods) -> well_get z s = well_get z n.
Proof. exact L_C121_well_again. Qed.
Print Assumptions C121_well_again.

Example C121_again_case :
  exists (o : fobj Q) y, fluid_new None (Some 1%Q) (Some 50%Q) None "field" = Ok o /\
  fluid_allow (fluid_ops (o, []) [FAllow; FCall "set_viscosity" (Pos 2%Q)]) = (y, Ok tt).
Proof. exact ex_C121_again_case. Qed.

Example C121_well_again_case :
  exists y, well_allow (well_ops (single_cell_new (Some 4%Z) (Some (-600)%Q) (Some (3#2)%Q) (Some (7#2)%Q) None, []) [WAllow]) = (y, Ok tt).
Proof. exact ex_C121_well_again_case. Qed.

(** C121: allow_synonyms of a fluid succeeds exactly when viscosity and formation
    volume factor have been given; otherwise it raises an AttributeError, the
    properties are as before, and set_viscosity can be called nevertheless. *)
Theorem C121_fluid_when :
  forall F (NF : Num F) mu B rho comp u o ops, fluid_new (F := F) mu B rho comp u = Ok o ->
  let x := fluid_ops (o, []) ops in
  (snd (fluid_allow x) = Ok tt <-> f_mu (fst x) <> None /\ f_B (fst x) <> None) /\
  (snd (fluid_allow x) <> Ok tt -> snd (fluid_allow x) = Err AttributeError /\ fst (fst (fluid_allow x)) = fst x) /\
  fluid_get (fst (fluid_allow x)) "set_viscosity" = Ok (Method "set_mu").
Proof. exact L_C121_fluid_when. Qed.
Print Assumptions C121_fluid_when.

(** C121: allow_synonyms of a well succeeds exactly when the well has a rate, a skin
    and a radius. *)
Theorem C121_well_when :
  forall F (NF : Num F) cell q s r con ops,
  let x := well_ops (single_cell_new (F := F) cell q s r con, []) ops in
  (snd (well_allow x) = Ok tt <-> sc_q (fst x) <> None /\ sc_s (fst x) <> None /\ sc_r (fst x) <> None) /\
  (snd (well_allow x) <> Ok tt -> snd (well_allow x) = Err AttributeError /\ fst (fst (well_allow x)) = fst x).
Proof. exact L_C121_well_when. Qed.
Print Assumptions C121_well_when.

Example C121_when_case :
  exists o : fobj Q, fluid_new None (Some 1%Q) (Some 50%Q) None "field" = Ok o /\
  snd (fluid_allow (o, [])) = Err AttributeError /\
  snd (fluid_allow (fluid_ops (o, []) [FAllow; FCall "set_viscosity" (Pos 2%Q)])) = Ok tt.
Proof. exact ex_C121_when_case. Qed.

(** C121: a full name is not a second name for the number: after set_viscosity(v),
    mu is v and viscosity is what mu was before. *)
Theorem C121_follow_refuted :
  exists (o : fobj R) y m v, fluid_new (Some m) (Some 1%R) None None "field" = Ok o /\ fluid_allow (o, []) = (y, Ok tt) /\
  fluid_get (fst (fluid_call y "set_viscosity" (Pos v))) "mu" = Ok (Value v) /\
  fluid_get (fst (fluid_call y "set_viscosity" (Pos v))) "viscosity" = Ok (Value m) /\ m <> v.
Proof. exact L_C121_follow_refuted. Qed.
Print Assumptions C121_follow_refuted.

(** C121: a well given the skin 0 has no full names, though a skin has been given. *)
Theorem C121_zero_skin_refuted :
  exists q s r : R,
  snd (well_allow (single_cell_new (Some 4%Z) (Some q) (Some s) (Some r) None, [])) = Err AttributeError.
Proof. exact L_C121_zero_skin_refuted. Qed.
Print Assumptions C121_zero_skin_refuted.

(** C121: fluids never get the full names of compressibility that the parent class
    documents. *)
Theorem C121_no_compressibility :
  forall F (NF : Num F) mu B rho comp u o ops s, fluid_new (F := F) mu B rho comp u = Ok o ->
  In s ["compressibility"; "set_compressibility"; "compressibility_type"] ->
  fluid_get (fluid_ops (o, []) ops) s = Err AttributeError.
Proof. exact L_C121_no_compressibility. Qed.
Print Assumptions C121_no_compressibility.

(** C121: allow_synonyms of a model never succeeds: none of the names that a model
    has is set_trans. *)
Theorem C121_model_raises :
  forall F (d : syns F), (forall n, sget n d <> None -> In n model_names) ->
  model_allow d = ((d, []), Err AttributeError).
Proof. exact L_C121_model_raises. Qed.
Print Assumptions C121_model_raises.

Theorem C121_model_refuted :
  exists d : syns R, (forall n, In n model_names <-> sget n d <> None) /\ snd (model_allow d) <> Ok tt.
Proof. exact L_C121_model_refuted. Qed.
Print Assumptions C121_model_refuted.

Example C121_no_comp_case :
  exists o : fobj Q, fluid_new None None None None "lab" = Ok o.
Proof. exact ex_C121_no_comp_case. Qed.

Example C121_model_case :
  forall n, sget n [("comp", Value 1%Q); ("set_comp", Method "set_comp")] <> None -> In n model_names.
Proof. exact ex_C121_model_case. Qed.
