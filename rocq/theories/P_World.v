(** Property theorems (each one a lemma proved in [WorldThm.v]), the assumptions they
    rest on, and for each a concrete case meeting its hypotheses. *)
From Coq Require Import String ZArith Bool Arith List Lia QArith.
From Verif Require Import Prelude PreludeFacts Num GridModel GeoModel PropModel BlackOilModel FdmModel MonadFacts HistSpec InvFacts Samples QSamples SolveSpec MemoSpec WorldModel WorldSpec WorldFacts.
Import ListNotations.
Close Scope Q_scope.
Open Scope nat_scope.
From Verif Require Import WorldThm.
Close Scope Q_scope.
Open Scope nat_scope.

(** C117: whatever models there are and whatever a script does with them, in
    whatever order: if it passes every well object at most once and leaves well
    objects and boundary dictionaries alone once they are passed, every model is in
    the state, and its methods return and raise, as if it were the only one and had
    been given the values. *)
Theorem C117_apart :
  forall (F : Type) (NF : Num F) (NT : NumT F) (ms : list (Z * ws F)) (l : list (cmd F)) k x,
  dget k ms = Some x -> careful env0 l ->
  seen (plays (world_of ms) l) k = Some (after x (alone k env0 l)) /\ answers k (world_of ms) l = outcomes x (alone k env0 l).
Proof. exact L_C117_apart. Qed.
Print Assumptions C117_apart.

(** C117: one well object passed for two cells, of one model or of two: the two
    cells have one and the same well ever after, with the rate, the pressure, the
    equivalent radius and the productivity last assigned to either. *)
Theorem C117_one_well :
  forall (F : Type) (NF : Num F) (NT : NumT F) (ms : list (Z * ws F)) o s k1 id1 k2 id2 l v1 v2, (k1, id1) <> (k2, id2) ->
  let w1 := plays (world_of ms) [Make_well o s] in let w2 := plays w1 [Put_well k1 o (Some id1)] in
  snd (play (Put_well k1 o (Some id1)) w1) = Ok tt -> snd (play (Put_well k2 o (Some id2)) w2) = Ok tt -> Forall quiet l ->
  let w := plays (world_of ms) ([Make_well o s; Put_well k1 o (Some id1); Put_well k2 o (Some id2)] ++ l) in
  well_at w k1 id1 = Some v1 -> well_at w k2 id2 = Some v2 -> v1 = v2.
Proof. exact L_C117_one_well. Qed.
Print Assumptions C117_one_well.

(** C117 without the care: two models and one well object, of which the second model
    sets the rate: the first, on which only one method was called, has that rate; a
    well object told a new rate afterwards; a dictionary changed after it was passed. *)
Theorem C117_shared_refuted :
  exists m0 : bo Q, build 3 1 1 None 0%Q (Some 10%Q) None = Ok m0 /\
  forall NT : NumT Q,
  let ms := [(1%Z, (m0, None)); (2%Z, (m0, None))] in
  let make := Make_well 7%Z (single_cell_new (Some 2%Z) (Some (-1)%Q) None (Some (1 # 2)%Q) (Some "q"%string)) in
  let l1 := [make; Put_well 1%Z 7%Z None; Put_well 2%Z 7%Z None; On 2%Z (Set_well (Some 2%Z) (Some (-9)%Q) None None None)] in
  let l2 := [make; Put_well 1%Z 7%Z None; Tell_rate 7%Z (-9)%Q] in
  let l3 := [Make_dict 8%Z [(0%Z, ("pressure"%string, 20%Q))]; Put_dict 1%Z 8%Z; Edit_dict 8%Z 0%Z ("pressure"%string, 30%Q)] in
  let rate x := option_map (fun x => option_map (@w_q Q) (dget 2%Z (b_wells (fst x)))) x in
  let bounds x := option_map (fun x => b_bdict (fst x)) x in
  answers 1%Z (world_of ms) l1 = [Ok tt] /\ answers 2%Z (world_of ms) l1 = [Ok tt; Ok tt] /\
  rate (seen (plays (world_of ms) l1) 1%Z) = Some (Some (Some (Some (-9)%Q))) /\ rate (Some (after (m0, None) (alone 1%Z env0 l1))) = Some (Some (Some (Some (-1)%Q))) /\
  answers 1%Z (world_of ms) l2 = [Ok tt] /\
  rate (seen (plays (world_of ms) l2) 1%Z) = Some (Some (Some (Some (-9)%Q))) /\ rate (Some (after (m0, None) (alone 1%Z env0 l2))) = Some (Some (Some (Some (-1)%Q))) /\
  answers 1%Z (world_of ms) l3 = [Ok tt] /\
  bounds (seen (plays (world_of ms) l3) 1%Z) = Some [(0%Z, ("pressure"%string, 30%Q))] /\ bounds (Some (after (m0, None) (alone 1%Z env0 l3))) = Some [(0%Z, ("pressure"%string, 20%Q))].
Proof. exact L_C117_shared_refuted. Qed.
Print Assumptions C117_shared_refuted.

(** C117: two models, each with a well object and a dictionary of its own, used in turn. *)
Example C117_case : exists m0 : bo Q, build 3 1 1 None 0%Q (Some 10%Q) None = Ok m0 /\
  forall NT : NumT Q,
  let well q := single_cell_new (Some 2%Z) (Some q) None (Some (1 # 2)%Q) (Some "q"%string) in
  let l := [Make_well 7%Z (well (-1)%Q); Make_well 8%Z (well (-2)%Q); Tell_rate 8%Z (-3)%Q; Make_dict 5%Z [(0%Z, ("pressure"%string, 20%Q))]; Put_dict 1%Z 5%Z; Put_dict 2%Z 5%Z;
    Put_well 1%Z 7%Z None; Put_well 2%Z 8%Z (Some 3%Z); On 1%Z (Set_well (Some 2%Z) (Some (-9)%Q) None None None); On 1%Z Compile] in
  careful env0 l /\ dget 1%Z [(1%Z, (m0, None)); (2%Z, (m0, None : option (fs Q)))] = Some (m0, None) /\ length (alone 1%Z env0 l) = 4 /\ length (alone 2%Z env0 l) = 2 /\
  option_map (fun w => (w_q w, w_con w)) (well_at (plays (world_of [(1%Z, (m0, None)); (2%Z, (m0, None))]) l) 2%Z 3%Z) = Some (Some (Some (-3)%Q), Some (Some "q"%string)).
Proof. exact ex_C117_case. Qed.

(** C117: one object in two cells of one model; then the rate of one is set. *)
Example C117_one_case : exists m0 : bo Q, build 3 1 1 None 0%Q (Some 10%Q) None = Ok m0 /\
  forall NT : NumT Q,
  let s := single_cell_new (Some 2%Z) (Some (-1)%Q) None (Some (1 # 2)%Q) (Some "q"%string) in
  let w1 := plays (world_of [(1%Z, (m0, None))]) [Make_well 7%Z s] in let w2 := plays w1 [Put_well 1%Z 7%Z (Some 2%Z)] in
  let l := [On 1%Z (Set_well (Some 2%Z) (Some (-9)%Q) None None None)] in
  snd (play (Put_well 1%Z 7%Z (Some 2%Z)) w1) = Ok tt /\ snd (play (Put_well 1%Z 7%Z (Some 3%Z)) w2) = Ok tt /\ Forall quiet l /\
  let w := plays (world_of [(1%Z, (m0, None))]) ([Make_well 7%Z s; Put_well 1%Z 7%Z (Some 2%Z); Put_well 1%Z 7%Z (Some 3%Z)] ++ l) in
  well_at w 1%Z 2%Z <> None /\ option_map (fun v => w_q v) (well_at w 1%Z 3%Z) = Some (Some (Some (-9)%Q)).
Proof. exact ex_C117_one_case. Qed.
