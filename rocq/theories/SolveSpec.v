(** Repeated solving of a step: vocabulary. *)
From Coq Require Import String ZArith Bool Arith List Reals.
From Verif Require Import Prelude Num GridModel GeoModel PropModel BlackOilModel FdmModel HistSpec.
Import ListNotations.
Close Scope R_scope.
Open Scope nat_scope.

(** No pressure the solver returns for the cell of a well makes the estimated
    bottom-hole pressure at the specified rate equal to the limit. *)
Definition no_tie (m : bo R) (slv : solver_kind -> @mat R -> list (fl R) -> res (list (fl R))) : Prop :=
  forall k A d ps, slv k A d = Ok ps ->
  forall id w qsp G lim i v, dget id (b_wells m) = Some w -> w_qsp w = Some qsp -> w_G w = Some G -> w_pwfsp w = Some lim ->
  nth_error (b_ids m) i = Some id -> nth_error ps i = Some (Some v) ->
  (v + qsp * b_B m * b_mu m / G <> lim)%R.

(** The threaded symbolic assembly when the tasks that build the equations run in
    the order [o1] and the tasks that write the rows in the order [o2]
    (get_matrices_symb runs them in the order of cells_id). *)
Definition scheduled {F} {NF : Num F} (sc : Z -> F) (o1 o2 : list Z) : M (st F) (@mat F * list (fl F)) :=
  do _ <- mread (fun x : st F => if length (b_ids (fst x)) / 2 =? 0 then Err ValueError else Ok tt) ;;
  do eqs <- cells_eq_loop sc o1 ;;
  do _ <- mset (fun x : st F =>
      let n := length (b_ids (fst x)) in
      Ok (fst x, if (s_tstep (snd x) =? 0) || negb (has (s_sym (snd x)))
                 then set_sym (Some (mat0 n, repeat (Some n0) n)) (snd x) else snd x)) ;;
  do _ <- mset (fun x : st F =>
      let* Ad := attrE (s_sym (snd x)) in
      let* Ad := symb_rows (fst x) true eqs o2 Ad in
      Ok (fst x, set_sym (Some Ad) (snd x))) ;;
  mread (fun x : st F => attrE (s_sym (snd x))).

(** [P] holds of every call and the state it is made in. *)
Fixpoint along {F} {NF : Num F} {NT : NumT F} (P : ws F -> call F -> Prop) (x : ws F) (l : list (call F)) : Prop :=
  match l with [] => True | c :: l' => P x c /\ along P (fst (exec c x)) l' end.
(** Wells are set once, before the first step; after that set_well is only called
    for cells that have a well and without pwf; the model is compiled before the
    first step; solve updates. *)
Definition tidy {F} {NF : Num F} {NT : NumT F} (x : ws F) (c : call F) : Prop :=
  match c with
  | Set_well (Some id) _ pwf _ _ =>
      (din id (b_wells (fst x)) = false /\ get_tstep x = 0) \/ (din id (b_wells (fst x)) = true /\ pwf = None)
  | Set_well_obj w cell =>
      forall id, match cell with Some i => Some i | None => sc_cell w end = Some id -> din id (b_wells (fst x)) = false /\ get_tstep x = 0
  | Compile => get_tstep x = 0
  | _ => True
  end.
(** Every well has one recorded bottom-hole pressure per time step and one for the
    initial state. *)
Definition one_per_step {F} (x : ws F) : Prop :=
  forall id w, dget id (b_wells (fst x)) = Some w -> exists ps, dget id (b_wp (fst x)) = Some ps /\ length ps = S (get_tstep x).
