(** Material balance: vocabulary. *)
From Coq Require Import String ZArith Bool Arith List Reals.
From Verif Require Import Prelude Num GridModel GridSpec GeoModel PropModel BlackOilModel FdmModel HistSpec ModelSpec SolverSpec.
Import ListNotations.
Close Scope R_scope.
Open Scope nat_scope.

(** The cell of that id is a boundary cell lying on exactly one face. *)
Definition face_id {F} (m : bo F) (id : Z) : Prop :=
  exists c, boundary_cell (gr (geom (b_grid m))) c /\ on_one_face (gr (geom (b_grid m))) c /\ id = natural_id (gr (geom (b_grid m))) c.
(** All interior cells are at one height. *)
Definition level {F} {NF : Num F} (m : bo F) : Prop :=
  exists zs h, gz m = Ok zs /\ forall id, In id (b_ids m) -> pyget zs id = Ok h.

(** A value of a row of pressures or rates. *)
Definition value {F} (row : list (fl F)) (id : Z) : fl F := nth (Z.to_nat id) row None.
(** What the cells take up between two rows of pressures: the sum of
    accumulation coefficient times change of pressure. *)
Definition gain (m : bo R) (old new : list (fl R)) : fl R :=
  fsum (map (fun id => fmul (Some (nth (Z.to_nat id) (b_RHS m) 0%R)) (fsub (value new id) (value old id))) (b_ids m)).

(** set_well(cell_id=…, …) *)
Definition sets_well {F} (c : call F) : Prop := match c with Set_well _ _ _ _ _ => True | _ => False end.
(** Boundary conditions: "pressure", or a rate. *)
Definition canonical {F} (bd : list (Z * (string * F))) : Prop :=
  forall e, In e bd -> fst (snd e) = "pressure"%string \/ smem (lower (fst (snd e))) RATE = true.
(** The rate a boundary condition prescribes: the value of a rate, or what the
    gradient amounts to. *)
Definition prescribes {F} {NF : Num F} (m : bo F) (e : Z * (string * F)) (v : F) : Prop :=
  (smem (lower (fst (snd e))) RATE = true /\ v = snd (snd e)) \/
  (smem (lower (fst (snd e))) GRAD = true /\ grad_rate m (fst e) (snd (snd e)) = Ok v).
(** A solve with an exact solver that assembles one system and leaves every
    well in the mode it was in: on the vectorised path, or, when all conditions
    are pressures or rates and no well factor is negative, on the symbolic path
    without threads (sympy scaling no equation by zero). *)
Definition balanced_step (x : ws R) (c : call R) : Prop :=
  match c with
  | Solve slv sc _ _ o => exact slv /\ o_upd o = true /\ o_print o = false /\
      (o_vect o = true \/ (o_thr o = false /\ (forall id, sc id <> 0%R) /\ canonical (b_bdict (fst x)) /\ productive (fst x))) /\
      forall s s', snd x = Some s -> snd (fst (exec c x)) = Some s' ->
        length (s_As s') = S (length (s_As s)) /\
        forall id w w', dget id (b_wells (fst x)) = Some w -> dget id (b_wells (fst (fst (exec c x)))) = Some w' -> w_con w' = w_con w
  | _ => False
  end.
(** The mode of a well. *)
Definition controlled {F} (x : ws F) (name : string) (id : Z) (w : well F) : Prop :=
  dget id (b_wells (fst x)) = Some w /\ w_con w = Some (Some name).

(** The calls that set up a model: wells, at most one set_boundaries, wells. *)
Definition setup {F} (l1 : list (call F)) (ob : option (list (Z * (string * F)))) (l2 : list (call F)) : list (call F) :=
  l1 ++ match ob with Some bd => [Set_boundaries bd] | None => [] end ++ l2.
(** Distinct boundary cells, each on one face; wells set by set_well; a level
    reservoir or no rate-controlled well; no well controlled by pressure 0. *)
Definition plain (m : bo R) (l1 : list (call R)) (ob : option (list (Z * (string * R)))) (l2 : list (call R)) : Prop :=
  match ob with Some bd => NoDup (map fst bd) /\ Forall (fun e => face_id m (fst e)) bd | None => True end /\
  Forall sets_well l1 /\ Forall sets_well l2 /\
  (level m \/ forall id w, ~ controlled (after (m, None) (setup l1 ob l2)) "q" id w) /\
  (forall id w, controlled (after (m, None) (setup l1 ob l2)) "pwf" id w -> w_pwfsp w <> Some 0%R).
