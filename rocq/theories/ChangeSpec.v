(** Controls changed between the steps: vocabulary. *)
From Coq Require Import String ZArith Bool Arith List Reals.
From Verif Require Import Prelude Num GridModel GridSpec GeoModel PropModel BlackOilModel FdmModel HistSpec BalanceSpec LocalSpec.
Import ListNotations.
Close Scope R_scope.
Open Scope nat_scope.

(** The prescribed pressures of a dictionary of boundary conditions. *)
Definition pressures {F} (bd : list (Z * (string * F))) : list (Z * (string * F)) :=
  filter (fun e => String.eqb (fst (snd e)) "pressure") bd.
(** A change of the controls after the first step.  Boundaries: the prescribed
    pressures stay, no condition is dropped, rates and gradients are free, new ones
    too.  Wells: a new well, a new rate, a new limit, a rate given up for a pressure;
    a well controlled by pressure stays so and keeps its factor. *)
Definition change (x : ws R) (c : call R) : Prop :=
  match c with
  | Set_boundaries bd =>
      0 < get_tstep x /\ NoDup (map fst bd) /\ Forall (fun e => face_id (fst x) (fst e)) bd /\
      pressures bd = pressures (b_bdict (fst x)) /\ incl (map fst (b_bdict (fst x))) (map fst bd)
  | Set_well _ _ _ _ _ =>
      (level (fst x) \/ forall id w, ~ controlled (fst (exec c x)) "q" id w) /\
      (forall id w, controlled (fst (exec c x)) "pwf" id w -> w_pwfsp w <> Some 0%R) /\
      (forall id w w', controlled x "pwf" id w -> dget id (b_wells (fst (fst (exec c x)))) = Some w' -> w_con w' = w_con w /\ w_G w' = w_G w)
  | _ => False
  end.
(** A balanced step of the vectorised path, or a change of the controls. *)
Definition live (x : ws R) (c : call R) : Prop :=
  match c with
  | Solve _ _ _ _ o => o_vect o = true /\ balanced_step x c
  | _ => change x c
  end.
(** The rates of a row follow the controls: the wells by their mode, the
    boundaries by their condition, 0 elsewhere. *)
Definition follows_controls (m : bo R) (new rates : list (fl R)) : Prop :=
  (forall id w, dget id (b_wells m) = Some w -> well_obeys m w (value new id) (value rates id)) /\
  (forall idb v, In (idb, ("pressure"%string, v)) (b_bdict m) -> pressure_rate m new idb v (value rates idb)) /\
  (forall idb cond v, In (idb, (cond, v)) (b_bdict m) -> smem (lower cond) RATE = true -> value rates idb = Some v) /\
  (forall idb cond v, In (idb, (cond, v)) (b_bdict m) -> smem (lower cond) GRAD = true -> exists r, gradient_rate m idb v r /\ value rates idb = Some r) /\
  (forall id, (0 <= id < Z.of_nat (get_n (bgrid m) true))%Z -> dget id (b_wells m) = None -> dget id (b_bdict m) = None -> value rates id = Some 0%R).
(** The controls of a model are those of another: the same conditions, and wells
    with the same modes and set points. *)
Definition same_controls (m1 m2 : bo R) : Prop :=
  b_bdict m2 = b_bdict m1 /\ (forall id, dget id (b_wells m1) = None -> dget id (b_wells m2) = None) /\
  forall id w, dget id (b_wells m1) = Some w -> exists w', dget id (b_wells m2) = Some w' /\
    (w_con w', w_qsp w', w_pwfsp w', w_G w') = (w_con w, w_qsp w, w_pwfsp w, w_G w).
(** The rates of a step sum to what the cells take up. *)
Definition in_balance (m : bo R) (old new rates : list (fl R)) : Prop :=
  if b_cmp m then exists G, gain m old new = Some G /\ fsum rates = Some G else fsum rates = Some 0%R.
