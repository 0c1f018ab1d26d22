(** Scaled and labelled data: vocabulary. *)
From Coq Require Import String Ascii ZArith Bool Arith List Reals.
From Verif Require Import Prelude Num GridModel GeoModel GeoSpec PropModel UnitsModel BlackOilModel FdmModel FrameModel FrameSpec ScalerModel ScalerSpec ScaleModel.
Import ListNotations.
Local Close Scope R_scope.
Local Open Scope string_scope.
Local Open Scope nat_scope.

(** What a column of a frame is about, by its name: Time, Date, Q.. and Qw.., P.. and
    Pwf.., or something without a unit (id, Step, x, y, z). *)
Inductive ckind := KTime | KDate | KRate | KPressure | KOther.
Definition kind_of (name : string) : ckind :=
  match name with
  | String "T"%char _ => KTime
  | String "D"%char _ => KDate
  | String "Q"%char _ => KRate
  | String "P"%char _ => KPressure
  | _ => KOther
  end.
(** The name with its unit: [scaled] if the values are scaled. *)
Definition unit_in (un : list (string * string)) (key : string) : string :=
  match sget key un with Some u => u | None => "" end.
Definition labelled (un : list (string * string)) (scaled : quantity -> bool) (name : string) : string :=
  name ++
  match kind_of name with
  | KTime => if scaled QTime then " [scaled]" else " [" ++ unit_in un "time" ++ "]"
  | KDate => " [d.m.y]"
  | KRate => if scaled QRate then " [scaled]" else " [" ++ unit_in un "rate" ++ "]"
  | KPressure => if scaled QPressure then " [scaled]" else " [" ++ unit_in un "pressure" ++ "]"
  | KOther => ""
  end.
(** The values of a quantity are changed by scaling. *)
Definition has_scaler {F} (s : scalers (fl F)) (q : quantity) : bool :=
  match scaler_of s q with Dummy => false | MinMax _ => true end.
(** Same rows, same values, names changed by [h]. *)
Definition renamed {F} (h : string -> string) (df : frame F) : frame F :=
  mkFrame (f_rows df) (map (fun c => (h (fst c), snd c)) (f_cols df)).

(** Calls that read or set scaled data; each sees the model and its solution as they
    are then. *)
Inductive dcall {F : Type} :=
| DSet (d : list (string * conf (fl F)))
| DUpdate (m : bo F) (so : option (soln F)) (boundary : bool)
| DTime (m : bo F) (so : option (soln F)) (scale : bool)
| DCenters (m : bo F) (scale boundary : bool)
| DDomain (m : bo F) (so : option (soln F)) (scale boundary : bool)
| DFrame (m : bo F) (so : option (soln F)) (un : list (string * string)) (cols : list string)
         (boundary units melt scale drop_nan drop_zero : bool).
Arguments dcall : clear implicits.
Definition dstep {F} {NF : Num F} {NC : NumC F} (s : scalers (fl F)) (c : dcall F) : scalers (fl F) :=
  match c with
  | DSet d => fst (set_scalers s d)
  | DUpdate m so b => fst (update_scalers m so b s)
  | DTime m so sc => fst (get_time_s m so sc s)
  | DCenters m sc b => fst (get_centers_s m sc b s)
  | DDomain m so sc b => fst (get_domain_s m so sc b s)
  | DFrame m so un cols b u melt sc dn dz => fst (get_df_s m so un cols b u melt sc dn dz s)
  end.
(** The scalers of a model after calls. *)
Definition dafter {F} {NF : Num F} {NC : NumC F} (s : scalers (fl F)) (l : list (dcall F)) : scalers (fl F) := fold_left dstep l s.
Definition reads {F} (c : dcall F) : Prop := match c with DSet _ => False | _ => True end.

(** Min-max scaling of one number from [lo, hi] to [a, b]. *)
Definition affine (a b lo hi x : R) : R := (a + (b - a) * (x - lo) / (hi - lo))%R.
(** Missing entries stay missing. *)
Definition on_val (f : R -> R) (v : val R) : val R := match v with VNum x => VNum (f x) | v => v end.
Definition on_fl (f : R -> R) (v : fl R) : fl R := match v with Some x => Some (f x) | None => None end.
(** The scaler of [q] maps to [a, b]. *)
Definition scales_to (s : scalers (fl R)) (q : quantity) (a b : R) : Prop :=
  exists lo hi, scaler_of s q = MinMax (mkMM (Some a) (Some b) lo hi).

(** The values that count for the range of a recorded array: those of the cells where
    it is not constantly zero. *)
Definition counts (a : list (list (fl R))) (s : fs R) (ids : list Z) (x : R) : Prop :=
  exists id t, In id ids /\ In t (steps_of s) /\ value_at a t id = VNum x /\
  exists t' y, In t' (steps_of s) /\ value_at a t' id = VNum y /\ y <> 0%R.
(** No cell has a value at some steps only. *)
Definition complete (a : list (list (fl R))) (s : fs R) (ids : list Z) : Prop :=
  forall id, In id ids -> (forall t, In t (steps_of s) -> value_at a t id = VNan) \/ (forall t, In t (steps_of s) -> value_at a t id <> VNan).
Definition range_is (P : R -> Prop) (lo hi : R) : Prop :=
  P lo /\ P hi /\ forall x, P x -> (lo <= x <= hi)%R.

(** Every number x of the quantity [q] becomes [f x]: mapped from the range of the
    values [P] to the range set for [q], or unchanged if [q] has no scaler. *)
Definition maps (s : scalers (fl R)) (q : quantity) (P : R -> Prop) (f : R -> R) : Prop :=
  (has_scaler s q = false /\ forall x, f x = x) \/
  exists a b lo hi, scales_to s q a b /\ range_is P lo hi /\ (lo < hi)%R /\ forall x, f x = affine a b lo hi x.
(** The values of the other quantities: times of the recorded steps, coordinates of
    cell centres along [d]. *)
Definition times_of (dt : R) (s : fs R) (x : R) : Prop := exists t, In t (steps_of s) /\ x = (INR t * dt)%R.
Definition coords (pts : list (R * R * R)) (d : axis) (x : R) : Prop := exists p, In p pts /\ x = coord_of d p.
(** How the numbers of a column change, by its name. *)
Definition rescaled (ft fp fr : R -> R) (fx : string -> R -> R) (name : string) : R -> R :=
  match kind_of name with KTime => ft | KRate => fr | KPressure => fp | KDate => fun x => x | KOther => fx name end.
(** Same rows and names, the numbers of each column changed. *)
Definition changed (f : string -> R -> R) (df : frame R) : frame R :=
  mkFrame (f_rows df) (map (fun c => (fst c, map (on_val (f (fst c))) (snd c))) (f_cols df)).
