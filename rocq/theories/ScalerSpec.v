(** Independent vocabulary for the properties of the scalers. *)
From Coq Require Import String ZArith Reals Bool List.
From Verif Require Import Prelude Num UnitsModel ScalerModel.
Import ListNotations.
Local Open Scope string_scope.
Local Open Scope R_scope.

(** Two entries (positions in the flat array) of an array are scaled with the
    same range: always, except that axis=0 scales a matrix column by column. *)
Definition same_range (axis0 : bool) (sh : list nat) (i j : nat) : Prop :=
  match axis0, sh with
  | true, [_; c] => Nat.modulo i c = Nat.modulo j c
  | _, _ => True
  end.
(** A proper array: as many entries as its shape says. *)
Definition proper (v : nda R) : Prop := length (nd_data v) = fold_right Nat.mul 1%nat (nd_shape v).
Definition entry (v : nda R) (i : nat) : R := nth i (nd_data v) 0.

(** Number of columns a range is made for. *)
Definition fits (v : nda R) (r : rng R) : Prop :=
  match r with RS _ => True | RV l => length l = last (nd_shape v) 1%nat end.
(** The two ends of an input range differ (in every column). *)
Definition proper_range (lo hi : rng R) : Prop :=
  match lo, hi with
  | RS a, RS b => a <> b
  | RV a, RV b => length a = length b /\ forall i, (i < length a)%nat -> nth i a 0 <> nth i b 0
  | RS a, RV b => forall i, (i < length b)%nat -> a <> nth i b 0
  | RV a, RS b => forall i, (i < length a)%nat -> nth i a 0 <> b
  end.
(** The value of a range in column [i]. *)
Definition end_at (r : rng R) (i : nat) : R := match r with RS x => x | RV l => nth i l 0 end.

(** Calls on a scaler. *)
Inductive scall :=
| SOut (r : R * R) | SFit (v : nda R) (axis0 : bool) | STrans (v : nda R) | SInv (v : nda R)
| SFitTrans (v : nda R) (axis0 : bool).
Definition sstep (s : scaler R) (c : scall) : scaler R :=
  match c with
  | SOut r => sc_set_output_range s r
  | SFit v a => fst (sc_fit s v a)
  | STrans _ | SInv _ => s
  | SFitTrans v a => fst (sc_fit_transform s v a)
  end.
(** numpy can take the minimum: at most two dimensions or axis=None, and not empty. *)
Definition fittable (v : nda R) (axis0 : bool) : bool :=
  match axis0, nd_shape v with
  | true, [r; c] => Nat.ltb 0 r || Nat.eqb c 0
  | true, _ :: _ :: _ :: _ => false
  | _, _ => Nat.ltb 0 (length (nd_data v))
  end.
(** The call that last fitted the scaler. *)
Definition fit_by (c : scall) : option (nda R * bool) :=
  match c with
  | SFit v a | SFitTrans v a => if fittable v a then Some (v, a) else None
  | _ => None
  end.
Definition last_fit (l : list scall) : option (nda R * bool) :=
  fold_left (fun acc c => match fit_by c with Some f => Some f | None => acc end) l None.
(** Arrays that can be scaled after that fit: column-wise ranges need the same
    number of columns. *)
Definition scalable (f : nda R * bool) (v : nda R) : Prop :=
  match f with
  | (w, true) => match nd_shape w with [_; c] => last (nd_shape v) 1%nat = c | _ => True end
  | (_, false) => True
  end.

(** The quantity a column name stands for, by the documentation of set_scalers:
    black_oil.py:865-896.  [None]: unknown. *)
Inductive quantity := QTime | QSpace | QPressure | QRate.
Definition quantity_of (name : string) : option quantity :=
  if smem name ["t"; "time"] then Some QTime
  else if smem name ["space"; "spatial"; "xyz"; "x"; "y"; "z"] then Some QSpace
  else if smem name ["p"; "pressures"; "pressure"] then Some QPressure
  else if smem name ["q"; "rates"; "rate"] then Some QRate
  else None.
Definition scaler_of {F} (s : scalers F) (q : quantity) : scaler F :=
  match q with QTime => time_scaler s | QSpace => space_scaler s | QPressure => pressures_scaler s | QRate => rates_scaler s end.
Definition qname (q : quantity) : string :=
  match q with QTime => "time" | QSpace => "space" | QPressure => "pressure" | QRate => "rate" end.
(** What an entry asks for. *)
Definition wanted (c : conf R) : scaler R :=
  match c with (Some _, Some (a, b)) => MinMax (mkMM a b None None) | _ => Dummy end.
Definition wanted_name (c : conf R) : conf R :=
  match c with (Some _, Some r) => (Some "MinMax", Some r) | _ => (None, None) end.
(** An entry asks for a scaler that exists. *)
Definition known_type (c : conf R) : bool :=
  match c with (Some t, Some _) => smem (lower t) ["minmax"; "minmaxscaler"] | _ => true end.
Definition qeqb (a b : quantity) : bool :=
  match a, b with QTime, QTime | QSpace, QSpace | QPressure, QPressure | QRate, QRate => true | _, _ => false end.
(** The entry of the dictionary that decides about [q]: the last one naming it. *)
Definition deciding (d : list (string * conf R)) (q : quantity) : option (conf R) :=
  fold_left (fun acc kc => match quantity_of (lower (fst kc)) with
                           | Some q' => if qeqb q q' then Some (snd kc) else acc
                           | None => acc end) d None.
