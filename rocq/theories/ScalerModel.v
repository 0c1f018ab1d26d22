(** Model of the scalers (/repo/reservoirflow/scalers/minmax.py, dummy.py) and
    of BlackOil.set_scalers (models/black_oil.py:865-934).  Definitions only. *)
From Coq Require Import String ZArith Bool List.
From Verif Require Import Prelude Num UnitsModel.
Import ListNotations.
Set Implicit Arguments.
Local Open Scope string_scope.

Section scalers.
Context {F : Type} {NF : Num F}.

(** A numpy array: shape and row-major entries. *)
Record nda := mkNda { nd_shape : list nat; nd_data : list F }.

(** vmin, vmax: a number, or one number per column. *)
Inductive rng := RS (x : F) | RV (l : list F).

(** minmax.py:37-49: attributes of a MinMax; [None] is Python's None. *)
Record minmax := mkMM { Vmin : F; Vmax : F; vmin : option rng; vmax : option rng }.
(** minmax.py:37-49 __init__ *)
Definition mm_new (output_range : F * F) (input_range : option (rng * rng)) : minmax :=
  mkMM (fst output_range) (snd output_range)
       (option_map fst input_range) (option_map snd input_range).
(** minmax.py:51-54 *)
Definition mm_set_output_range (m : minmax) (r : F * F) : minmax :=
  mkMM (fst r) (snd r) (vmin m) (vmax m).

(** Minimum / maximum of a non-empty list; numpy raises ValueError on an empty one.
    A NaN (the only value different from itself) is passed on. *)
Definition nmin (a b : F) : F := if (nltb b a || negb (neqb b b))%bool then b else a.
Definition nmax (a b : F) : F := if (nltb a b || negb (neqb b b))%bool then b else a.
Definition reduce (f : F -> F -> F) (l : list F) : res F :=
  match l with [] => Err ValueError | a :: t => Ok (fold_left f t a) end.
(** Column [j] of a matrix with [c] columns. *)
Definition column (r c : nat) (l : list F) (j : nat) : list F :=
  map (fun i => nth (i * c + j) l n0) (seq 0 r).
(** v.min(axis) and v.max(axis) for axis=None (all entries) and axis=0
    ([axis0 = true]) of arrays with at most two dimensions. *)
Definition np_reduce (f : F -> F -> F) (axis0 : bool) (v : nda) : res rng :=
  match axis0, nd_shape v with
  | true, [r; c] => let* l := rmapM (fun j => reduce f (column r c (nd_data v) j)) (seq 0 c) in Ok (RV l)
  | _, _ => let* x := reduce f (nd_data v) in Ok (RS x)
  end.
(** minmax.py:56-66 fit; other values of axis are not modelled. *)
Definition mm_fit (m : minmax) (v : nda) (axis0 : bool) : minmax * res unit :=
  if (Nat.ltb 2 (length (nd_shape v)) && axis0)%bool then (m, Err ValueError)
  else match np_reduce nmin axis0 v with
       | Err e => (m, Err e)
       | Ok lo =>
           let m := mkMM (Vmin m) (Vmax m) (Some lo) (vmax m) in
           match np_reduce nmax axis0 v with
           | Err e => (m, Err e)
           | Ok hi => (mkMM (Vmin m) (Vmax m) (Some lo) (Some hi), Ok tt)
           end
       end.

(** numpy broadcasting of an expression in an array [v] and two ranges: a
    vector range must have as many entries as the last dimension of [v].
    (Simplified: stretching of dimensions of size one is not modelled.) *)
Definition rng_len_ok (d : nat) (r : rng) : bool :=
  match r with RS _ => true | RV l => Nat.eqb (length l) d end.
Definition rng_at (d : nat) (r : rng) (i : nat) : F :=
  match r with RS x => x | RV l => nth (Nat.modulo i d) l n0 end.
Definition broadcast (f : F -> F -> F -> F) (lo hi : rng) (v : nda) : res nda :=
  let d := last (nd_shape v) 1 in
  if (rng_len_ok d lo && rng_len_ok d hi)%bool then
    Ok (mkNda (nd_shape v)
       (map2 (fun i x => f x (rng_at d lo i) (rng_at d hi i)) (seq 0 (length (nd_data v))) (nd_data v)))
  else Err ValueError.
(** minmax.py:68-73 transform *)
Definition mm_transform (m : minmax) (v : nda) : res nda :=
  match vmin m, vmax m with
  | Some lo, Some hi =>
      broadcast (fun x a b => nadd (ndiv (nmul (nsub (Vmax m) (Vmin m)) (nsub x a)) (nsub b a)) (Vmin m)) lo hi v
  | _, _ => Err ValueError
  end.
(** minmax.py:75-80 inverse_transform *)
Definition mm_inverse (m : minmax) (v : nda) : res nda :=
  match vmin m, vmax m with
  | Some lo, Some hi =>
      broadcast (fun x a b => nadd (ndiv (nmul (nsub b a) (nsub x (Vmin m))) (nsub (Vmax m) (Vmin m))) a) lo hi v
  | _, _ => Err ValueError
  end.
(** minmax.py:82-84 *)
Definition mm_fit_transform (m : minmax) (v : nda) (axis0 : bool) : minmax * res nda :=
  match mm_fit m v axis0 with
  | (m, Ok _) => (m, mm_transform m v)
  | (m, Err e) => (m, Err e)
  end.

(** A scaler object: dummy.py:9-37 or minmax.py. *)
Inductive scaler := Dummy | MinMax (m : minmax).
Definition sc_set_output_range (s : scaler) (r : F * F) : scaler :=
  match s with Dummy => Dummy | MinMax m => MinMax (mm_set_output_range m r) end.
Definition sc_fit (s : scaler) (v : nda) (axis0 : bool) : scaler * res unit :=
  match s with
  | Dummy => (Dummy, Ok tt)
  | MinMax m => let (m, r) := mm_fit m v axis0 in (MinMax m, r)
  end.
Definition sc_transform (s : scaler) (v : nda) : res nda :=
  match s with Dummy => Ok v | MinMax m => mm_transform m v end.
Definition sc_inverse (s : scaler) (v : nda) : res nda :=
  match s with Dummy => Ok v | MinMax m => mm_inverse m v end.
Definition sc_fit_transform (s : scaler) (v : nda) (axis0 : bool) : scaler * res nda :=
  match s with
  | Dummy => (Dummy, Ok v)
  | MinMax m => let (m, r) := mm_fit_transform m v axis0 in (MinMax m, r)
  end.

(** ** BlackOil.set_scalers *)
(** One entry of the argument: scaler type and output range, each may be None. *)
Definition conf : Type := option string * option (F * F).
(** The scaler attributes and model.scalers_dict. *)
Record scalers := mkScalers {
  time_scaler : scaler; space_scaler : scaler; pressures_scaler : scaler; rates_scaler : scaler;
  scalers_dict : list (string * conf) }.

(** black_oil.py:897-903 create_scaler *)
Definition create_scaler (c : conf) : res (scaler * option string) :=
  match c with
  | (Some t, Some r) =>
      if smem (lower t) ["minmax"; "minmaxscaler"] then Ok (MinMax (mm_new r None), Some "MinMax")
      else Err ValueError
  | _ => Ok (Dummy, None)
  end.
(** black_oil.py:905-910 col_dict *)
Definition col_time := ["t"; "time"; "all"].
Definition col_space := ["space"; "spatial"; "xyz"; "x"; "y"; "z"; "all"].
Definition col_pressure := ["p"; "pressures"; "pressure"; "all"].
Definition col_rate := ["q"; "rates"; "rate"; "all"].
(** black_oil.py:931-934 *)
Definition record_conf (s : scalers) (key : string) (c : conf) (s_str : option string) : scalers :=
  mkScalers (time_scaler s) (space_scaler s) (pressures_scaler s) (rates_scaler s)
    (sset key (match c with (Some _, Some r) => (s_str, Some r) | _ => (None, None) end) (scalers_dict s)).
(** black_oil.py:914-934: one iteration of the loop *)
Definition set_scaler (s : scalers) (column : string) (c : conf) : scalers * res unit :=
  let T := time_scaler s in let X := space_scaler s in
  let P := pressures_scaler s in let Q := rates_scaler s in let d := scalers_dict s in
  let put key (f : scaler -> scalers) :=
    match create_scaler c with
    | Err e => (s, Err e)
    | Ok (sc, str) => (record_conf (f sc) key c str, Ok tt)
    end in
  if smem (lower column) col_time then put "time" (fun sc => mkScalers sc X P Q d)
  else if smem (lower column) col_space then put "space" (fun sc => mkScalers T sc P Q d)
  else if smem (lower column) col_pressure then put "pressure" (fun sc => mkScalers T X sc Q d)
  else if smem (lower column) col_rate then put "rate" (fun sc => mkScalers T X P sc d)
  else (s, Err ValueError).
(** black_oil.py:913-934 set_scalers; the argument is the dictionary's items in
    insertion order. *)
Fixpoint set_scalers (s : scalers) (d : list (string * conf)) : scalers * res unit :=
  match d with
  | [] => (s, Ok tt)
  | (k, c) :: d' => andthen (set_scaler s k c) (fun s => set_scalers s d')
  end.
End scalers.
Arguments nda : clear implicits. Arguments rng : clear implicits. Arguments minmax : clear implicits.
Arguments scaler : clear implicits. Arguments conf : clear implicits. Arguments scalers : clear implicits.
