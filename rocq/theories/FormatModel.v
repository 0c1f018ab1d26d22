(** Model of output formats and array layouts: reformat and ispoints
    (/repo/reservoirflow/utils/helpers.py) and the fmt, fshape and points
    arguments of the methods of RegularCartesian
    (/repo/reservoirflow/grids/regular_cartesian.py).  Definitions only. *)
From Coq Require Import String ZArith Bool Arith List.
From Verif Require Import Prelude Num GridModel GeoModel PropModel.
Import ListNotations.
Set Implicit Arguments.

(** A numpy array: shape and entries in row-major order. *)
Definition arr (A : Type) := (list nat * list A)%type.

(** What a Python container of the library holds: numbers, sub-arrays (a row
    of an array with more than one dimension), and tuples of these. *)
Inductive leaf (A : Type) := Sc (a : A) | Ar (s : list nat) (l : list A).
Arguments Sc {A} a.
Arguments Ar {A} s l.
Inductive item (A : Type) := Lf (x : leaf A) | Tp (l : list (leaf A)).
Arguments Lf {A} x.
Arguments Tp {A} l.

(** The values handled by helpers.reformat: an array, a list, a tuple, a set
    (its elements once each, in no particular order) or the dictionary
    {"x": list, "y": list, "z": list}. *)
Inductive pyval (A : Type) :=
| VArr (a : arr A) | VList (l : list (item A)) | VTup (l : list (item A))
| VSet (l : list (item A)) | VDict (d : dirs (item A)).
Arguments VArr {A} a.
Arguments VList {A} l.
Arguments VTup {A} l.
Arguments VSet {A} l.
Arguments VDict {A} d.

(** Python iteration over an array: the entries of a one-dimensional array,
    the sub-arrays along the first axis of any other; an array without
    dimensions cannot be iterated (TypeError). *)
Definition arr_rows {A} (a : arr A) : res (list (leaf A)) :=
  match fst a with
  | [] => Err TypeError
  | [_] => Ok (map Sc (snd a))
  | n :: s => Ok (map (fun i => Ar s (chunk (prodn s) i (snd a))) (seq 0 n))
  end.

(** Python iteration over a container (dictionaries are replaced by a list
    before any iteration, helpers.py:178-183). *)
Definition py_iter {A} (v : pyval A) : res (list (item A)) :=
  match v with
  | VArr a => rmap (map (@Lf A)) (arr_rows a)
  | VList l | VTup l | VSet l => Ok l
  | VDict _ => Err TypeError
  end.

(** Python tuple(a) of an element. *)
Definition py_tuple {A} (x : item A) : res (item A) :=
  match x with
  | Lf (Sc _) => Err TypeError
  | Lf (Ar s l) => rmap (@Tp A) (arr_rows (s, l))
  | Tp l => Ok (Tp l)
  end.

(** numpy.array of a list: the shape of the elements must agree (ValueError
    otherwise, numpy >= 1.24), an empty list has shape (0,).  The shape of an
    element and its entries. *)
Definition leaf_arr {A} (x : leaf A) : arr A :=
  match x with Sc a => ([], [a]) | Ar s l => (s, l) end.
Definition shape_eqb (a b : list nat) : bool :=
  if list_eq_dec Nat.eq_dec a b then true else false.
Definition stack {A} (l : list (arr A)) : res (arr A) :=
  match l with
  | [] => Ok ([0], [])
  | x :: _ =>
      if forallb (fun y => shape_eqb (fst y) (fst x)) l
      then Ok (length l :: fst x, flat_map snd l) else Err ValueError
  end.
Definition item_arr {A} (x : item A) : res (arr A) :=
  match x with Lf y => Ok (leaf_arr y) | Tp l => stack (map leaf_arr l) end.
(** A set makes an array without dimensions holding the set itself (no method
    passes one); only its shape is read. *)
Definition np_array {A} (v : pyval A) : res (arr A) :=
  match v with
  | VArr a => Ok a
  | VList l | VTup l => let* rows := rmapM item_arr l in stack rows
  | VSet _ | VDict _ => Ok ([], [])
  end.

(** helpers.py:128-144 ispoints, on the shape of np.array(in_data) *)
Definition ispoints (s : list nat) : bool := (1 <? length s) && Nat.eqb (last s 0) 3.

(** Python set(...): arrays are not hashable (TypeError), nor are tuples that
    contain arrays; equal elements are kept once. *)
Definition leaf_eqb {A} (eqb : A -> A -> bool) (x y : leaf A) : bool :=
  match x, y with Sc a, Sc b => eqb a b | _, _ => false end.
Fixpoint leaves_eqb {A} (eqb : A -> A -> bool) (l m : list (leaf A)) : bool :=
  match l, m with
  | [], [] => true
  | x :: l', y :: m' => leaf_eqb eqb x y && leaves_eqb eqb l' m'
  | _, _ => false
  end.
Definition item_eqb {A} (eqb : A -> A -> bool) (x y : item A) : bool :=
  match x, y with
  | Lf a, Lf b => leaf_eqb eqb a b
  | Tp l, Tp m => leaves_eqb eqb l m
  | _, _ => false
  end.
Definition leaf_hashable {A} (x : leaf A) : bool :=
  match x with Sc _ => true | Ar _ _ => false end.
Definition hashable {A} (x : item A) : bool :=
  match x with Lf y => leaf_hashable y | Tp l => forallb leaf_hashable l end.
Fixpoint dedup {A} (eqb : A -> A -> bool) (l : list A) : list A :=
  match l with
  | [] => []
  | x :: l' => x :: filter (fun y => negb (eqb x y)) (dedup eqb l')
  end.
Definition py_set {A} (eqb : A -> A -> bool) (l : list (item A)) : res (pyval A) :=
  if forallb hashable l then Ok (VSet (dedup (item_eqb eqb) l)) else Err TypeError.

(** helpers.py:147-205 reformat; [None] is the Python None. *)
Definition is_fmt (fmt : option string) (s : string) : bool :=
  match fmt with Some f => String.eqb f s | None => false end.
Definition reformat {A} (eqb : A -> A -> bool) (in_data : pyval A) (fmt : option string)
  : res (pyval A) :=
  let go in_data :=
    let* a := np_array in_data in
    let points := ispoints (fst a) in
    let items := let* l := py_iter in_data in if points then rmapM py_tuple l else Ok l in
    if is_fmt fmt "list" then rmap (@VList A) items
    else if is_fmt fmt "tuple" then rmap (@VTup A) items
    else if is_fmt fmt "set" then let* l := items in py_set eqb l
    else if is_fmt fmt "array" then Ok (VArr a)
    else Err ValueError in
  match in_data with
  | VDict d => if is_fmt fmt "dict" then Ok in_data else go (VList (dirs_list d))
  | _ => go in_data
  end.

(** A coordinate triple as a tuple, and the rows of an array of points. *)
Definition scal {A} (a : A) : item A := Lf (Sc a).
Definition tri {A} (c : A * A * A) : item A :=
  match c with (i, j, k) => Tp [Sc i; Sc j; Sc k] end.
Definition flat3 {A} (l : list (A * A * A)) : list A :=
  flat_map (fun c => match c with (i, j, k) => [i; j; k] end) l.

(** regular_cartesian.py:310-378 get_fshape with the points argument
    (lines 370-371). *)
Definition get_fshape_p (g : grid) (boundary points : bool) : res (list nat) :=
  rmap (fun s => if points then s ++ [3] else s) (get_fshape g boundary).

(** numpy reshape to a shape, to (-1,) and to (-1, 3). *)
Definition np_reshape {A} (s : list nat) (a : arr A) : res (arr A) :=
  rmap (fun l => (s, l)) (reshape s (snd a)).
Definition np_flatten {A} (a : arr A) : arr A := ([length (snd a)], snd a).
Definition np_reshape3 {A} (a : arr A) : res (arr A) :=
  if Nat.eqb (Nat.modulo (length (snd a)) 3) 0
  then Ok ([Nat.div (length (snd a)) 3; 3], snd a) else Err ValueError.

(** regular_cartesian.py:1042-1045,1152-1155: the points argument, worked out
    when it is None. *)
Definition points_arg (points : option bool) (s : list nat) : bool :=
  match points with Some p => p | None => ispoints s end.

(** regular_cartesian.py:998-1114 remove_boundaries of an array, with its shape *)
Definition remove_boundaries_arr {A} (g : grid) (in_data : arr A) (points : option bool)
  (remove : string) : res (arr A) :=
  let p := points_arg points (fst in_data) in
  let* fs := get_fshape_p g true p in
  let flatten := negb (shape_eqb (fst in_data) fs) in
  let* a0 := np_reshape fs in_data in
  let* lr := remove_mode remove in
  let cut ax a := sl (fst lr) (snd lr) ax a in
  let* out :=
    if Nat.eqb (get_D g) 3 then Ok (cut 2 (cut 1 (cut 0 a0)))
    else if negb (unify g) then
      match get_D g with
      | 0 => Ok a0
      | 1 => Ok (cut 0 a0)
      | 2 => Ok (cut 1 (cut 0 a0))
      | _ => Err ValueError
      end
    else
      match get_fdir g with
      | [ADash] => Ok a0
      | [AX] => Ok (cut 2 a0)
      | [AY] => Ok (cut 1 a0)
      | [AZ] => Ok (cut 0 a0)
      | [AX; AY] => Ok (cut 2 (cut 1 a0))
      | [AX; AZ] => Ok (cut 2 (cut 0 a0))
      | [AY; AZ] => Ok (cut 1 (cut 0 a0))
      | _ => Err ValueError
      end in
  if flatten then (if p then np_reshape3 out else Ok (np_flatten out)) else Ok out.

(** regular_cartesian.py:1109-1112 remove_boundaries of a dictionary: every
    value is replaced in place by remove_boundaries(v, remove="both"); the
    result is the caller's dictionary.  The dictionary as it is left and the
    outcome (an exception leaves the values already replaced). *)
Fixpoint remove_boundaries_dict {A} (g : grid) (d : list (string * arr A))
  (points : option bool) (remove : string) : list (string * arr A) * res unit :=
  match d with
  | [] => ([], Ok tt)
  | (k, v) :: d' =>
      match remove_boundaries_arr g v None "both" with
      | Ok v' => let (e, r) := remove_boundaries_dict g d' points remove in ((k, v') :: e, r)
      | Err x => ((k, v) :: d', Err x)
      end
  end.

(** regular_cartesian.py:1116-1236 extract_boundaries: the concatenated
    boundary entries (lines 1152-1227); every concatenated piece is flattened. *)
Definition extract_raw_arr {A} (g : grid) (in_data : arr A) (p : bool) : res (list A) :=
  let* fs := get_fshape_p g true p in
  let* a0 := np_reshape fs in_data in
  let mid ax a := sl true true ax a in
  if Nat.eqb (get_D g) 3 then
    Ok (snd (ends 1 a0) ++ snd (ends 2 (mid 1 a0)) ++ snd (ends 0 (mid 1 (mid 2 a0))))
  else if negb (unify g) then
    match get_D g with
    | 0 => Ok (snd a0)
    | 1 => Ok (snd (ends 0 a0))
    | 2 => Ok (snd (ends 0 a0) ++ snd (ends 1 (mid 0 a0)))
    | _ => Err ValueError
    end
  else
    match get_fdir g with
    | [ADash] => Ok (snd a0)
    | [AX] => Ok (snd (ends 2 a0))
    | [AY] => Ok (snd (ends 1 a0))
    | [AZ] => Ok (snd (ends 0 a0))
    | [AX; AY] => Ok (snd (ends 1 a0) ++ snd (ends 2 (mid 1 a0)))
    | [AX; AZ] => Ok (snd (ends 0 a0) ++ snd (ends 2 (mid 0 a0)))
    | [AY; AZ] => Ok (snd (ends 0 a0) ++ snd (ends 1 (mid 0 a0)))
    | _ => Err ValueError
    end.
(** regular_cartesian.py:1229-1236, on integers: sorted when scalars, rows of
    three when points, then reformat. *)
Definition extract_boundaries_f (g : grid) (in_data : arr Z) (points : option bool)
  (fmt : option string) : res (pyval Z) :=
  let p := points_arg points (fst in_data) in
  let* l := extract_raw_arr g in_data p in
  let* out := if p then np_reshape3 ([length l], l) else Ok (np_flatten ([length l], zsort l)) in
  reformat Z.eqb (VArr out) fmt.

(** regular_cartesian.py:514-555 get_cells_i *)
Definition get_cells_i_f (g : grid) (boundary fshape : bool) (fmt : option string) : res (pyval Z) :=
  let cells_i := arange (get_n g boundary) in
  let a := ([length cells_i], cells_i) in
  if fshape then
    let* s := get_fshape_p g boundary false in rmap (@VArr Z) (np_reshape s a)
  else reformat Z.eqb (VArr a) fmt.

(** regular_cartesian.py:381-423 get_order('natural', boundary, fshape) *)
Definition get_order_f (g : grid) (boundary fshape : bool) : res (arr Z) :=
  let order := arange (get_n g true) in
  let a := ([length order], order) in
  let* a := if boundary then Ok a else remove_boundaries_arr g a (Some false) "both" in
  if fshape then let* s := get_fshape_p g boundary false in np_reshape s a else Ok a.

(** regular_cartesian.py:589-630 get_cells_id *)
Definition get_cells_id_f (g : grid) (boundary fshape : bool) (fmt : option string) : res (pyval Z) :=
  let* a := get_order_f g boundary fshape in
  if fshape then Ok (VArr a) else reformat Z.eqb (VArr a) fmt.

(** regular_cartesian.py:663-710 get_cells_coords: pyvista's cell_coords of an
    array of n ids is an array of shape (n, 3). *)
Definition get_cells_coords_f (g : grid) (boundary fshape : bool) (fmt : option string)
  : res (pyval Z) :=
  let* ids := get_order_f g boundary false in
  let* cs := rmapM (fun id => get_cell_coords g id true) (snd ids) in
  let a := ([length cs; 3], flat3 cs) in
  if fshape then
    let* s := get_fshape_p g boundary true in rmap (@VArr Z) (np_reshape s a)
  else reformat Z.eqb (VArr a) fmt.

(** regular_cartesian.py:754-802 get_cells_icoords; [fmt] is None unless given
    (line 758). *)
Definition get_cells_icoords_f (g : grid) (boundary fshape : bool) (fmt : option string)
  : res (pyval Z) :=
  let* cs := get_cells_coords g boundary in
  let* ics := rmapM (get_cell_icoords g) cs in
  let v := VTup (map (fun l => Tp (map Sc l)) ics) in
  if fshape then
    let* s := get_fshape_p g boundary true in
    let* a := np_array v in rmap (@VArr Z) (np_reshape s a)
  else reformat Z.eqb v fmt.

(** regular_cartesian.py:1238-1275 get_boundaries *)
Definition get_boundaries_f (g : grid) (by_ : string) (fmt : option string) : res (pyval Z) :=
  if String.eqb by_ "id" then
    let* v := get_cells_id_f g true true (Some "array"%string) in
    match v with VArr a => extract_boundaries_f g a (Some false) fmt | _ => Err ValueError end
  else if String.eqb by_ "coords" then
    let* v := get_cells_coords_f g true true (Some "array"%string) in
    match v with VArr a => extract_boundaries_f g a (Some true) fmt | _ => Err ValueError end
  else Err ValueError.

Definition dirs_map {A B} (f : A -> B) (d : dirs A) : dirs B :=
  mkDirs (map f (d_x d)) (map f (d_y d)) (map f (d_z d)).

(** regular_cartesian.py:804-917 get_cell_neighbors: by id if an id is given,
    else by coords, else ValueError. *)
Definition get_cell_neighbors_f (g : grid) (id : option Z) (coords : option coord)
  (boundary : bool) (fmt : option string) : res (pyval Z) :=
  let* d := match id, coords with
            | Some i, _ => rmap (dirs_map scal) (get_cell_neighbors g i boundary)
            | None, Some c => rmap (dirs_map tri) (get_cell_neighbors_c g c boundary)
            | None, None => Err ValueError
            end in
  reformat Z.eqb (VDict d) fmt.

(** regular_cartesian.py:919-996 get_cell_boundaries *)
Definition get_cell_boundaries_f (g : grid) (id : option Z) (coords : option coord)
  (fmt : option string) : res (pyval Z) :=
  let* d := match id, coords with
            | Some i, _ => rmap (dirs_map scal) (get_cell_boundaries g i)
            | None, Some c => rmap (dirs_map tri) (get_cell_boundaries_c g c)
            | None, None => Err ValueError
            end in
  reformat Z.eqb (VDict d) fmt.

(** regular_cartesian.py:2431-2484 get_prop with fshape and fmt *)
Definition get_prop_f {F} `{Num F} (o : gobj F) (n : pname) (boundary fshape : bool)
  (fmt : option string) : res (pyval F) :=
  let* l := get_prop o n boundary in
  let a := ([length l], l) in
  let* a := if fshape then let* s := get_fshape_p (ggrid o) boundary false in np_reshape s a
            else Ok a in
  reformat neqb (VArr a) fmt.
