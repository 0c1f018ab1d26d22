(** Model of the index part of RegularCartesian
    (/repo/reservoirflow/grids/regular_cartesian.py): dimension, direction,
    shapes, ids, coordinates, neighbours, boundaries.  Definitions only. *)
From Coq Require Import String ZArith Bool Arith List.
From Verif Require Import Prelude.
Import ListNotations.
Set Implicit Arguments.

(** regular_cartesian.py:31-49,154-158: the integer sizes and the unify flag
    of a grid.  The asserts (nx, ny, nz >= 1) are [grid_new] below. *)
Record grid := mkGrid { nx : nat; ny : nat; nz : nat; unify : bool }.

(** regular_cartesian.py:155-158 *)
Definition grid_new (x y z : nat) (u : bool) : res grid :=
  let* _ := passert (1 <=? x) in
  let* _ := passert (1 <=? y) in
  let* _ := passert (1 <=? z) in
  Ok (mkGrid x y z u).

(** The characters of a flow-direction string: 'x', 'y', 'z' and '-'. *)
Inductive axis := AX | AY | AZ | ADash.
Definition axis_eqb (a b : axis) : bool :=
  match a, b with
  | AX, AX => true | AY, AY => true | AZ, AZ => true | ADash, ADash => true
  | _, _ => false
  end.
(** ["x" in self.fdir] *)
Definition amem (a : axis) (l : list axis) : bool := existsb (axis_eqb a) l.

(** regular_cartesian.py:170-183 get_D *)
Definition get_D (g : grid) : nat :=
  fold_left Nat.add (map (fun n => if 1 <? n then 1 else 0) [nx g; ny g; nz g]) 0.

(** numpy.argmax / argmin of a non-empty list: index of the first extremum. *)
Fixpoint arg_best (better : nat -> nat -> bool) (i bi b : nat) (l : list nat) : nat :=
  match l with
  | [] => bi
  | a :: l' => if better a b then arg_best better (S i) i a l'
               else arg_best better (S i) bi b l'
  end.
Definition argmax (l : list nat) : nat :=
  match l with [] => 0 | a :: l' => arg_best (fun a b => b <? a) 1 0 a l' end.
Definition argmin (l : list nat) : nat :=
  match l with [] => 0 | a :: l' => arg_best (fun a b => a <? b) 1 0 a l' end.

(** regular_cartesian.py:271-307 get_fdir, with the attribute self.shape as
    an argument (the method reads the attribute left by the last computed
    get_shape call).  A D outside 0..3 cannot occur. *)
Definition fdir_of_shape (D : nat) (shape : list nat) : list axis :=
  match D with
  | 0 => [ADash]
  | 1 => match argmax shape with
         | 0 => [AX] | 1 => [AY] | _ => [AZ]
         end
  | 2 => match argmin shape with
         | 2 => [AX; AY] | 1 => [AX; AZ] | _ => [AY; AZ]
         end
  | _ => [AX; AY; AZ]
  end.
(** regular_cartesian.py:216 (boundary=False branch of get_shape) *)
Definition shape_inner (g : grid) : list nat := [nx g; ny g; nz g].
(** regular_cartesian.py:271-307 get_fdir, after get_shape(False) on line 281 *)
Definition get_fdir (g : grid) : list axis := fdir_of_shape (get_D g) (shape_inner g).

(** regular_cartesian.py:200-214, attributes nx_b, ny_b, nz_b *)
Definition nx_b (g : grid) : nat := if amem AX (get_fdir g) then nx g + 2 else nx g.
Definition ny_b (g : grid) : nat := if amem AY (get_fdir g) then ny g + 2 else ny g.
Definition nz_b (g : grid) : nat := if amem AZ (get_fdir g) then nz g + 2 else nz g.

(** regular_cartesian.py:186-222 get_shape *)
Definition get_shape (g : grid) (boundary : bool) : list nat :=
  if boundary then [nx_b g; ny_b g; nz_b g] else shape_inner g.

(** regular_cartesian.py:225-245 get_n *)
Definition get_n (g : grid) (boundary : bool) : nat := prodn (get_shape g boundary).

(** regular_cartesian.py:248-268 get_n_max *)
Definition get_n_max (g : grid) (boundary : bool) : nat :=
  fold_left Nat.max (get_shape g boundary) 0.

(** regular_cartesian.py:310-378 get_fshape (points=False; the points
    dimension is modelled by lists of points).  The 'unknown fdir' branches
    are unreachable because get_fdir only returns the listed values; they are
    modelled as ValueError. *)
Definition get_fshape (g : grid) (boundary : bool) : res (list nat) :=
  match get_shape g boundary with
  | [x; y; z] =>
      match get_fdir g with
      | [AX; AY; AZ] => Ok [z; y; x]
      | fd =>
          if negb (unify g) then
            match fd with
            | [ADash] => Ok [1]
            | [AX] => Ok [x]
            | [AY] => Ok [y]
            | [AZ] => Ok [z]
            | [AX; AY] => Ok [y; x]
            | [AX; AZ] => Ok [z; x]
            | [AY; AZ] => Ok [z; y]
            | _ => Err ValueError
            end
          else
            match fd with
            | [ADash] => Ok [1; 1; 1]
            | [AX] => Ok [1; 1; x]
            | [AY] => Ok [1; y; 1]
            | [AZ] => Ok [z; 1; 1]
            | [AX; AY] => Ok [1; y; x]
            | [AX; AZ] => Ok [z; 1; x]
            | [AY; AZ] => Ok [z; y; 1]
            | _ => Err ValueError
            end
      end
  | _ => Err ValueError
  end.

(** numpy reshape: allowed exactly if the number of entries fits. *)
Definition reshape {A} (s : list nat) (l : list A) : res (list A) :=
  if Nat.eqb (length l) (prodn s) then Ok l else Err ValueError.

(** A slice [l:r] of an axis of length [n] with l in {0,1} and r in {None,-1}. *)
Definition slice_idx (lft rgt : bool) (n : nat) : list nat :=
  let lo := if lft then 1 else 0 in
  let hi := if rgt then 1 else 0 in
  seq lo (n - lo - hi).
(** Apply a slice to axis [ax] of an array; the state is (shape, data). *)
Definition sl {A} (lft rgt : bool) (ax : nat) (a : list nat * list A) : list nat * list A :=
  let sel := slice_idx lft rgt (nth ax (fst a) 0) in
  (take_shape (fst a) ax sel, take_ax (fst a) ax sel (snd a)).
(** The fancy index [0, -1] on axis [ax]. *)
Definition ends {A} (ax : nat) (a : list nat * list A) : list nat * list A :=
  let n := nth ax (fst a) 0 in
  let sel := [0; n - 1] in
  (take_shape (fst a) ax sel, take_ax (fst a) ax sel (snd a)).

(** regular_cartesian.py:1058-1068: the remove argument. *)
Definition remove_mode (remove : string) : res (bool * bool) :=
  if String.eqb remove "both" then Ok (true, true)
  else if String.eqb remove "left" then Ok (true, false)
  else if String.eqb remove "right" then Ok (false, true)
  else Err ValueError.

(** regular_cartesian.py:998-1114 remove_boundaries for an array argument,
    result as flat data (the fshape/flatten distinction of lines 1049-1056 and
    1101-1105 only affects the shape of the result).  With points=True the
    elements are the points.  A dictionary argument is mapped element-wise by
    the code (1109-1112) and is not modelled. *)
Definition remove_boundaries {A} (g : grid) (data : list A) (remove : string) : res (list A) :=
  let* s := get_fshape g true in
  let* data := reshape s data in
  let* lr := remove_mode remove in
  let cut ax a := sl (fst lr) (snd lr) ax a in
  let a0 := (s, data) in
  if Nat.eqb (get_D g) 3 then Ok (snd (cut 2 (cut 1 (cut 0 a0))))
  else if negb (unify g) then
    match get_D g with
    | 0 => Ok data
    | 1 => Ok (snd (cut 0 a0))
    | 2 => Ok (snd (cut 1 (cut 0 a0)))
    | _ => Err ValueError
    end
  else
    match get_fdir g with
    | [ADash] => Ok data
    | [AX] => Ok (snd (cut 2 a0))
    | [AY] => Ok (snd (cut 1 a0))
    | [AZ] => Ok (snd (cut 0 a0))
    | [AX; AY] => Ok (snd (cut 2 (cut 1 a0)))
    | [AX; AZ] => Ok (snd (cut 2 (cut 0 a0)))
    | [AY; AZ] => Ok (snd (cut 1 (cut 0 a0)))
    | _ => Err ValueError
    end.

(** regular_cartesian.py:1116-1236 extract_boundaries before the final
    sort/reshape of lines 1229-1232: the concatenated boundary entries. *)
Definition extract_raw {A} (g : grid) (data : list A) : res (list A) :=
  let* s := get_fshape g true in
  let* data := reshape s data in
  let a0 := (s, data) in
  let mid ax a := sl true true ax a in
  if Nat.eqb (get_D g) 3 then
    Ok (snd (ends 1 a0) ++ snd (ends 2 (mid 1 a0)) ++ snd (ends 0 (mid 1 (mid 2 a0))))
  else if negb (unify g) then
    match get_D g with
    | 0 => Ok data
    | 1 => Ok (snd (ends 0 a0))
    | 2 => Ok (snd (ends 0 a0) ++ snd (ends 1 (mid 0 a0)))
    | _ => Err ValueError
    end
  else
    match get_fdir g with
    | [ADash] => Ok data
    | [AX] => Ok (snd (ends 2 a0))
    | [AY] => Ok (snd (ends 1 a0))
    | [AZ] => Ok (snd (ends 0 a0))
    | [AX; AY] => Ok (snd (ends 1 a0) ++ snd (ends 2 (mid 1 a0)))
    | [AX; AZ] => Ok (snd (ends 0 a0) ++ snd (ends 2 (mid 0 a0)))
    | [AY; AZ] => Ok (snd (ends 0 a0) ++ snd (ends 1 (mid 0 a0)))
    | _ => Err ValueError
    end.

(** regular_cartesian.py:1229-1230 extract_boundaries, points=False, on
    integers: numpy.sort of the flat result. *)
Definition extract_boundaries_z (g : grid) (data : list Z) : res (list Z) :=
  rmap zsort (extract_raw g data).
(** regular_cartesian.py:1231-1232 extract_boundaries, points=True *)
Definition extract_boundaries_pts {A} (g : grid) (data : list A) : res (list A) :=
  extract_raw g data.

(** numpy.arange(n) as integers *)
Definition arange (n : nat) : list Z := map Z.of_nat (seq 0 n).

(** regular_cartesian.py:381-423 get_order('natural', boundary) (any other
    type raises ValueError and is not modelled); flat data. *)
Definition get_order (g : grid) (boundary : bool) : res (list Z) :=
  let order := arange (get_n g true) in
  if boundary then Ok order else remove_boundaries g order "both".

(** regular_cartesian.py:589-630 get_cells_id, flat *)
Definition get_cells_id (g : grid) (boundary : bool) : res (list Z) := get_order g boundary.

(** regular_cartesian.py:514-555 get_cells_i, flat *)
Definition get_cells_i (g : grid) (boundary : bool) : list Z := arange (get_n g boundary).

Definition coord := (Z * Z * Z)%type.
Definition coord_eqb (a b : coord) : bool :=
  match a, b with
  | (i, j, k), (i', j', k') => (Z.eqb i i' && Z.eqb j j' && Z.eqb k k')%bool
  end.
Definition cmem (c : coord) (l : list coord) : bool := existsb (coord_eqb c) l.

(** pyvista ExplicitStructuredGrid.cell_id / cell_coords: numpy
    ravel_multi_index / unravel_index with order='F' over the cell dimensions;
    an index outside the grid gives None.  The cell dimensions are
    get_shape(boundary) (regular_cartesian.py:2144-2169). *)
Definition pv_cell_id (dims : list nat) (c : coord) : option Z :=
  match dims, c with
  | [a; b; e], (i, j, k) =>
      if ((0 <=? i) && (i <? Z.of_nat a) && (0 <=? j) && (j <? Z.of_nat b) &&
          (0 <=? k) && (k <? Z.of_nat e))%Z%bool
      then Some (i + Z.of_nat a * (j + Z.of_nat b * k))%Z else None
  | _, _ => None
  end.
Definition pv_cell_coords (dims : list nat) (id : Z) : option coord :=
  match dims with
  | [a; b; e] =>
      let a := Z.of_nat a in let b := Z.of_nat b in let e := Z.of_nat e in
      if ((0 <=? id) && (id <? a * b * e))%Z%bool
      then Some (id mod a, (id / a) mod b, id / (a * b))%Z else None
  | _ => None
  end.

(** regular_cartesian.py:558-586 get_cell_id for one coordinate triple; the
    None of pyvista is passed through. *)
Definition get_cell_id (g : grid) (c : coord) (boundary : bool) : option Z :=
  pv_cell_id (get_shape g boundary) c.

(** regular_cartesian.py:633-660 get_cell_coords for one id; tuple(None)
    raises TypeError. *)
Definition get_cell_coords (g : grid) (id : Z) (boundary : bool) : res coord :=
  match pv_cell_coords (get_shape g boundary) id with
  | Some c => Ok c
  | None => Err TypeError
  end.

(** regular_cartesian.py:663-710 get_cells_coords, flat list of points (the
    ids passed to pyvista are always ids of the grid with boundary, line 697). *)
Definition get_cells_coords (g : grid) (boundary : bool) : res (list coord) :=
  let* ids := get_cells_id g boundary in
  rmapM (fun id => get_cell_coords g id true) ids.

(** regular_cartesian.py:1239-1275 get_boundaries('id') and ('coords') *)
Definition get_boundaries_id (g : grid) : res (list Z) :=
  let* ids := get_cells_id g true in extract_boundaries_z g ids.
Definition get_boundaries_coords (g : grid) : res (list coord) :=
  let* cs := get_cells_coords g true in extract_boundaries_pts g cs.

(** regular_cartesian.py:713-751 get_cell_icoords for one triple: coordinates
    reversed; without unify and for D <= 2 the zero coordinates are dropped
    and the length is asserted. *)
Definition get_cell_icoords (g : grid) (c : coord) : res (list Z) :=
  let* cells := get_cells_coords g true in
  let* _ := passert (cmem c cells) in
  match c with
  | (i, j, k) =>
      if (negb (unify g) && (get_D g <=? 2))%bool then
        let ic := filter (fun x => (0 <? x)%Z) [k; j; i] in
        let* _ := passert (Nat.eqb (length ic) (get_D g)) in Ok ic
      else Ok [k; j; i]
  end.

(** A dictionary {"x": [...], "y": [...], "z": [...]}. *)
Record dirs (A : Type) := mkDirs { d_x : list A; d_y : list A; d_z : list A }.
Arguments mkDirs {A} d_x d_y d_z.
Definition dirs_empty {A} : dirs A := mkDirs [] [] [].
(** [cell_neighbors[a] = l]; the key '-' would create a new entry, which no
    caller reads (D >= 1 is checked before every use). *)
Definition dirs_set {A} (a : axis) (l : list A) (d : dirs A) : dirs A :=
  match a with
  | AX => mkDirs l (d_y d) (d_z d)
  | AY => mkDirs (d_x d) l (d_z d)
  | AZ => mkDirs (d_x d) (d_y d) l
  | ADash => d
  end.
Definition dirs_get {A} (a : axis) (d : dirs A) : list A :=
  match a with AX => d_x d | AY => d_y d | AZ => d_z d | ADash => [] end.
(** helpers.py:178-183 reformat of a dictionary: concatenation of the values. *)
Definition dirs_list {A} (d : dirs A) : list A := d_x d ++ d_y d ++ d_z d.

(** regular_cartesian.py:805-888 get_cell_neighbors(id=...), fmt='dict' *)
Definition get_cell_neighbors (g : grid) (id : Z) (boundary : bool) : res (dirs Z) :=
  let* boundaries := get_boundaries_id g in
  let* _ := passert (negb (zmem id boundaries && boundary)) in
  let* cells_id := get_cells_id g boundary in
  let D := get_D g in
  let fd := get_fdir g in
  let keep l := filter (fun i => zmem i cells_id) l in
  let r0 := dirs_empty in
  let r1 := if 1 <=? D
            then dirs_set (nth 0 fd ADash) (keep [id - 1; id + 1]%Z) r0 else r0 in
  let r2 := if 2 <=? D
            then let n := if amem AX fd then Z.of_nat (nx_b g) else Z.of_nat (ny_b g) in
                 dirs_set (nth 1 fd ADash) (keep [id - n; id + n]%Z) r1 else r1 in
  let r3 := if 3 <=? D
            then let n := (Z.of_nat (nx_b g) * Z.of_nat (ny_b g))%Z in
                 dirs_set (nth 2 fd ADash) (keep [id - n; id + n]%Z) r2 else r2 in
  Ok r3.

(** regular_cartesian.py:889-913 get_cell_neighbors(coords=...), fmt='dict' *)
Definition get_cell_neighbors_c (g : grid) (c : coord) (boundary : bool) : res (dirs coord) :=
  let* boundaries := get_boundaries_coords g in
  let* _ := passert (negb (cmem c boundaries && boundary)) in
  let* cells := get_cells_coords g boundary in
  let fd := get_fdir g in
  let keep l := filter (fun i => cmem i cells) l in
  match c with
  | (i, j, k) =>
      Ok (mkDirs
            (if amem AX fd then keep [(i - 1, j, k); (i + 1, j, k)]%Z else [])
            (if amem AY fd then keep [(i, j - 1, k); (i, j + 1, k)]%Z else [])
            (if amem AZ fd then keep [(i, j, k - 1); (i, j, k + 1)]%Z else []))
  end.

(** regular_cartesian.py:920-996 get_cell_boundaries(id=...), fmt='dict'.  The
    code returns list(set & set), whose order is unspecified; the model keeps
    the neighbour order. *)
Definition get_cell_boundaries (g : grid) (id : Z) : res (dirs Z) :=
  let* boundaries := get_boundaries_id g in
  let* _ := passert (negb (zmem id boundaries)) in
  let* nb := get_cell_neighbors g id true in
  let inb l := filter (fun i => zmem i boundaries) l in
  Ok (mkDirs (inb (d_x nb)) (inb (d_y nb)) (inb (d_z nb))).

(** regular_cartesian.py:980-988 get_cell_boundaries(coords=...) *)
Definition get_cell_boundaries_c (g : grid) (c : coord) : res (dirs coord) :=
  let* boundaries := get_boundaries_coords g in
  let* _ := passert (negb (cmem c boundaries)) in
  let* nb := get_cell_neighbors_c g c true in
  let inb l := filter (fun i => cmem i boundaries) l in
  Ok (mkDirs (inb (d_x nb)) (inb (d_y nb)) (inb (d_z nb))).
