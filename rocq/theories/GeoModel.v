(** Model of the geometry part of RegularCartesian
    (/repo/reservoirflow/grids/regular_cartesian.py): spacings, areas, volumes,
    centres, corner points and the per-cell accessors.  Definitions only. *)
From Coq Require Import String ZArith Bool Arith List.
From Verif Require Import Prelude Num GridModel.
Import ListNotations.
Set Implicit Arguments.

(** A spacing or property argument: a number or a flat sequence of numbers. *)
Inductive dinput (F : Type) := Scalar (v : F) | Vec (l : list F).
Arguments Scalar {F} v.
Arguments Vec {F} l.

(** numpy broadcasting of [np.ones(n) * value] (1D): equal lengths, or one of
    them 1.  The multiplication by 1 is dropped. *)
Definition bcast {F} (n : nat) (v : dinput F) : res (list F) :=
  match v with
  | Scalar a => Ok (repeat a n)
  | Vec l => if Nat.eqb (length l) n then Ok l
             else match l with
                  | [a] => Ok (repeat a n)
                  | _ => if Nat.eqb n 1 then Ok l else Err ValueError
                  end
  end.

(** regular_cartesian.py:1322-1350 one axis of __calc_cells_d_: the pair
    (self.d?_, entry of cells_d_).  [n] is the size with boundary, [nmax] is
    get_n_max(True). *)
Definition calc_axis {F} (flow : bool) (n nmax : nat) (d : dinput F) : res (list F * list F) :=
  if flow then
    let* _ := match d with Vec l => passert (Nat.eqb (length l) n) | Scalar _ => Ok tt end in
    let* v := bcast n d in Ok (v, v)
  else
    let* v := bcast nmax d in
    Ok (v, match d with Scalar a => [a] | Vec l => l end).

(** np.meshgrid(a, b, c) with the default indexing 'xy': three arrays of shape
    (len b, len a, len c). *)
Definition meshgrid3 {F} (z : F) (a b c : list F) : list nat * (list F * list F * list F) :=
  let s := [length b; length a; length c] in
  (s, (tab s (fun r => nth (nth 1 r 0) a z),
       tab s (fun r => nth (nth 0 r 0) b z),
       tab s (fun r => nth (nth 2 r 0) c z))).

(** Geometry attributes of a grid: dx_, dy_, dz_ (axis vectors) and dx, dy, dz
    (flat per-cell arrays). *)
Record geo (F : Type) := mkGeo {
  gr : grid;
  ax_x : list F; ax_y : list F; ax_z : list F;
  cd_x : list F; cd_y : list F; cd_z : list F }.
Arguments mkGeo {F}.

Section geo.
Context {F : Type} {NF : Num F}.


(** regular_cartesian.py:1281-1355, 1357-1421 (fshape=False) *)
Definition calc_cells_d (g : grid) (dx dy dz : dinput F) : res (geo F) :=
  let fd := get_fdir g in
  let nm := get_n_max g true in
  let* x := calc_axis (amem AX fd) (nx_b g) nm dx in
  let* y := calc_axis (amem AY fd) (ny_b g) nm dy in
  let* z := calc_axis (amem AZ fd) (nz_b g) nm dz in
  let '(s, (mx, my, mz)) := meshgrid3 n0 (snd x) (snd y) (snd z) in
  let shape := [get_n g true] in
  let* cx := reshape shape (transpose n0 s [0; 2; 1] mx) in
  let* cy := reshape shape (transpose n0 s [2; 0; 1] my) in
  let* cz := reshape shape (transpose n0 s [2; 1; 0] mz) in
  Ok (mkGeo g (fst x) (fst y) (fst z) cx cy cz).

(** regular_cartesian.py:154-160: the constructor up to the geometry. *)
Definition geo_new (x y z : nat) (u : bool) (dx dy dz : dinput F) : res (geo F) :=
  let* g := grid_new x y z u in calc_cells_d g dx dy dz.

(** self.d[dir] *)
Definition cd (G : geo F) (a : axis) : list F :=
  match a with AX => cd_x G | AY => cd_y G | AZ => cd_z G | ADash => [] end.

(** regular_cartesian.py:1677-1680 __calc_cells_A *)
Definition cA (G : geo F) (a : axis) : list F :=
  match a with
  | AX => map2 nmul (cd_y G) (cd_z G)
  | AY => map2 nmul (cd_x G) (cd_z G)
  | AZ => map2 nmul (cd_x G) (cd_y G)
  | ADash => []
  end.
(** regular_cartesian.py:1931-1933 __calc_cells_V *)
Definition cV (G : geo F) : list F := map2 nmul (map2 nmul (cd_x G) (cd_y G)) (cd_z G).
Definition Vt (G : geo F) : F := nsum (cV G).
(** regular_cartesian.py:1936-1961 get_Vt, pyvista=False *)
Definition get_Vt (G : geo F) (boundary : bool) : res F :=
  if boundary then Ok (Vt G) else rmap nsum (remove_boundaries (gr G) (cV G) "both").

(** [array[self.cells_id]] (regular_cartesian.py:163, 1463, 1721, 1993, 2089). *)
Definition at_cells_id {A} (g : grid) (l : list A) : res (list A) :=
  let* ids := get_cells_id g false in rmapM (pyget l) ids.

(** regular_cartesian.py:1424-1472 get_cells_d (fshape=False), a direction *)
Definition get_cells_d (G : geo F) (a : axis) (boundary : bool) : res (list F) :=
  if boundary then Ok (cd G a) else at_cells_id (gr G) (cd G a).
(** regular_cartesian.py:1683-1730 get_cells_A (fshape=False) *)
Definition get_cells_A (G : geo F) (a : axis) (boundary : bool) : res (list F) :=
  if boundary then Ok (cA G a) else at_cells_id (gr G) (cA G a).
(** regular_cartesian.py:1964-2002 get_cells_V (pyvista=False, fshape=False) *)
Definition get_cells_V (G : geo F) (boundary : bool) : res (list F) :=
  if boundary then Ok (cV G) else at_cells_id (gr G) (cV G).

(** regular_cartesian.py:2075-2078 calc_d_center *)
Definition calc_d_center (d_ : list F) (nb : nat) : list F :=
  let half := map (fun a => ndiv a n2) d_ in
  let d := match half with
           | [] => []
           | h :: t => h :: map2 nadd t (cumsum (removelast d_))
           end in
  firstn nb d.

(** regular_cartesian.py:2048-2098 get_cells_center (pyvista=False,
    fshape=False).  meshgrid gives three arrays of shape (ny, nx, nz);
    transposing the stacked array with axes (1,3,2,0) and concatenating along
    axis 1 lists the points of shape (nz, ny*nx): first index k, then j, then i. *)
Definition get_cells_center (G : geo F) (boundary : bool) : res (list (F * F * F)) :=
  let g := gr G in
  let dxx := calc_d_center (ax_x G) (nx_b g) in
  let dyy := calc_d_center (ax_y G) (ny_b g) in
  let dzz := calc_d_center (ax_z G) (nz_b g) in
  let '(s, (mx, my, mz)) := meshgrid3 n0 dxx dyy dzz in
  let pts := combine (combine mx my) mz in
  (* transpose axes (1,3,2): shape (ny, nz, nx) *)
  let s' := [length dyy; length dzz; length dxx] in
  let t := transpose (n0, n0, n0) s [0; 2; 1] pts in
  (* concatenation of the ny blocks (nz, nx) along axis 1 = exchange of the first two axes *)
  let cells := transpose (n0, n0, n0) s' [1; 0; 2] t in
  if boundary then Ok cells else at_cells_id g cells.

(** regular_cartesian.py:2190-2219 corner coordinates of one axis.  Without
    flow the size is 1 and np.arange(0, 2*d, d) is [0, d] (d > 0). *)
Definition corner_axis (flow boundary : bool) (d_ : list F) : list F :=
  let c := if flow then n0 :: cumsum d_ else match d_ with [] => [] | d :: _ => [n0; d] end in
  if (negb boundary && flow)%bool then removelast (tl c) else c.
(** np.repeat(c, 2)[1:-1] (regular_cartesian.py:2222-2223) *)
Definition corner_dup (c : list F) : list F := removelast (tl (np_repeat c 2)).

(** regular_cartesian.py:2172-2254 get_corners *)
Definition get_corners (G : geo F) (boundary : bool) : list (F * F * F) :=
  let g := gr G in
  let fd := get_fdir g in
  let ix := if (boundary && amem AX fd)%bool then 2 else 0 in
  let iy := if (boundary && amem AY fd)%bool then 2 else 0 in
  let iz := if (boundary && amem AZ fd)%bool then 2 else 0 in
  let xc := corner_dup (corner_axis (amem AX fd) boundary (ax_x G)) in
  let yc := corner_dup (corner_axis (amem AY fd) boundary (ax_y G)) in
  let zc := corner_dup (corner_axis (amem AZ fd) boundary (ax_z G)) in
  let xs := np_tile xc (4 * (ny g + iy) * (nz g + iz)) in
  (* tile to shape (2 (nx+ix), 2 (nz+iz) len yc), transpose, flatten *)
  let row := np_tile yc (2 * (nz g + iz)) in
  let ys := transpose n0 [2 * (nx g + ix); length row] [1; 0]
              (np_tile row (2 * (nx g + ix))) in
  let zs := np_repeat zc (4 * (nx g + ix) * (ny g + iy)) in
  combine (combine xs ys) zs.

(** ** Accessors of one cell *)

(** Indexing an array of shape [s] with a tuple of integers.  Fewer indices
    than axes (only possible for D = 0 without unify) would give a sub-array
    and is reported as GenericException; more raise IndexError. *)
Fixpoint nd_index (s : list nat) (idx : list Z) : res nat :=
  match s, idx with
  | [], [] => Ok 0
  | n :: s', i :: idx' =>
      let i' := if (i <? 0)%Z then (i + Z.of_nat n)%Z else i in
      if ((0 <=? i') && (i' <? Z.of_nat n))%Z%bool then
        let* r := nd_index s' idx' in Ok (Z.to_nat i' * prodn s' + r)%nat
      else Err IndexError
  | [], _ :: _ => Err IndexError
  | _ :: _, [] => Err GenericException
  end.
Definition nd_get {A} (s : list nat) (idx : list Z) (l : list A) : res A :=
  let* n := nd_index s idx in
  match nth_error l n with Some a => Ok a | None => Err IndexError end.

(** A cell named by id or by coordinates. *)
Inductive cellref := ById (id : Z) | ByCoords (c : coord).

(** Common body of get_cell_d / _A / _V / _center / _k
    (regular_cartesian.py:1573-1581, 1827-1835, 2033-2041, 2129-2137,
    2561-2569): flat array indexed by id, or shaped array indexed by icoords. *)
Definition cell_lookup {A} (g : grid) (l : list A) (r : cellref) : res A :=
  match r with
  | ById id => pyget l id
  | ByCoords c =>
      let* s := get_fshape g true in
      let* l' := reshape s l in
      let* ic := get_cell_icoords g c in
      nd_get s ic l'
  end.
Definition get_cell_d (G : geo F) (a : axis) (r : cellref) : res F :=
  cell_lookup (gr G) (cd G a) r.
Definition get_cell_A (G : geo F) (a : axis) (r : cellref) : res F :=
  cell_lookup (gr G) (cA G a) r.
Definition get_cell_V (G : geo F) (r : cellref) : res F := cell_lookup (gr G) (cV G) r.
Definition get_cell_center (G : geo F) (r : cellref) : res (F * F * F) :=
  let* l := get_cells_center G true in cell_lookup (gr G) l r.
End geo.
