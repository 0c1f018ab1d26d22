(** Model of the property part of RegularCartesian and of Grid
    (/repo/reservoirflow/grids/regular_cartesian.py, grids/grid.py): rock
    properties, isotropy tests, geometry factors.  The lru_cache decorators are
    left out here and modelled in [CacheModel.v].  Definitions only. *)
From Coq Require Import String ZArith Bool Arith List.
From Verif Require Import Prelude Num GridModel GeoModel.
Import ListNotations.
Set Implicit Arguments.

(** Keys of __props__ (grid.py:64) that are ever set by set_prop. *)
Inductive pname := KX | KY | KZ | PHI | ZED.

(** One property: the array in __props__, the array in the attribute of the
    same name (self.kx = self.k["x"], self.phi, self.z), and whether both are
    the same array object (so that item assignment is seen through both). *)
Record prop (F : Type) := mkProp { cur : option (list F); att : option (list F); linked : bool }.
Arguments mkProp {F}.

(** Property attributes of a grid. [p_comp] is None when the attribute comp
    does not exist. *)
Record props (F : Type) := mkProps {
  p_kx : prop F; p_ky : prop F; p_kz : prop F; p_phi : prop F; p_z : prop F;
  p_comp : option F; p_comp_type : option string }.
Arguments mkProps {F}.

(** A grid object: geometry, properties, factors["transmissibility conversion"]. *)
Record gobj (F : Type) := mkGobj { geom : geo F; prs : props F; tfac : F }.
Arguments mkGobj {F}.

(** grid.py:62-68 *)
Definition prop0 {F} : prop F := mkProp None None false.
Definition props0 {F} : props F := mkProps prop0 prop0 prop0 prop0 prop0 None None.

Definition pget {F} (n : pname) (p : props F) : prop F :=
  match n with KX => p_kx p | KY => p_ky p | KZ => p_kz p | PHI => p_phi p | ZED => p_z p end.
Definition pput {F} (n : pname) (v : prop F) (p : props F) : props F :=
  match p with
  | mkProps a b c d e f g =>
      match n with
      | KX => mkProps v b c d e f g | KY => mkProps a v c d e f g
      | KZ => mkProps a b v d e f g | PHI => mkProps a b c v e f g
      | ZED => mkProps a b c d v f g
      end
  end.
(** self.kx = self.k["x"] = self.__props__["kx"] (2320 and alike) *)
Definition plink {F} (n : pname) (p : props F) : props F :=
  pput n (mkProp (cur (pget n p)) (cur (pget n p)) true) p.

Section props.
Context {F : Type} {NF : Num F}.

(** grid.py:70-90 set_comp: the attribute is set before the check. *)
Definition comp_class (c : F) : option string * res unit :=
  if neqb c n0 then (Some "incompressible"%string, Ok tt)
  else if nltb n0 c then (Some "compressible"%string, Ok tt)
  else (None, Err ValueError).
Definition set_comp (p : props F) (c : F) : props F * res unit :=
  match p with
  | mkProps a b d e f _ _ => (mkProps a b d e f (Some c) (fst (comp_class c)), snd (comp_class c))
  end.

(** Item assignment [array[icoords] = value] on a flat array with a tuple of
    indices: () assigns to all entries, more than one index is too many. *)
Definition flat_set (l : list F) (ic : list Z) (v : F) : res (list F) :=
  match ic with
  | [] => Ok (map (fun _ => v) l)
  | [i] => pyset l i v
  | _ => Err IndexError
  end.

(** regular_cartesian.py:2359-2426 set_prop for a known name.  With a cell the
    value must be a number (a sequence is rejected by numpy). *)
Definition set_prop (g : grid) (p : props F) (n : pname) (v : dinput F) (r : option cellref)
  : props F * res unit :=
  let o := pget n p in
  match r with
  | None =>
      match bcast (get_n g true) v with
      | Ok l => (pput n (mkProp (Some l) (att o) false) p, Ok tt)
      | Err e => (p, Err e)
      end
  | Some r =>
      let res :=
        let* c := match r with ById id => get_cell_coords g id true | ByCoords c => Ok c end in
        let* ic := get_cell_icoords g c in
        match cur o with
        | None => Err TypeError
        | Some l => match v with Scalar a => flat_set l ic a | Vec _ => Err ValueError end
        end in
      match res with
      | Ok l => (pput n (mkProp (Some l) (if linked o then Some l else att o) (linked o)) p, Ok tt)
      | Err e => (p, Err e)
      end
  end.

(** "if x is not None: self.set_prop(..); self.x = self.__props__[..]" *)
Definition set_linked (g : grid) (n : pname) (v : option (dinput F)) (r : option cellref)
  (s : props F * res unit) : props F * res unit :=
  match s, v with
  | (p, Ok _), Some v =>
      match set_prop g p n v r with
      | (p', Ok _) => (plink n p', Ok tt)
      | x => x
      end
  | _, _ => s
  end.

(** regular_cartesian.py:2260-2339 set_props *)
Definition set_props (g : grid) (p : props F) (kx ky kz phi z : option (dinput F))
  (comp : option F) (r : option cellref) : props F * res unit :=
  let s := set_linked g KX kx r (p, Ok tt) in
  let s := set_linked g KY ky r s in
  let s := set_linked g KZ kz r s in
  let s := set_linked g PHI phi r s in
  let s := set_linked g ZED z r s in
  let s := match s, comp with (p, Ok _), Some c => set_comp p c | _, _ => s end in
  let s := match s with
           | (p, Ok _) => match cur (p_z p) with
                          | None => set_linked g ZED (Some (Scalar n0)) None (p, Ok tt)
                          | Some _ => s
                          end
           | _ => s
           end in
  match s with
  | (p, Ok _) => match p_comp p with None => set_comp p n0 | Some _ => s end
  | _ => s
  end.

(** regular_cartesian.py:154-163: the whole constructor. *)
Definition gobj_new (x y z : nat) (u : bool) (dx dy dz : dinput F)
  (kx ky kz phi zz : option (dinput F)) (comp : option F) (T : F) : res (gobj F) :=
  let* G := geo_new x y z u dx dy dz in
  match set_props (gr G) props0 kx ky kz phi zz comp None with
  | (p, Ok _) => Ok (mkGobj G p T)
  | (_, Err e) => Err e
  end.

Definition ggrid (o : gobj F) : grid := gr (geom o).

(** regular_cartesian.py:2431-2484 get_prop (fshape=False) *)
Definition get_prop (o : gobj F) (n : pname) (boundary : bool) : res (list F) :=
  match cur (pget n (prs o)) with
  | None => Err ValueError
  | Some l => if boundary then Ok l else at_cells_id (ggrid o) l
  end.
(** regular_cartesian.py:2486-2527 get_cells_k *)
Definition kname (a : axis) : res pname :=
  match a with AX => Ok KX | AY => Ok KY | AZ => Ok KZ | ADash => Err ValueError end.
Definition get_cells_k (o : gobj F) (a : axis) (boundary : bool) : res (list F) :=
  let* n := kname a in get_prop o n boundary.
(** regular_cartesian.py:2530-2569 get_cell_k (without its cache) *)
Definition get_cell_k (o : gobj F) (a : axis) (r : cellref) : res F :=
  let* l := get_cells_k o a true in cell_lookup (ggrid o) l r.

(** [np.all(prop == prop[0])] *)
Definition all_same (l : list F) : res bool :=
  match l with [] => Err IndexError | a :: _ => Ok (forallb (fun x => neqb x a) l) end.
(** "for name in props: if not all equal: return False; return True" *)
Fixpoint all_const (ls : list (res (list F))) : res bool :=
  match ls with
  | [] => Ok true
  | l :: ls' => let* l := l in let* b := all_same l in if b then all_const ls' else Ok false
  end.
Definition defined (o : gobj F) (n : pname) : bool :=
  match cur (pget n (prs o)) with Some _ => true | None => false end.
(** regular_cartesian.py:2663-2680, 2699-2719 (without their caches) *)
Definition is_homogeneous (o : gobj F) : res bool :=
  all_const (map (fun n => get_prop o n false) (filter (defined o) [PHI])).
Definition is_isotropic (o : gobj F) : res bool :=
  all_const (map (fun n => get_prop o n false) (filter (defined o) [KX; KY; KZ])).
(** regular_cartesian.py:2738-2754 *)
Definition is_regular (o : gobj F) : res bool :=
  all_const (map (fun a => get_cells_d (geom o) a false) [AX; AY; AZ]).

(** The two formulas of the geometry factor (2785-2796, 2992-3003): a cell is
    given by (k, A, d). *)
Definition cellv : Type := (F * F * F)%type.
Definition G_arith (T : F) (c c' : cellv) : F :=
  match c, c' with
  | (k, A, d), (k', A', d') =>
      ndiv (nmul (nmul T (ndiv (nadd k k') n2)) (ndiv (nadd A A') n2)) (ndiv (nadd d d') n2)
  end.
Definition G_harm (T : F) (c c' : cellv) : F :=
  match c, c' with
  | (k, A, d), (k', A', d') =>
      ndiv (nmul n2 T) (nadd (ndiv d (nmul A k)) (ndiv d' (nmul A' k')))
  end.

(** The arrays k, A, d of a direction side by side. *)
Definition get_kAd (o : gobj F) (a : axis) (boundary : bool) : res (list cellv) :=
  let* k := get_cells_k o a boundary in
  let* A := get_cells_A (geom o) a boundary in
  let* d := get_cells_d (geom o) a boundary in
  Ok (combine (combine k A) d).
(** [is_isotropic and is_regular]: formula used by the vectorised functions.  The
    answer of is_isotropic is a parameter, since it is cached (CacheModel.v). *)
Definition G_vect_with (iso : res bool) (o : gobj F) : res (cellv -> cellv -> F) :=
  let* i := iso in
  if i then let* r := is_regular o in Ok (if r then G_arith (tfac o) else G_harm (tfac o))
  else Ok (G_harm (tfac o)).
Definition G_vect (o : gobj F) := G_vect_with (is_isotropic o) o.

Definition py_last {A} (l : list A) (d : A) : A := nth (length l - 1) l d.

(** regular_cartesian.py:2775-2797 get_cells_G_diag_1 *)
Definition get_cells_G_diag_1_with (iso : res bool) (o : gobj F) (boundary : bool) : res (list F) :=
  let a := nth 0 (get_fdir (ggrid o)) ADash in
  let* l := get_kAd o a boundary in
  let* f := G_vect_with iso o in
  Ok (map2 f (removelast l) (tl l)).
Definition get_cells_G_diag_1 (o : gobj F) := get_cells_G_diag_1_with (is_isotropic o) o.

(** [array[start::step] = 0] *)
Definition zero_every (start step : nat) (l : list F) : list F :=
  map (fun p => if (start <=? fst p) && ((fst p - start) mod step =? 0) then n0 else snd p)
      (combine (seq 0 (length l)) l).
(** [array[ids] = 0] *)
Definition zero_at (ids : list nat) (l : list F) : res (list F) :=
  fold_left (fun r i => let* l := r in pyset l (Z.of_nat i) n0) ids (Ok l).
(** np.arange(0, stop, step) *)
Definition arange_step (stop step : nat) : list nat :=
  map (fun i => i * step) (seq 0 ((stop + step - 1) / step)).

(** regular_cartesian.py:2799-2837 get_cells_G_diag_2; the diag_1 array passed
    in is returned as mutated. A first flow direction other than x and y cannot
    occur for D >= 2 (n2 would be unbound). *)
Definition get_cells_G_diag_2_with (iso : res bool) (o : gobj F) (boundary : bool) (diag_1 : option (list F))
  : res (option (list F) * list F * nat) :=
  let g := ggrid o in
  let* _ := passert (2 <=? get_D g) in
  let fd := get_fdir g in
  let n := get_n g boundary in
  let a := nth 1 fd ADash in
  let* m := match nth 0 fd ADash with
            | AX => Ok (if boundary then nx_b g else nx g)
            | AY => Ok (if boundary then ny_b g else ny g)
            | _ => Err UnboundLocalError
            end in
  let m_ := n - m in
  let diag_1 := option_map (zero_every (m - 1) m) diag_1 in
  let* l := get_kAd o a boundary in
  let* f := G_vect_with iso o in
  Ok (diag_1, map2 f (firstn m_ l) (skipn m l), m).
Definition get_cells_G_diag_2 (o : gobj F) := get_cells_G_diag_2_with (is_isotropic o) o.

(** regular_cartesian.py:2839-2875 get_cells_G_diag_3 *)
Definition get_cells_G_diag_3_with (iso : res bool) (o : gobj F) (boundary : bool) (diag_2 : option (list F))
  : res (option (list F) * list F * nat) :=
  let g := ggrid o in
  let* _ := passert (get_D g =? 3) in
  let a := py_last (get_fdir g) ADash in
  let mx := if boundary then nx_b g else nx g in
  let my := if boundary then ny_b g else ny g in
  let mz := if boundary then nz_b g else nz g in
  let n3 := mx * my in
  let n3_ := n3 - mx in
  let n4 := n3 * mz - n3 in
  let* diag_2 := match diag_2 with
                 | Some v => rmap Some (zero_at (map (fun i => n3_ + i) (arange_step mx n3)) v)
                 | None => Ok None
                 end in
  let* l := get_kAd o a boundary in
  let* f := G_vect_with iso o in
  Ok (diag_2, map2 f (firstn n4 l) (skipn n3 l), n3).
Definition get_cells_G_diag_3 (o : gobj F) := get_cells_G_diag_3_with (is_isotropic o) o.

(** Square matrices: size and entries. *)
Record mat := mkMat { msize : nat; ment : nat -> nat -> F }.
(** np.diag(v, k) and np.diag(v, -k), k > 0 (also ss.diags) *)
Definition diag_up (v : list F) (k : nat) : mat :=
  mkMat (length v + k) (fun i j => if j =? i + k then nth i v n0 else n0).
Definition diag_dn (v : list F) (k : nat) : mat :=
  mkMat (length v + k) (fun i j => if i =? j + k then nth j v n0 else n0).
(** Matrix addition: equal shapes, else ValueError. *)
Definition mat_add (a b : mat) : res mat :=
  if msize a =? msize b then Ok (mkMat (msize a) (fun i j => nadd (ment a i j) (ment b i j)))
  else Err ValueError.

(** regular_cartesian.py:2877-2940 get_cells_G (sparse and dense give the same
    entries).  For D = 0 the name diag_1 is unbound at line 2910/2915. *)
Definition get_cells_G_with (iso : res bool) (o : gobj F) (boundary : bool) : res mat :=
  let D := get_D (ggrid o) in
  if D =? 0 then Err UnboundLocalError else
  let* diag_1 := get_cells_G_diag_1_with iso o boundary in
  if D =? 1 then mat_add (diag_up diag_1 1) (diag_dn diag_1 1) else
  let* (z_1, diag_2, m2) := get_cells_G_diag_2_with iso o boundary (Some diag_1) in
  let diag_1 := match z_1 with Some v => v | None => diag_1 end in
  if D =? 2 then
    let* d1 := mat_add (diag_up diag_1 1) (diag_dn diag_1 1) in
    let* d2 := mat_add d1 (diag_up diag_2 m2) in
    mat_add d2 (diag_dn diag_2 m2)
  else
    let* (z_2, diag_3, m3) := get_cells_G_diag_3_with iso o boundary (Some diag_2) in
    let diag_2 := match z_2 with Some v => v | None => diag_2 end in
    let* d1 := mat_add (diag_up diag_1 1) (diag_dn diag_1 1) in
    let* d2 := mat_add d1 (diag_up diag_2 m2) in
    let* d2 := mat_add d2 (diag_dn diag_2 m2) in
    let* d3 := mat_add d2 (diag_up diag_3 m3) in
    mat_add d3 (diag_dn diag_3 m3).
Definition get_cells_G (o : gobj F) := get_cells_G_with (is_isotropic o) o.

Definition cell_kAd (o : gobj F) (a : axis) (r : cellref) : res cellv :=
  let* d := get_cell_d (geom o) a r in
  let* A := get_cell_A (geom o) a r in
  let* k := get_cell_k o a r in
  Ok (k, A, d).

(** regular_cartesian.py:2943-3004 get_cell_G(id=...) (without its cache); the
    dictionary is an association list in insertion order. *)
Definition get_cell_G (o : gobj F) (id : Z) (boundary : bool) : res (list (Z * F)) :=
  let* nb := get_cell_neighbors (ggrid o) id boundary in
  fold_left (fun acc a =>
    let* D := acc in
    let* c := cell_kAd o a (ById id) in
    fold_left (fun acc id_n =>
      let* D := acc in
      let* c_n := cell_kAd o a (ById id_n) in
      let* iso := is_isotropic o in
      Ok (dset id_n (if iso then G_arith (tfac o) c c_n else G_harm (tfac o) c c_n) D))
      (dirs_get a nb) (Ok D))
    (get_fdir (ggrid o)) (Ok []).
End props.
