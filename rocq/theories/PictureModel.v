(** What the pictures of a model show (/repo/reservoirflow/utils/pyvista.py): the
    values, the limits of the colours, the marks on the colour bar and the direction
    of the camera.  The drawing itself is pyvista's.  Definitions only. *)
From Coq Require Import String ZArith Bool Arith List.
From Verif Require Import Prelude Num GridModel GeoModel PropModel BlackOilModel FdmModel.
Import ListNotations.
Set Implicit Arguments.
Local Open Scope string_scope.

(** 175-199 get_cdir; the two letters of the camera's plane *)
Definition get_cdir (g : grid) : list axis :=
  if Nat.eqb (get_D g) 1 then match get_fdir g with [AY] => [AY; AZ] | _ => [AX; AZ] end
  else if Nat.eqb (get_D g) 2 then get_fdir g
  else [AX; AZ].
(** 384-418 get_window_size *)
Definition get_window_size (resolution : string) : res (Z * Z) :=
  let r := lower resolution in
  if smem r ["1k"] then Ok (1024, 768)%Z
  else if smem r ["hd"] then Ok (1280, 720)%Z
  else if smem r ["full hd"; "fhd"] then Ok (1920, 1080)%Z
  else if smem r ["2k"] then Ok (2048, 1080)%Z
  else if smem r ["4k"] then Ok (3840, 2160)%Z
  else if smem r ["8k"] then Ok (7680, 3420)%Z
  else if smem r ["10k"] then Ok (10240, 4320)%Z
  else Err ValueError.

Section picture.
Context {F : Type} {NF : Num F}.
Notation fl := (fl F).

(** numpy's nanmin, nanmax, nanmean of an array given as the list of its entries:
    ValueError without entries (the mean is NaN), NaN (and a warning) without numbers. *)
Definition known (l : list fl) : list F := flat_map (fun v => match v with Some x => [x] | None => [] end) l.
Definition extreme (less : F -> F -> bool) (l : list fl) : res fl :=
  match l with
  | [] => Err ValueError
  | _ => match known l with [] => Ok None | a :: r => Ok (Some (fold_left (fun m x => if less x m then x else m) r a)) end
  end.
Definition nanmin (l : list fl) : res fl := extreme nltb l.
Definition nanmax (l : list fl) : res fl := extreme (fun a b => nltb b a) l.
Definition nanmean (l : list fl) : fl :=
  match known l with [] => None | k => Some (ndiv (fold_left nadd k n0) (nofZ (Z.of_nat (length k)))) end.
(** 153-172 get_limits_fmt *)
Definition get_limits_fmt (values : list fl) : res (fl * fl * string) :=
  let* lo := nanmin values in
  let* hi := nanmax values in
  Ok (lo, hi, if fltb lo (Some n1) then "%.2f" else "%.f").
(** A dictionary with numbers as keys: an equal key keeps its place and gets the new
    value; NaN equals nothing. *)
Fixpoint fput (k : fl) (v : string) (d : list (fl * string)) : list (fl * string) :=
  match d with
  | [] => [(k, v)]
  | (k', v') :: d' => if feqb k k' then (k', v) :: d' else (k', v') :: fput k v d'
  end.
(** 364-381 get_annotations *)
Definition get_annotations (values : list fl) : res (list (fl * string)) :=
  let* lo := nanmin values in
  let* hi := nanmax values in
  Ok (fput (nanmean values) "avg" (fput hi "max" (fput lo "min" []))).
(** 799-811 get_model_values *)
Definition get_model_values (g : grid) (s : fs F) (prop : string) (boundary : bool) : res (list (list fl)) :=
  let* values :=
    if smem (lower prop) ["p"; "pressure"; "pressures"] then Ok (s_p s)
    else if smem (lower prop) ["q"; "rate"; "rates"] then Ok (s_r s)
    else Err ValueError in
  if boundary then Ok values
  else let* ids := get_cells_id g false in rmapM (at_ids ids) values.
(** 900-1077 save_gif: the frames, range(model.solution.nsteps); 1080-1239 show_model:
    its slider goes over the same steps, up to last_tstep = nsteps - 1. *)
Definition gif_frames (g : grid) (s : fs F) (prop : string) (boundary : bool) : res (list (list fl)) :=
  let* values := get_model_values g s prop boundary in
  rmapM (fun tstep => pyget values (Z.of_nat tstep)) (seq 0 (s_nsteps s)).
(** What the labels at the centres of the cells are made of. *)
Inductive labels :=
| LbCoords (l : list coord) | LbICoords (l : list (list Z)) | LbIds (l : list Z)
| LbNumbers (l : list F) | LbPoints (l : list (F * F * F)).
(** 504-578 add_grid_labels: the points and the labels handed to pyvista, None if
    nothing is added; for "sphere" the points go without labels.  [label] is None for
    None and False. *)
Definition add_grid_labels (G : geo F) (label : option string) (opacity : F) (boundary : bool)
  : res (option (list (F * F * F) * option labels)) :=
  let g := gr G in
  let* points := get_cells_center G boundary in
  match label with
  | None => Ok None
  | Some label =>
    if nltb opacity n1 then
      let* lb :=
        if String.eqb label "coords" then rmap LbCoords (get_cells_coords g boundary)
        else if String.eqb label "icoords" then
          let* cs := get_cells_coords g boundary in rmap LbICoords (rmapM (get_cell_icoords g) cs)
        else if String.eqb label "id" then rmap LbIds (get_cells_id g boundary)
        else if String.eqb label "i" then Ok (LbIds (map Z.of_nat (seq 0 (get_n g boundary))))
        else if String.eqb label "dx" then rmap LbNumbers (get_cells_d G AX boundary)
        else if String.eqb label "dy" then rmap LbNumbers (get_cells_d G AY boundary)
        else if String.eqb label "dz" then rmap LbNumbers (get_cells_d G AZ boundary)
        else if smem label ["area_x"; "Ax"] then rmap LbNumbers (get_cells_A G AX boundary)
        else if smem label ["area_y"; "Ay"] then rmap LbNumbers (get_cells_A G AY boundary)
        else if smem label ["area_z"; "Az"] then rmap LbNumbers (get_cells_A G AZ boundary)
        else if smem label ["volume"; "V"] then rmap LbNumbers (get_cells_V G boundary)
        else if smem label ["center"; "centers"; "sphere"] then Ok (LbPoints points)
        else Err ValueError in
      Ok (Some (points, if String.eqb label "sphere" then None else Some lb))
    else Ok None
  end.
(** 236-266 add_wells: centre, radius and height of the cylinders, in the order of the
    wells.  [half] is Python's // 2. *)
Definition add_wells (half : F -> F) (G : geo F) (wells : list (Z * well F)) : res (list ((F * F * F) * F * F)) :=
  let* cells_center := get_cells_center G true in
  rmapM (fun w : Z * well F =>
    let* dz := pyget (cd G AZ) (fst w) in
    let height := nmul dz (nofZ 10) in
    let* center := pyget cells_center (fst w) in
    let '(cx, cy, cz) := center in
    let* r := keyE (w_r (snd w)) in
    Ok ((cx, cy, nadd cz (half height)), r, height)) wells.
End picture.
