(** Model of D1P1.calc_solution
    (/repo/reservoirflow/solutions/analytical/d1p1.py:28-85).  Definitions only. *)
From Coq Require Import String ZArith Bool Arith List.
From Verif Require Import Prelude Num GridModel GeoModel PropModel ScalerModel BlackOilModel FrameModel ScaleModel AnalyticModel.
Import ListNotations.
Set Implicit Arguments.
Local Open Scope nat_scope.

Section calc.
Context {F : Type} {NF : Num F} {NT : NumT F} {NC : NumC F} {NA : NumA F}.
Notation fl := (option F).

(** 37-41: the points, scaled to [0, 1] along the line, and the scaled times, one for
    each time and each cell (the diffusivity has one entry per cell) *)
Definition unit_domain (m : bo F) (t x : list fl) : res (list fl * list fl) :=
  let* xmin := fit_all nmin x in
  let* xmax := fit_all nmax x in
  let L := fsub xmax xmin in
  let xD := map (fun c => fdiv (fsub c xmin) L) x in
  let* alpha := get_alpha m in
  let tD := flat_map (fun t => map (fun al => fdiv (fmul al t) (fmul L L)) alpha) t in
  Ok (tD, xD).
(** 28-85 calc_solution on a solution [s] of the model [m] with pi=[pi]; the state is
    that of the model's scalers, which get_domain(scale=True) fits.  The result is X,
    by rows, and p, by rows. *)
Definition calc_solution (N : nat) (scale : bool) (output_range : fl * fl) (clean : bool) (pi : option F) (m : bo F) (s : soln F) :
    M (scalers fl) (list (list (fl * fl)) * list (list fl)) :=
  (* 37 *)
  do d <- get_domain_s m (Some s) false true ;;
  do D <- mread (fun _ => unit_domain m (fst d) (concat (snd d))) ;;
  (* 44-49 *)
  do lo <- mread (fun _ => fit_all nmin (concat (so_p s))) ;;
  do hi <- mread (fun _ => fit_all nmax (concat (so_p s))) ;;
  do i <- mread (fun _ => match pi with Some p => Ok (unit_of lo hi (Some p)) | None => Err TypeError end) ;;
  do row <- mread (fun _ => pyget (so_p s) 0) ;;
  do first <- mread (fun _ => pyget row 0) ;;
  do last <- mread (fun _ => pyget row (-1)) ;;
  (* 52-64 *)
  let pD := map (fun t => map (fun x => profile_fl N i (unit_of lo hi first) (unit_of lo hi last) x t) (snd D)) (fst D) in
  (* 67-69 *)
  let pD := if clean then map (map clip) pD else pD in
  (* 71-74 *)
  do d <- get_domain_s m (Some s) scale true ;;
  let pts := flat_map (fun t => map (fun x => (t, x)) (concat (snd d))) (fst d) in
  do X <- mread (fun _ => if length pts =? so_nsteps s * get_n (bgrid m) true
                          then Ok (reshape_rows (get_n (bgrid m) true) pts) else Err ValueError) ;;
  (* 76-85: MinMax(output_range, [0, 1]).transform, or the inverse *)
  let back v := if scale then fadd (fdiv (fmul (fsub (snd output_range) (fst output_range)) (fsub v (Some n0))) (Some (nsub n1 n0))) (fst output_range)
                else of_unit lo hi v in
  mret (X, map (map back) pD).
End calc.
