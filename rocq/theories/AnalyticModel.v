(** Model of the analytical solution D1P1
    (/repo/reservoirflow/solutions/analytical/d1p1.py) and of
    BlackOil.get_alpha (models/black_oil.py:634-646).  Definitions only.
    Left out: progress bar, timing, printing, verbose; the array X (d1p1.py:181-184)
    except for the shape check of its reshape, as run does not keep it. *)
From Coq Require Import String ZArith Bool Arith List Reals.
From Verif Require Import Prelude Num GridModel GeoModel PropModel ScalerModel BlackOilModel FrameModel.
Import ListNotations.
Set Implicit Arguments.

(** numpy.sin and numpy.exp *)
Class NumA (F : Type) := { nsin : F -> F; nexp : F -> F }.
#[export] Instance NumA_R : NumA R := {| nsin := sin; nexp := exp |}.

Section analytic.
Context {F : Type} {NF : Num F} {NT : NumT F} {NC : NumC F} {NA : NumA F}.
Notation fl := (option F).

(** black_oil.py:634-646 get_alpha: one entry per cell.  The attributes kx and phi
    of a grid have one entry per cell.  Infinities are shown as [None]; the cache of
    size one is left out, since it is only hit with the same model. *)
Definition get_alpha (m : bo F) : res (list fl) :=
  let* kx := attrE (att (pget KX (prs (b_grid m)))) in
  let* phi := attrE (att (pget PHI (prs (b_grid m)))) in
  Ok (map2 (fun k f => fdiv (fdiv (Some (nmul (b_tconv m) k)) (Some (nmul (b_mu m) (b_B m))))
                            (fdiv (Some (nmul f (b_comp m))) (Some (nmul (b_vconv m) (b_B m))))) kx phi).

(** minmax.py:51-63 with output range [0, 1]: transform and inverse_transform of one
    value, after fit *)
Definition unit_of (lo hi v : fl) : fl :=
  fadd (fdiv (fmul (Some (nsub n1 n0)) (fsub v lo)) (fsub hi lo)) (Some n0).
Definition of_unit (lo hi v : fl) : fl :=
  fadd (fdiv (fmul (fsub hi lo) (fsub v (Some n0))) (Some (nsub n1 n0))) lo.
(** minmax.py:45-49 fit(p, axis=None); numpy's min and max give NaN if an entry is
    NaN *)
Definition fit_all (f : F -> F -> F) (l : list fl) : res fl :=
  match l with [] => Err ValueError | a :: t => Ok (fold_left (lift2 f) t a) end.

(** d1p1.py:167-173: one term of the sum, for numbers *)
Definition term (i a b x t : F) (n : nat) : F :=
  let k := nofZ (Z.of_nat n) in
  nmul (nmul (nadd (ndiv (nsub i a) k) (ndiv (nmul (nsub b i) (if Nat.even n then n1 else nopp n1)) k))
             (nsin (nmul k (nmul npi x))))
       (nexp (nmul (nmul k k) (nmul (nopp (nmul npi npi)) t))).
(** 160-174 pD, before clipping: i, a, b are pDi, pD0, pDn *)
Definition profile (N : nat) (i a b x t : F) : F :=
  nadd (nadd a (nmul (nsub b a) x))
       (nmul (ndiv n2 npi) (fold_left (fun s n => nadd s (term i a b x t n)) (seq 1 N) n0)).
(** The same for values that may be NaN; every operation gives NaN for NaN.  (For
    N = 0 the time is not used; run takes N = 1000.) *)
Definition profile_fl (N : nat) (i a b x t : fl) : fl :=
  match i, a, b, x, t with
  | Some i, Some a, Some b, Some x, Some t => Some (profile N i a b x t)
  | _, _, _, _, _ => None
  end.
(** 177-179 clean=True *)
Definition clip (v : fl) : fl :=
  let v := if fltb v (Some n0) then Some n0 else v in
  if fltb (Some n1) v then Some n1 else v.

(** solution.py:19-38: a new solution *)
Definition d1p1_new (m : bo F) : soln F := mkSoln [b_ip m] [b_ir m] 1 0.

(** 144-196 the computation of run; s has its new tstep and nsteps.  np.meshgrid
    flattens its arguments: tD has one entry per time and cell, xD one per cell and
    flow direction.  [pi] is model.pi; None raises TypeError in transform. *)
Definition d1p1_pressures (N : nat) (pi : option F) (m : bo F) (s : soln F) : res (list (list fl)) :=
  let* d := get_domain m (Some s) true in
  let t := fst d in
  let x := concat (snd d) in
  let* xmin := reduce nmin x in
  let* xmax := reduce nmax x in
  let L := nsub xmax xmin in
  let xD := map (fun c => fdiv (Some (nsub c xmin)) (Some L)) x in
  let* alpha := get_alpha m in
  let tD := flat_map (fun t => map (fun al => fdiv (fmul al (Some t)) (Some (nmul L L))) alpha) t in
  let* lo := fit_all nmin (concat (so_p s)) in
  let* hi := fit_all nmax (concat (so_p s)) in
  let* i := match pi with Some p => Ok (unit_of lo hi (Some p)) | None => Err TypeError end in
  let* row := pyget (so_p s) 0 in
  let* first := pyget row 0 in
  let* last := pyget row (-1) in
  let a := unit_of lo hi first in
  let b := unit_of lo hi last in
  let pD := map (fun t => map (fun x => clip (profile_fl N i a b x t)) xD) tD in
  if length t * length x =? so_nsteps s * get_n (bgrid m) true
  then Ok (map (map (of_unit lo hi)) pD)
  else Err ValueError.

(** 90-208 run (N = 1000 there): tstep and nsteps are set first and stay set when
    the computation raises. *)
Definition d1p1_run (N : nat) (pi : option F) (m : bo F) (nsteps : nat) (s : soln F) : soln F * res unit :=
  let s := mkSoln (so_p s) (so_r s) (nsteps + 1) nsteps in
  match d1p1_pressures N pi m s with
  | Ok p => (mkSoln p (so_r s) (so_nsteps s) (so_tstep s), Ok tt)
  | Err e => (s, Err e)
  end.
(** 87-88 solve *)
Definition d1p1_solve (s : soln F) : soln F * res unit := (s, Err NotImplementedError).
End analytic.
