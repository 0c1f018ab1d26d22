(** A solver for systems of three equations, used in examples and refutations.
    Definitions only. *)
From Coq Require Import String ZArith Bool Arith List QArith.
From Verif Require Import Prelude Num GridModel GeoModel PropModel BlackOilModel FdmModel HistSpec Samples.
Import ListNotations.
Close Scope Q_scope.

(** Cramer's rule, the determinants by the rule of Sarrus; fails on a singular
    matrix or a right side with NaN. *)
Definition det3 (a b c d e f g h i : Q) : Q :=
  (a * e * i + b * f * g + c * d * h - c * e * g - b * d * i - a * f * h)%Q.
Definition cramer3 : solver_kind -> @mat Q -> list (fl Q) -> res (list (fl Q)) := fun _ A r =>
  match r with
  | [Some x; Some y; Some z] =>
      let m := ment A in
      let D := det3 (m 0 0) (m 0 1) (m 0 2) (m 1 0) (m 1 1) (m 1 2) (m 2 0) (m 2 1) (m 2 2) in
      if Qeq_bool D 0 then Err ValueError else
      Ok [Some (Qred (det3 x (m 0 1) (m 0 2) y (m 1 1) (m 1 2) z (m 2 1) (m 2 2) / D));
          Some (Qred (det3 (m 0 0) x (m 0 2) (m 1 0) y (m 1 2) (m 2 0) z (m 2 2) / D));
          Some (Qred (det3 (m 0 0) (m 0 1) x (m 1 0) (m 1 1) y (m 2 0) (m 2 1) z / D))]%nat
  | _ => Err ValueError
  end.
(** sympy keeps the equations as they are. *)
Definition oneQ : Z -> Q := fun _ => 1%Q.
(** Symbolic and vectorised steps with the direct solver. *)
Definition symbolic := mkOpts false false false true false None.
Definition vectorial := mkOpts false true false true false None.
Definition dried := mkOpts false false false false false None.
(** The solution of a compiled model. *)
Definition sol {F} (m : bo F) (x : ws F) : fs F := match snd x with Some s => s | None => fdm_new m end.
