(** Numeric operations used by the models.  The class has no laws: theorems
    are about the instance [Num_R] unless they leave the instance arbitrary. *)
From Coq Require Import Reals QArith Qreduction Qabs ZArith Bool List.
Import ListNotations.
Set Implicit Arguments.

Class Num (F : Type) := {
  n0 : F; n1 : F;
  nadd : F -> F -> F; nsub : F -> F -> F; nmul : F -> F -> F; ndiv : F -> F -> F;
  nopp : F -> F;
  nltb : F -> F -> bool; neqb : F -> F -> bool;
  nofZ : Z -> F
}.

Declare Scope num_scope.
Delimit Scope num_scope with num.
Infix "+" := nadd : num_scope.
Infix "-" := nsub : num_scope.
Infix "*" := nmul : num_scope.
Infix "/" := ndiv : num_scope.
Notation "- x" := (nopp x) : num_scope.
Infix "<?" := nltb : num_scope.
Infix "=?" := neqb : num_scope.

Definition n2 {F} {NF : Num F} : F := nofZ 2.
Definition nleb {F} {NF : Num F} (a b : F) : bool := (nltb a b || neqb a b)%bool.

(** Exact reals (the instance of the theorems). *)
Definition Rltb (a b : R) : bool := if Rlt_dec a b then true else false.
Definition Reqb (a b : R) : bool := if Req_EM_T a b then true else false.
#[export] Instance Num_R : Num R := {|
  n0 := 0%R; n1 := 1%R; nadd := Rplus; nsub := Rminus; nmul := Rmult; ndiv := Rdiv;
  nopp := Ropp; nltb := Rltb; neqb := Reqb; nofZ := IZR |}.

(** Exact rationals (the executable instance). *)
Definition Qltb (a b : Q) : bool := (Qle_bool a b && negb (Qeq_bool a b))%bool.
#[export] Instance Num_Q : Num Q := {|
  n0 := 0%Q; n1 := 1%Q;
  nadd a b := Qred (Qplus a b); nsub a b := Qred (Qminus a b);
  nmul a b := Qred (Qmult a b); ndiv a b := Qred (Qdiv a b);
  nopp a := Qred (Qopp a); nltb := Qltb; neqb := Qeq_bool; nofZ z := inject_Z z |}.

(** numpy sum / cumsum (left to right). *)
Definition nsum {F} {NF : Num F} (l : list F) : F := fold_left nadd l n0.
Fixpoint cumsum_from {F} {NF : Num F} (acc : F) (l : list F) : list F :=
  match l with [] => [] | a :: l' => (nadd acc a) :: cumsum_from (nadd acc a) l' end.
Definition cumsum {F} {NF : Num F} (l : list F) : list F := cumsum_from n0 l.
