(** What memoised accessors should do. *)
From Coq Require Import ZArith Bool Arith List.
From Verif Require Import Prelude Num GridModel GeoModel PropModel PropSpec CacheModel.
Import ListNotations.
Set Implicit Arguments.

(** The distinct keys of a sequence of calls, the last used one first. *)
Fixpoint recent {K} (eqb : K -> K -> bool) (ks : list K) (acc : list K) : list K :=
  match ks with
  | [] => acc
  | k :: ks' => recent eqb ks' (k :: filter (fun k' => negb (eqb k k')) acc)
  end.

Section spec.
Context {F : Type} {NF : Num F}.
(** The same session without any memoisation. *)
Definition plain (g : nat -> gobj F) (p : op) : (nat -> gobj F) * out :=
  match p with
  | OSet i p => let (o, r) := do_set (g i) p in (put g i o, RUnit r)
  | OProp i n b => (g, RList (get_prop (g i) n b))
  | OKcells i a b => (g, RList (get_cells_k (g i) a b))
  | OK i a r => (g, RNum (get_cell_k (g i) a r))
  | OHom i => (g, RBool (is_homogeneous (g i)))
  | OIso i => (g, RBool (is_isotropic (g i)))
  | OG i id b => (g, RDict (get_cell_G (g i) id b))
  | OGcells i b => (g, RMat (get_cells_G (g i) b))
  end.
Fixpoint plain_all (g : nat -> gobj F) (l : list op) : (nat -> gobj F) * list out :=
  match l with
  | [] => (g, [])
  | p :: l' => let (g', r) := plain g p in let (g'', rs) := plain_all g' l' in (g'', r :: rs)
  end.
(** The grid an operation is about; whether it updates it. *)
Definition subject (p : op (F := F)) : nat :=
  match p with
  | OSet i _ | OProp i _ _ | OKcells i _ _ | OK i _ _ | OHom i | OIso i | OG i _ _ | OGcells i _ => i
  end.
Definition updates (p : op (F := F)) : bool := match p with OSet _ _ => true | _ => false end.
Definition direct (p : op (F := F)) : bool :=
  match p with OSet _ _ | OProp _ _ _ | OKcells _ _ _ => true | _ => false end.
(** Every grid is updated only before its first memoised query. *)
Definition set_up_first (l : list (op (F := F))) : Prop :=
  forall l1 q l2 p l3, l = l1 ++ q :: l2 ++ p :: l3 ->
    direct q = false -> updates p = true -> subject q <> subject p.
End spec.
