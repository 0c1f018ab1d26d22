(** The memoised queries about sizes and directions of grids
    (/repo/reservoirflow/grids/regular_cartesian.py:169-378) with what the other
    models leave out: they write and read attributes of the object (self.D,
    self.shape, self.n, self.n_max, self.fdir, self.fshape), and one cache per method
    is shared by all grids.  Definitions only. *)
From Coq Require Import String ZArith Bool Arith List.
From Verif Require Import Prelude GridModel CacheModel.
Import ListNotations.
Set Implicit Arguments.

(** The memoised methods. *)
Inductive meth := MD | MShape | MN | MNmax | MFdir | MFshape.
Definition meth_eqb (a b : meth) : bool :=
  match a, b with
  | MD, MD | MShape, MShape | MN, MN | MNmax, MNmax | MFdir, MFdir | MFshape, MFshape => true
  | _, _ => false
  end.
(** The maxsize of their caches: lines 169, 185, 224, 247, 270, 309. *)
Definition capacity (m : meth) : nat :=
  match m with MD => 1 | MShape => 2 | MN => 2 | MNmax => 2 | MFdir => 1 | MFshape => 2 end.
(** What a query answers: a number, a shape or a direction. *)
Inductive ans := Num (n : nat) | Shape (s : list nat) | Dir (d : list axis).

(** The attributes the queries set; None is a missing attribute. *)
Record attrs := mkAttrs {
  a_D : option nat; a_shape : option (list nat); a_n : option nat; a_nmax : option nat;
  a_fdir : option (list axis); a_fshape : option (list nat) }.
Definition attrs0 : attrs := mkAttrs None None None None None None.
Definition set_D (v : nat) (a : attrs) : attrs := mkAttrs (Some v) (a_shape a) (a_n a) (a_nmax a) (a_fdir a) (a_fshape a).
Definition set_shape (v : list nat) (a : attrs) : attrs := mkAttrs (a_D a) (Some v) (a_n a) (a_nmax a) (a_fdir a) (a_fshape a).
Definition set_n (v : nat) (a : attrs) : attrs := mkAttrs (a_D a) (a_shape a) (Some v) (a_nmax a) (a_fdir a) (a_fshape a).
Definition set_nmax (v : nat) (a : attrs) : attrs := mkAttrs (a_D a) (a_shape a) (a_n a) (Some v) (a_fdir a) (a_fshape a).
Definition set_fdir (v : list axis) (a : attrs) : attrs := mkAttrs (a_D a) (a_shape a) (a_n a) (a_nmax a) (Some v) (a_fshape a).
Definition set_fshape (v : list nat) (a : attrs) : attrs := mkAttrs (a_D a) (a_shape a) (a_n a) (a_nmax a) (a_fdir a) (Some v).

(** The key of a call: the object, how the arguments are written (lru_cache keeps
    f(True), f(boundary=True) and f() apart), boundary, points (False where the
    method has no such argument). *)
Definition key : Type := (nat * nat * bool * bool)%type.
Definition key_eqb (k l : key) : bool :=
  match k, l with (i, h, b, p), (j, h', b', p') => (i =? j) && (h =? h') && Bool.eqb b b' && Bool.eqb p p' end.
(** All grid objects (sizes and attributes) and all caches. *)
Record world := mkWorld { objs : nat -> option (grid * attrs); mem : meth -> cache key ans }.
Definition world0 : world := mkWorld (fun _ => None) (fun _ => []).
Definition put_obj (i : nat) (o : grid * attrs) (w : world) : world :=
  mkWorld (fun j => if j =? i then Some o else objs w j) (mem w).
Definition put_mem (m : meth) (c : cache key ans) (w : world) : world :=
  mkWorld (objs w) (fun m' => if meth_eqb m' m then c else mem w m').

(** Computations that change the world and may raise. *)
Definition wst (A : Type) : Type := world -> world * res A.
Definition wret {A} (x : res A) : wst A := fun w => (w, x).
Definition wbind {A B} (m : wst A) (f : A -> wst B) : wst B :=
  fun w => match m w with (w', Ok a) => f a w' | (w', Err e) => (w', Err e) end.
(** self.x = .., reading self.x, reading self.nx and alike. *)
Definition upd (i : nat) (f : attrs -> attrs) : wst unit :=
  fun w => match objs w i with Some (g, a) => (put_obj i (g, f a) w, Ok tt) | None => (w, Err UnboundLocalError) end.
Definition rd {A} (i : nat) (f : attrs -> option A) : wst A :=
  fun w => match objs w i with
           | Some (_, a) => match f a with Some v => (w, Ok v) | None => (w, Err AttributeError) end
           | None => (w, Err UnboundLocalError)
           end.
Definition sizes (i : nat) : wst grid :=
  fun w => match objs w i with Some (g, _) => (w, Ok g) | None => (w, Err UnboundLocalError) end.
(** The wrapper of lru_cache around a method of object i. *)
Definition memo (m : meth) (k : key) (body : wst ans) : wst ans :=
  fun w => match cfind key_eqb k (mem w m) with
           | Some v => (put_mem m (chit key_eqb k v (mem w m)) w, Ok v)
           | None =>
               match body w with
               | (w', Ok v) => (put_mem m (cstore (Some (capacity m)) k v (mem w' m)) w', Ok v)
               | (w', Err e) => (w', Err e)
               end
           end.

(** 169-183 get_D *)
Definition m_D (i how : nat) : wst ans :=
  memo MD (i, how, false, false)
    (wbind (sizes i) (fun g =>
     wbind (upd i (set_D (fold_left Nat.add (map (fun n => if 1 <? n then 1 else 0) [nx g; ny g; nz g]) 0))) (fun _ =>
     wbind (rd i a_D) (fun v => wret (Ok (Num v)))))).
(** 185-222 get_shape(False) *)
Definition body_inner (i : nat) : wst ans :=
  wbind (sizes i) (fun g =>
  wbind (upd i (set_shape [nx g; ny g; nz g])) (fun _ =>
  wbind (rd i a_shape) (fun s => wret (Ok (Shape s))))).
Definition m_inner (i how : nat) : wst ans := memo MShape (i, how, false, false) (body_inner i).
(** 270-307 get_fdir *)
Definition m_fdir (i how : nat) : wst ans :=
  memo MFdir (i, how, false, false)
    (wbind (m_D i 0) (fun _ =>
     wbind (m_inner i 0) (fun _ =>
     wbind (rd i a_D) (fun D =>
     wbind (rd i a_shape) (fun s =>
     wbind (upd i (set_fdir (fdir_of_shape D s))) (fun _ =>
     wbind (rd i a_fdir) (fun d => wret (Ok (Dir d))))))))).
(** 185-222 get_shape *)
Definition m_shape (i how : nat) (b : bool) : wst ans :=
  memo MShape (i, how, b, false)
    (if b then
       wbind (m_fdir i 0) (fun _ =>
       wbind (rd i a_fdir) (fun d =>
       wbind (sizes i) (fun g =>
       wbind (upd i (set_shape [if amem AX d then nx g + 2 else nx g; if amem AY d then ny g + 2 else ny g;
                                if amem AZ d then nz g + 2 else nz g])) (fun _ =>
       wbind (rd i a_shape) (fun s => wret (Ok (Shape s)))))))
     else body_inner i).
Definition as_shape (a : ans) : res (list nat) := match a with Shape s => Ok s | _ => Err TypeError end.
(** 224-245 get_n *)
Definition m_n (i how : nat) (b : bool) : wst ans :=
  memo MN (i, how, b, false)
    (wbind (m_shape i 0 b) (fun r =>
     wbind (wret (as_shape r)) (fun s =>
     wbind (upd i (set_n (prodn s))) (fun _ =>
     wbind (rd i a_n) (fun v => wret (Ok (Num v))))))).
(** 247-268 get_n_max *)
Definition m_nmax (i how : nat) (b : bool) : wst ans :=
  memo MNmax (i, how, b, false)
    (wbind (m_shape i 0 b) (fun r =>
     wbind (wret (as_shape r)) (fun s =>
     wbind (upd i (set_nmax (fold_left Nat.max s 0))) (fun _ =>
     wbind (rd i a_nmax) (fun v => wret (Ok (Num v))))))).
(** 330-369: the flow shape from the three sizes, the direction and unify. *)
Definition fshape_of (u : bool) (s : list nat) (d : list axis) : res (list nat) :=
  match s with
  | [x; y; z] =>
      match d with
      | [AX; AY; AZ] => Ok [z; y; x]
      | _ =>
          if negb u then
            match d with
            | [ADash] => Ok [1]
            | [AX] => Ok [x]
            | [AY] => Ok [y]
            | [AZ] => Ok [z]
            | [AX; AY] => Ok [y; x]
            | [AX; AZ] => Ok [z; x]
            | [AY; AZ] => Ok [z; y]
            | _ => Err ValueError
            end
          else
            match d with
            | [ADash] => Ok [1; 1; 1]
            | [AX] => Ok [1; 1; x]
            | [AY] => Ok [1; y; 1]
            | [AZ] => Ok [z; 1; 1]
            | [AX; AY] => Ok [1; y; x]
            | [AX; AZ] => Ok [z; 1; x]
            | [AY; AZ] => Ok [z; y; 1]
            | _ => Err ValueError
            end
      end
  | _ => Err ValueError
  end.
(** 309-378 get_fshape *)
Definition m_fshape (i how : nat) (b p : bool) : wst ans :=
  memo MFshape (i, how, b, p)
    (wbind (m_shape i 0 b) (fun r =>
     wbind (wret (as_shape r)) (fun s =>
     wbind (rd i a_fdir) (fun d =>
     wbind (sizes i) (fun g =>
     wbind (wret (fshape_of (unify g) s d)) (fun f =>
     wbind (upd i (set_fshape f)) (fun _ =>
     wbind (if p then wbind (rd i a_fshape) (fun f' => upd i (set_fshape (f' ++ [3]))) else wret (Ok tt)) (fun _ =>
     wbind (rd i a_fshape) (fun v => wret (Ok (Shape v)))))))))))
  .

(** ** A session: grids are built and asked *)
Inductive query := QD | QFdir | QShape (b : bool) | QN (b : bool) | QNmax (b : bool) | QFshape (b p : bool).
Inductive op := New (i : nat) (x y z : nat) (u : bool) | Ask (i how : nat) (q : query).
Definition ask (i how : nat) (q : query) : wst ans :=
  match q with
  | QD => m_D i how | QFdir => m_fdir i how | QShape b => m_shape i how b
  | QN b => m_n i how b | QNmax b => m_nmax i how b | QFshape b p => m_fshape i how b p
  end.
(** 154-163: the asserts, the sizes, and the first query of the constructor (line
    1318); its other queries are like those of a user.  Every object has a number of
    its own. *)
Definition exec (p : op) : wst (option ans) :=
  match p with
  | New i x y z u => fun w =>
      match objs w i, grid_new x y z u with
      | Some _, _ => (w, Err UnboundLocalError)
      | None, Err e => (w, Err e)
      | None, Ok g => wbind (m_shape i 0 true) (fun _ => wret (Ok None)) (put_obj i (g, attrs0) w)
      end
  | Ask i how q => fun w =>
      match objs w i with
      | Some _ => wbind (ask i how q) (fun a => wret (Ok (Some a))) w
      | None => (w, Err UnboundLocalError)
      end
  end.
Fixpoint run (w : world) (l : list op) : world * list (res (option ans)) :=
  match l with
  | [] => (w, [])
  | p :: l' => let (w', r) := exec p w in let (w'', rs) := run w' l' in (w'', r :: rs)
  end.
