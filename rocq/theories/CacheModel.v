(** Model of the memoisation used by the code: helpers.py _lru_cache
    (/repo/reservoirflow/utils/helpers.py:14-23) is functools.lru_cache, applied
    to methods at class level, so one cache per method is shared by all objects
    and the object itself is part of the key.  Definitions only. *)
From Coq Require Import ZArith Bool Arith List.
From Verif Require Import Prelude Num GridModel GeoModel PropModel PropSpec.
Import ListNotations.
Set Implicit Arguments.

(** ** functools.lru_cache: most recently used entry first *)
Section lru.
Variables K V : Type.
Variable keqb : K -> K -> bool.
Definition cache : Type := list (K * V).
Fixpoint cfind (k : K) (c : cache) : option V :=
  match c with
  | [] => None
  | (k', v) :: c' => if keqb k k' then Some v else cfind k c'
  end.
Fixpoint cdel (k : K) (c : cache) : cache :=
  match c with
  | [] => []
  | (k', v) :: c' => if keqb k k' then c' else (k', v) :: cdel k c'
  end.
(** A hit moves the entry to the front (irrelevant for an unbounded cache). *)
Definition chit (k : K) (v : V) (c : cache) : cache := (k, v) :: cdel k c.
(** A miss stores the new value and drops the least recently used entry of a
    full cache; maxsize = None never drops. *)
Definition cstore (maxsize : option nat) (k : K) (v : V) (c : cache) : cache :=
  match maxsize with
  | None => (k, v) :: c
  | Some n => firstn n ((k, v) :: c)
  end.
(** One call of the wrapper; [f] is what the wrapped function would return now.
    An exception is passed on and not stored. *)
Definition lru_call (maxsize : option nat) (f : res V) (k : K) (c : cache) : cache * res V :=
  match cfind k c with
  | Some v => (chit k v c, Ok v)
  | None =>
      match f with
      | Ok v => (cstore maxsize k v c, Ok v)
      | Err e => (c, Err e)
      end
  end.
(** A sequence of calls: key and what the wrapped function would return at that
    moment. *)
Fixpoint lru_run (maxsize : option nat) (l : list (K * res V)) (c : cache) : cache * list (res V) :=
  match l with
  | [] => (c, [])
  | (k, f) :: l' =>
      let (c', r) := lru_call maxsize f k c in
      let (c'', rs) := lru_run maxsize l' c' in (c'', r :: rs)
  end.
End lru.

(** ** The memoised accessors of RegularCartesian that read properties *)
Section accessors.
Context {F : Type} {NF : Num F}.

(** Keys: grid object and arguments. *)
Definition kkey : Type := (nat * axis * cellref)%type.
Definition gkey : Type := (nat * Z * bool)%type.
Definition ref_eqb (r s : cellref) : bool :=
  match r, s with
  | ById i, ById j => Z.eqb i j
  | ByCoords c, ByCoords d => coord_eqb c d
  | _, _ => false
  end.
Definition kkey_eqb (k l : kkey) : bool :=
  match k, l with (o, a, r), (p, b, s) => (o =? p) && axis_eqb a b && ref_eqb r s end.
Definition gkey_eqb (k l : gkey) : bool :=
  match k, l with (o, i, a), (p, j, b) => (o =? p) && Z.eqb i j && Bool.eqb a b end.

(** regular_cartesian.py:2529 (get_cell_k, maxsize None), 2662 (is_homogeneous,
    1), 2698 (is_isotropic, 1), 2942 (get_cell_G, None).  The caches of methods
    that only read the geometry, which never changes, are left out; that they
    cannot be observed is theorem C19_transparent. *)
Record caches := mkCaches {
  c_k : cache kkey F; c_hom : cache nat bool; c_iso : cache nat bool;
  c_G : cache gkey (list (Z * F)) }.
Definition caches0 : caches := mkCaches [] [] [] [].

Definition mem_k (o : gobj F) (i : nat) (a : axis) (r : cellref) (c : caches) : caches * res F :=
  let (k, v) := lru_call kkey_eqb None (get_cell_k o a r) (i, a, r) (c_k c) in
  (mkCaches k (c_hom c) (c_iso c) (c_G c), v).
Definition mem_hom (o : gobj F) (i : nat) (c : caches) : caches * res bool :=
  let (k, v) := lru_call Nat.eqb (Some 1) (is_homogeneous o) i (c_hom c) in
  (mkCaches (c_k c) k (c_iso c) (c_G c), v).
Definition mem_iso (o : gobj F) (i : nat) (c : caches) : caches * res bool :=
  let (k, v) := lru_call Nat.eqb (Some 1) (is_isotropic o) i (c_iso c) in
  (mkCaches (c_k c) (c_hom c) k (c_G c), v).

(** Sequencing of computations that use the caches and may raise. *)
Definition st (A : Type) : Type := caches -> caches * res A.
Definition sret {A} (x : res A) : st A := fun c => (c, x).
Definition sbind {A B} (m : st A) (f : A -> st B) : st B :=
  fun c => match m c with (c', Ok a) => f a c' | (c', Err e) => (c', Err e) end.
Fixpoint sfold {A B} (f : A -> B -> st A) (l : list B) (a : A) : st A :=
  match l with [] => sret (Ok a) | b :: l' => sbind (f a b) (fun a' => sfold f l' a') end.

(** cell_kAd and get_cell_G (regular_cartesian.py:2943-3004) with the memoised
    get_cell_k and is_isotropic they call. *)
Definition mem_kAd (o : gobj F) (i : nat) (a : axis) (r : cellref) : st (F * F * F) :=
  sbind (sret (get_cell_d (geom o) a r)) (fun d =>
  sbind (sret (get_cell_A (geom o) a r)) (fun A =>
  sbind (mem_k o i a r) (fun k => sret (Ok (k, A, d))))).
Definition mem_G_body (o : gobj F) (i : nat) (id : Z) (boundary : bool) : st (list (Z * F)) :=
  sbind (sret (get_cell_neighbors (ggrid o) id boundary)) (fun nb =>
  sfold (fun D a =>
    sbind (mem_kAd o i a (ById id)) (fun c =>
    sfold (fun D id_n =>
      sbind (mem_kAd o i a (ById id_n)) (fun c_n =>
      sbind (mem_iso o i) (fun iso =>
      sret (Ok (dset id_n (if iso then G_arith (tfac o) c c_n else G_harm (tfac o) c c_n) D)))))
      (dirs_get a nb) D))
    (get_fdir (ggrid o)) []).
Definition mem_G (o : gobj F) (i : nat) (id : Z) (boundary : bool) : st (list (Z * F)) :=
  fun c =>
  match cfind gkey_eqb (i, id, boundary) (c_G c) with
  | Some v => (mkCaches (c_k c) (c_hom c) (c_iso c) (chit gkey_eqb (i, id, boundary) v (c_G c)), Ok v)
  | None =>
      match mem_G_body o i id boundary c with
      | (c', Ok v) => (mkCaches (c_k c') (c_hom c') (c_iso c')
                         (cstore None (i, id, boundary) v (c_G c')), Ok v)
      | (c', Err e) => (c', Err e)
      end
  end.
(** get_cells_G (2877-2940) is not memoised but asks the memoised is_isotropic,
    once the arrays of the first flow direction are there (2783-2785); further
    questions in the same call (2826, 2864) get the same answer. *)
Definition mem_cells_G (o : gobj F) (i : nat) (boundary : bool) : st (mat (F := F)) :=
  if get_D (ggrid o) =? 0 then sret (Err UnboundLocalError) else
  sbind (sret (get_kAd o (nth 0 (get_fdir (ggrid o)) ADash) boundary)) (fun _ =>
  fun c => let (c', iso) := mem_iso o i c in (c', get_cells_G_with iso o boundary)).

(** ** A session: property updates and queries on several grid objects *)
Inductive op :=
| OSet (i : nat) (p : pcall F)                     (* grid i: set_props *)
| OProp (i : nat) (n : pname) (boundary : bool)    (* get_prop *)
| OKcells (i : nat) (a : axis) (boundary : bool)   (* get_cells_k *)
| OK (i : nat) (a : axis) (r : cellref)            (* get_cell_k *)
| OHom (i : nat)                                   (* is_homogeneous *)
| OIso (i : nat)                                   (* is_isotropic *)
| OG (i : nat) (id : Z) (boundary : bool)          (* get_cell_G *)
| OGcells (i : nat) (boundary : bool).             (* get_cells_G *)
Inductive out :=
| RUnit (r : res unit) | RNum (r : res F) | RBool (r : res bool) | RList (r : res (list F))
| RDict (r : res (list (Z * F))) | RMat (r : res (mat (F := F))).

Definition world : Type := (nat -> gobj F) * caches.
Definition do_set (o : gobj F) (c : pcall F) : gobj F * res unit :=
  let (p, r) := set_props (ggrid o) (prs o) (pc_kx c) (pc_ky c) (pc_kz c) (pc_phi c) (pc_z c)
                  (pc_comp c) (pc_cell c) in
  (mkGobj (geom o) p (tfac o), r).
Definition put (f : nat -> gobj F) (i : nat) (o : gobj F) : nat -> gobj F :=
  fun j => if j =? i then o else f j.
Definition lift {A} (g : nat -> gobj F) (f : res A -> out) (r : caches * res A) : world * out :=
  ((g, fst r), f (snd r)).
Definition exec (w : world) (p : op) : world * out :=
  let (g, c) := w in
  match p with
  | OSet i p => let (o, r) := do_set (g i) p in ((put g i o, c), RUnit r)
  | OProp i n b => (w, RList (get_prop (g i) n b))
  | OKcells i a b => (w, RList (get_cells_k (g i) a b))
  | OK i a r => lift g RNum (mem_k (g i) i a r c)
  | OHom i => lift g RBool (mem_hom (g i) i c)
  | OIso i => lift g RBool (mem_iso (g i) i c)
  | OG i id b => lift g RDict (mem_G (g i) i id b c)
  | OGcells i b => lift g RMat (mem_cells_G (g i) i b c)
  end.
Fixpoint exec_all (w : world) (l : list op) : world * list out :=
  match l with
  | [] => (w, [])
  | p :: l' => let (w', r) := exec w p in
               let (w'', rs) := exec_all w' l' in (w'', r :: rs)
  end.
End accessors.
