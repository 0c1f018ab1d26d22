(** Property lemmas about memoisation (see P_Cache.v). *)
From Coq Require Import ZArith QArith Bool Arith Lia List.
From Verif Require Import Prelude PreludeFacts Num GridModel GeoModel PropModel PropSpec CacheModel CacheSpec CacheProofs.
Import ListNotations.
Close Scope Q_scope.

(** While the wrapped function gives the same answer for the same key during the
    whole sequence of calls, the memoised function returns exactly what the
    plain one would, exceptions included, for every capacity. *)
Lemma L_C19_transparent :
  forall (K V : Type) (keqb : K -> K -> bool) (maxsize : option nat) (l : list (K * res V)),
  (forall a b, keqb a b = true <-> a = b) ->
  (forall k f f', In (k, f) l -> In (k, f') l -> f = f') ->
  snd (lru_run keqb maxsize l []) = map snd l.
Proof. intros K V keqb cap l Hk H. apply lru_transparent; auto. simpl. discriminate. Qed.
Example ex_C19_transparent_hyps :
  let l := [(1, Ok 10); (2, Err KeyError); (1, Ok 10); (3, Ok 30); (2, Err KeyError)] in
  (forall a b, (a =? b) = true <-> a = b) /\
  (forall k f f', In (k, f) l -> In (k, f') l -> f = f') /\
  lru_run Nat.eqb (Some 1) l [] = ([(3, 30)], map snd l).
Proof.
  split; [exact Nat.eqb_eq|]. split; [|reflexivity].
  intros k f f' H H'. simpl in *. intuition congruence.
Qed.

(** At most maxsize entries are kept. *)
Lemma L_C19_capacity :
  forall (K V : Type) (keqb : K -> K -> bool) (n : nat) (l : list (K * res V)),
  (forall a b, keqb a b = true <-> a = b) ->
  length (fst (lru_run keqb (Some n) l [])) <= n.
Proof. intros K V keqb n l Hk. apply lru_capacity; auto. simpl. lia. Qed.

(** The kept entries are those of the most recently used keys, last used first. *)
Lemma L_C19_recent :
  forall (K V : Type) (keqb : K -> K -> bool) (maxsize : option nat) (l : list (K * V)),
  (forall a b, keqb a b = true <-> a = b) ->
  map fst (fst (lru_run keqb maxsize (map (fun p => (fst p, Ok (snd p))) l) [])) =
  match maxsize with
  | None => recent keqb (map fst l) []
  | Some n => firstn n (recent keqb (map fst l) [])
  end.
Proof.
  intros K V keqb cap l Hk. rewrite (lru_recent _ _ keqb Hk cap l [] []).
  - now destruct cap. - constructor. - destruct cap as [[|n]|]; reflexivity.
Qed.
Example ex_C19_recent_case :
  recent Nat.eqb [1; 2; 1; 3; 4; 3] [] = [3; 4; 1; 2] /\
  lru_run Nat.eqb (Some 2) (map (fun k => (k, Ok (10 * k))) [1; 2; 1; 3; 4; 3]) [] =
    ([(3, 30); (4, 40)], map (fun k => Ok (10 * k)) [1; 2; 1; 3; 4; 3]).
Proof. split; reflexivity. Qed.

(** Sessions on any number of grid objects in which every grid is updated only
    before its first memoised query: all answers are those of the
    un-memoised code. *)
Lemma L_C18_set_up_first_partial :
  forall (F : Type) (NF : Num F) (g : nat -> gobj F) (l : list op),
  set_up_first l ->
  snd (exec_all (g, caches0) l) = snd (plain_all g l).
Proof.
  intros F NF g l H. apply session_ok; auto.
  - constructor; discriminate.
  - intros; constructor; auto.
Qed.

Example ex_C18_set_up_first_hyps :
  forall p p' : pcall Q,
  set_up_first [OSet 0 p; OIso 0; OSet 1 p'; OG 0 1 true; OSet 1 p; OProp 1 KX true; OK 1 AX (ById 1)].
Proof.
  intros p p'. apply suf_ok. cbn [suf direct updates subject].
  repeat split; try discriminate; intros _; repeat constructor; cbn [direct updates subject]; intros; try discriminate; lia.
Qed.

(** C19 for the memoised accessors of the grid: while nothing is updated, queries about
    any number of grids, in any order and interleaving, are each answered as if it
    were the only one. *)
Lemma L_C19_accessors :
  forall (F : Type) (NF : Num F) (g : nat -> gobj F) (l : list op),
  (forall p, In p l -> updates p = false) ->
  snd (exec_all (g, caches0) l) = map (fun p => snd (plain g p)) l.
Proof.
  intros F NF g l H. rewrite L_C18_set_up_first_partial.
  - induction l as [|p l IH]; [reflexivity|]. cbn [plain_all map]. assert (E : fst (plain g p) = g) by (specialize (H p (or_introl eq_refl)); destruct p; [discriminate|reflexivity..]).
    destruct (plain g p) as [g' r]. cbn [fst snd] in *. subst g'. rewrite <- IH by (intros q I; apply H; now right). destruct (plain_all g l). reflexivity.
  - intros l1 q l2 p l3 -> _ U. rewrite H in U; [discriminate|]. rewrite !in_app_iff. right. right. rewrite in_app_iff. right. now left.
Qed.
Example ex_C19_accessors_case :
  forall p, In p [OK 0 AX (ById 1); OIso 1; OK 1 AX (ById 1); OG 0 1 true; OIso 0; OG 1 1 true; OHom 0; OHom 1; OIso 1] -> updates (F := Q) p = false.
Proof.
  intros p H. cbn in H. repeat destruct H as [<-|H]; try reflexivity. destruct H.
Qed.

(** get_prop and get_cells_k are current after every history, and the
    memoisation never influences the objects. *)
Lemma L_C18_direct_current :
  forall (F : Type) (NF : Num F) (g : nat -> gobj F) (c : caches) (l : list op) (p : op),
  direct p = true ->
  snd (exec (fst (exec_all (g, c) l)) p) = snd (plain (fst (plain_all g l)) p).
Proof.
  intros F NF g c l p H. rewrite <- (session_objects l g c).
  destruct (fst (exec_all (g, c) l)) as [g' c']. now apply direct_fresh.
Qed.
Example ex_C18_direct_case : direct (F := nat) (OKcells 0 AX true) = true.
Proof. reflexivity. Qed.

(** The memoised get_cell_k and get_cell_G are frozen: once such a query has been
    answered, it is answered the same for ever, whatever set_props does. *)
Lemma L_C18_frozen :
  forall (F : Type) (NF : Num F) (g : nat -> gobj F) (c : caches) (i : nat) (l : list op),
  (forall a r v, snd (exec (g, c) (OK i a r)) = RNum (Ok v) ->
     snd (exec (fst (exec_all (fst (exec (g, c) (OK i a r))) l)) (OK i a r)) = RNum (Ok v)) /\
  (forall id b v, snd (exec (g, c) (OG i id b)) = RDict (Ok v) ->
     snd (exec (fst (exec_all (fst (exec (g, c) (OG i id b))) l)) (OG i id b)) = RDict (Ok v)).
Proof.
  intros F NF g c i l. split.
  - intros a r v H. cbn [exec lift fst snd] in *. unfold lift in *. cbn [fst snd] in *. injection H as H.
    apply stored_k in H. apply (forever_session _ l (forever_K (i, a, r) v) g) in H.
    destruct (fst (exec_all _ l)) as [g' c']. cbn [snd] in *. cbn [exec]. unfold lift. cbn [fst snd]. f_equal. now apply recall_k.
  - intros id b v H. cbn [exec lift fst snd] in *. unfold lift in *. cbn [fst snd] in *. injection H as H.
    apply stored_G in H. apply (forever_session _ l (forever_G (i, id, b) v) g) in H.
    destruct (fst (exec_all _ l)) as [g' c']. cbn [snd] in *. cbn [exec]. unfold lift. cbn [fst snd]. f_equal. now apply recall_G.
Qed.

(** ** Witnesses: a 2x1x1 grid over the rationals *)
Definition two_cells (k : dinput Q) : res (gobj Q) :=
  gobj_new 2 1 1 true (Scalar 1%Q) (Scalar 1%Q) (Scalar 1%Q) (Some k) None None None None None 1%Q.
Definition the_grid (r : res (gobj Q)) : nat -> gobj Q :=
  fun _ => match r with Ok o => o | Err _ => mkGobj (mkGeo (mkGrid 0 0 0 true) [] [] [] [] [] []) props0 0%Q end.
Definition set_kx (v : dinput Q) : pcall Q := mkPcall (Some v) None None None None None None.

(** After set_props(kx=...) the memoised accessors answer from the old
    properties: the queries before and after the update agree although the
    un-memoised answers differ. *)
Lemma L_C18_stale_refuted :
  exists (g : nat -> gobj Q) (new : pcall Q),
  (exists v v' : Q, ~ (v == v')%Q /\
     let l := [OK 0 AX (ById 1); OSet 0 new; OK 0 AX (ById 1)] in
     snd (exec_all (g, caches0) l) = [RNum (Ok v); RUnit (Ok tt); RNum (Ok v)] /\
     snd (plain_all g l) = [RNum (Ok v); RUnit (Ok tt); RNum (Ok v')]) /\
  (let l := [OIso 0; OSet 0 new; OIso 0] in
     snd (exec_all (g, caches0) l) = [RBool (Ok true); RUnit (Ok tt); RBool (Ok true)] /\
     snd (plain_all g l) = [RBool (Ok true); RUnit (Ok tt); RBool (Ok false)]) /\
  (exists v v' : Q, ~ (v == v')%Q /\
     let l := [OG 0 1 false; OSet 0 new; OG 0 1 false] in
     snd (exec_all (g, caches0) l) = [RDict (Ok [(2%Z, v)]); RUnit (Ok tt); RDict (Ok [(2%Z, v)])] /\
     snd (plain_all g l) = [RDict (Ok [(2%Z, v)]); RUnit (Ok tt); RDict (Ok [(2%Z, v')])]) /\
  (exists m m' m'' : mat, ~ (ment m' 0 1 == ment m'' 0 1)%Q /\
     let l := [OGcells 0 false; OSet 0 new; OGcells 0 false] in
     snd (exec_all (g, caches0) l) = [RMat (Ok m); RUnit (Ok tt); RMat (Ok m')] /\
     snd (plain_all g l) = [RMat (Ok m); RUnit (Ok tt); RMat (Ok m'')]).
Proof.
  exists (the_grid (two_cells (Scalar 2%Q))), (set_kx (Vec [4; 4; 1; 1]%Q)).
  split; [|split; [|split]].
  - eexists. eexists. split; [|split; vm_compute; reflexivity]. vm_compute. discriminate.
  - split; vm_compute; reflexivity.
  - eexists. eexists. split; [|split; vm_compute; reflexivity]. vm_compute. discriminate.
  - eexists. eexists. eexists. split; [|split; vm_compute; reflexivity]. vm_compute. discriminate.
Qed.
