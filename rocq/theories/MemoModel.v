(** Model of the cache of FDM.__calc_b_term (fdm.py:94, utils/helpers.py:14-24): a
    finite-difference solution that keeps the boundary terms it has computed and gives
    them again for the same arguments, whatever the boundary conditions are by then.
    The methods of [FdmModel] that reach __calc_b_term are written again with the
    cache; the others are used as they are ([uncached]).  The cache of __calc_n_term
    (fdm.py:61) is left out: its value depends only on its arguments, the grid's z and
    the fluid's g, which the calls of [HistSpec] do not change.  Definitions only. *)
From Coq Require Import String ZArith Bool Arith List.
From Verif Require Import Prelude Num GridModel GeoModel PropModel BlackOilModel FdmModel HistSpec.
Import ListNotations.
Set Implicit Arguments.
Local Open Scope string_scope.
Local Open Scope nat_scope.

Section memo.
Context {F : Type} {NF : Num F} {NT : NumT F}.
Notation fl := (option F).

(** What functools.lru_cache(maxsize=None) holds for one solution: the terms by cell,
    boundary cell, transmissibility and pressure; the pressure is the symbol of the
    cell (then the term is an expression) or a number.  A NaN is equal to no key, so
    it is never found again and not kept here. *)
Record memo := mkMemo { mm_sym : list (Z * Z * F * lin F); mm_num : list (Z * Z * F * F * fl) }.
Definition memo0 : memo := mkMemo [] [].
Definition key (id idb : Z) (T : F) (k : Z * Z * F) : bool :=
  Z.eqb id (fst (fst k)) && Z.eqb idb (snd (fst k)) && neqb T (snd k).
Definition find_sym (id idb : Z) (T : F) (c : memo) : option (lin F) :=
  option_map snd (find (fun e => key id idb T (fst e)) (mm_sym c)).
Definition find_num (id idb : Z) (T p : F) (c : memo) : option fl :=
  option_map snd (find (fun e => key id idb T (fst (fst e)) && neqb p (snd (fst e))) (mm_num c)).

(** The model, the solution and the cache of the solution. *)
Definition mst := (st F * memo)%type.
(** A method that does not reach the cache. *)
Definition uncached {S A} (c : M S A) : M (S * memo) A := fun x =>
  match c (fst x) with (y, r) => ((y, snd x), r) end.
(** A call for every element, in order. *)
Fixpoint mmapM {S A B} (f : A -> M S B) (l : list A) : M S (list B) :=
  match l with
  | [] => mret []
  | a :: l' => do b <- f a ;; do bs <- mmapM f l' ;; mret (b :: bs)
  end.

(** fdm.py:94-142 with the cache, the pressure being the symbol of the cell *)
Definition b_term_m (id idb : Z) (T : F) : M mst (lin F) := fun x =>
  match find_sym id idb T (snd x) with
  | Some v => (x, Ok v)
  | None => match b_term (fst (fst x)) id idb T with
            | Ok v => ((fst x, mkMemo ((id, idb, T, v) :: mm_sym (snd x)) (mm_num (snd x))), Ok v)
            | Err e => (x, Err e)
            end
  end.
(** the same, the pressure being a number *)
Definition b_num_m (id idb : Z) (p : fl) (T : F) : M mst fl := fun x =>
  match p with
  | None => (x, b_num (fst (fst x)) id idb p T)
  | Some p =>
      match find_num id idb T p (snd x) with
      | Some v => (x, Ok v)
      | None => match b_num (fst (fst x)) id idb (Some p) T with
                | Ok v => ((fst x, mkMemo (mm_sym (snd x)) ((id, idb, T, p, v) :: mm_num (snd x))), Ok v)
                | Err e => (x, Err e)
                end
      end
  end.

(** ** Symbolic assembly *)
(** 255-300: [new_terms] *)
Definition new_terms_m (id : Z) : M mst (terms F) :=
  do h <- uncached (mread (fun x : st F =>
      let m := fst x in
      let* _ := passert (zmem id (b_ids m)) in
      let* nb := get_cell_neighbors (bgrid m) id false in
      let* bn := get_cell_boundaries (bgrid m) id in
      let* T := get_cell_trans m id true in
      let* ns := rmapM (fun idn => let* t := dgetE idn T in n_term m id idn t) (dirs_list nb) in
      Ok (T, ns, dirs_list bn))) ;;
  do bs <- mmapM (fun idb =>
      do t <- uncached (mread (fun _ : st F => dgetE idb (fst (fst h)))) ;; b_term_m id idb t) (snd h) ;;
  uncached (mread (fun x : st F =>
      let (m, s) := x in
      let* w := match dget id (b_wells m) with
                | Some w => let* t := w_term m id w in Ok [t]
                | None => Ok []
                end in
      let* a := a_term m s id in
      Ok (mkTerms (snd (fst h) ++ bs ++ w)%list a))).
(** 221-319 get_cell_eq *)
Definition get_cell_eq_m (sc : Z -> F) (id : Z) : M mst (list (Z * F) * res fl) :=
  do o <- uncached (mread (fun x : st F => Ok (dget id (b_terms (fst x))))) ;;
  do t <- (match o with Some t => uncached (mread (fun x : st F => old_terms x id t)) | None => new_terms_m id end) ;;
  do _ <- uncached (mset (fun x : st F => Ok (set_terms (dset id t (b_terms (fst x))) (fst x), snd x))) ;;
  uncached (mread (fun _ : st F => cell_row (sc id) (fold_left ladd (t_f t) (lconst (Some n0))) (t_a t))).
(** 321-342 get_cells_eq *)
Fixpoint cells_eq_loop_m (sc : Z -> F) (ids : list Z) : M mst (list (Z * (list (Z * F) * res fl))) :=
  match ids with
  | [] => mret []
  | id :: ids' =>
      do e <- get_cell_eq_m sc id ;;
      do es <- cells_eq_loop_m sc ids' ;;
      mret ((id, e) :: es)
  end.
Definition get_cells_eq_m (sc : Z -> F) (thr : bool) : M mst (list (Z * (list (Z * F) * res fl))) :=
  do ids <- uncached (mread (fun x : st F =>
      if thr && (length (b_ids (fst x)) / 2 =? 0) then Err ValueError else Ok (b_ids (fst x)))) ;;
  cells_eq_loop_m sc ids.
(** 374-423 get_matrices_symb *)
Definition get_matrices_symb_m (sc : Z -> F) (thr : bool) : M mst (@mat F * list fl) :=
  do eqs <- get_cells_eq_m sc thr ;;
  uncached (
  do _ <- mset (fun x : st F =>
      let n := length (b_ids (fst x)) in
      Ok (fst x, if (s_tstep (snd x) =? 0) || negb (has (s_sym (snd x)))
                 then set_sym (Some (mat0 n, repeat (Some n0) n)) (snd x) else snd x)) ;;
  do _ <- mset (fun x : st F =>
      let* Ad := attrE (s_sym (snd x)) in
      let* Ad := symb_rows (fst x) thr eqs (b_ids (fst x)) Ad in
      Ok (fst x, set_sym (Some Ad) (snd x))) ;;
  mread (fun x => attrE (s_sym (snd x)))).

(** ** Vectorised assembly *)
(** 543-549 one pressure boundary *)
Definition init_b_m (idb : Z) : M mst unit :=
  do T <- uncached (mread (fun x : st F => let* T := get_cell_trans (fst x) idb false in the_only T)) ;;
  do b <- b_term_m (fst T) idb (snd T) ;;
  uncached (
  do v <- mread (fun _ : st F => match lc b, lvalues b with
                          | [], _ => Err AttributeError
                          | _, [v0; v1] => Ok (v0, v1)
                          | _, _ => Err ValueError
                          end) ;;
  do _ <- mset (fun x : st F => Ok (fst x, set_bv (dset idb (fst v, snd v, fst T) (s_bv (snd x))) (snd x))) ;;
  addto_A (fst T) (snd v)).
(** 537-549 *)
Definition init_vect_m : M mst unit :=
  do _ <- uncached (mset (fun x : st F => Ok (fst x, set_res [] (snd x)))) ;;
  do _ <- uncached (mset (fun x : st F => let* A := init_A (fst x) in Ok (fst x, set_A (Some A) (snd x)))) ;;
  do _ <- uncached (mset (fun x : st F => Ok (fst x, set_bv [] (snd x)))) ;;
  do ids <- uncached (mread (fun x : st F => Ok (b_bup (fst x)))) ;;
  miter init_b_m ids.
(** 521-593 get_matrices_vect *)
Definition get_matrices_vect_m : M mst (@mat F * list fl) :=
  do ini <- uncached (mread (fun x : st F => Ok ((s_tstep (snd x) =? 0) || negb (has (s_A (snd x)))))) ;;
  do _ <- mwhen ini init_vect_m ;;
  uncached (
  do d <- mread init_d ;;
  do wids <- mread (fun x : st F => Ok (dkeys (b_wells (fst x)))) ;;
  do du <- vect_wells wids (d, false) ;;
  do d <- mread (fun x : st F => fold_left (fun acc e => let* d := acc in vect_b x d e) (b_bdict (fst x)) (Ok (fst du))) ;;
  do d <- mread (fun x : st F => if snd du then update_z (fst x) d else Ok d) ;;
  do A <- mread (fun x : st F => attrE (s_A (snd x))) ;;
  mret (A, d)).

(** ** Steps *)
(** 671-676 __update_boundaries *)
Definition update_boundary_m (idb : Z) : M mst unit :=
  do T <- uncached (mread (fun x : st F => let* T := get_cell_trans (fst x) idb false in the_only T)) ;;
  do p <- uncached (mread (fun x : st F => at2 (s_p (snd x)) (s_tstep (snd x)) (fst T))) ;;
  do b <- b_num_m (fst T) idb p (snd T) ;;
  uncached (put_r idb b).
Definition update_boundaries_m : M mst unit :=
  do ids <- uncached (mread (fun x : st F => Ok (b_bup (fst x)))) ;; miter update_boundary_m ids.

Section solver.
(** The linear solver (kind, matrix, right side) and sympy's scaling factors. *)
Context (slv : solver_kind -> @mat F -> list fl -> res (list fl)) (sc : Z -> F).
(** 730-738 *)
Definition get_system_m (o : sopts) : M mst (@mat F * list fl) :=
  if o_print o then
    do Ad <- get_matrices_symb_m sc (o_thr o) ;; do _ <- get_matrices_vect_m ;; mret Ad
  else if o_vect o then get_matrices_vect_m else get_matrices_symb_m sc (o_thr o).
(** 690-782 solve *)
Fixpoint solve_m (fuel : nat) (sparse : bool) (o : sopts) : M mst unit :=
  match fuel with
  | 0 => uncached (mread (fun _ : st F => Err RecursionError))
  | S fuel =>
    do Ad <- get_system_m o ;;
    do p <- uncached (mread (fun _ : st F => let* k := pick_solver sparse (o_iso o) in slv k (fst Ad) (snd Ad))) ;;
    if o_upd o then
      do _ <- uncached (new_rows (fst Ad) (snd Ad) p) ;;
      do _ <- update_boundaries_m ;;
      do again <- uncached update_wells ;;
      do _ <- mwhen again
         (do _ <- uncached (mset (fun x : st F => Ok (fst x, drop_rows (snd x)))) ;;
          solve_m fuel sparse (mkOpts (o_thr o) (o_vect o) false true false (Some "cgs"))) ;;
      uncached (mwhen (o_mb o) check_MB)
    else mret tt
  end.
(** 784-856 run *)
Fixpoint run_loop_m (n fuel : nat) (sparse : bool) (o : sopts) : M mst unit :=
  match n with
  | 0 => mret tt
  | S n' => do _ <- solve_m fuel sparse o ;; run_loop_m n' fuel sparse o
  end.
Definition run_m (n fuel : nat) (sparse thr vect mb pr : bool) (iso : option string) : M mst unit :=
  do _ <- uncached (mset (fun x : st F => Ok (fst x, set_nsteps (s_nsteps (snd x) + n) (snd x)))) ;;
  do _ <- run_loop_m n fuel sparse (mkOpts thr vect mb true pr iso) ;;
  uncached (mwhen mb (mread (fun x : st F => let* _ := attrE (s_err (snd x)) in Ok tt))).
End solver.

(** ** Calls: [exec] with the cache.  A new solution has an empty cache. *)
Definition of_solution_m (c : M mst unit) : M (ws F * memo) unit := fun x =>
  match snd (fst x) with
  | None => (x, Err AttributeError)
  | Some s => match c ((fst (fst x), s), snd x) with (y, r) => (((fst (fst y), Some (snd (fst y))), snd y), r) end
  end.
Definition exec_m (c : call F) : M (ws F * memo) unit :=
  match c with
  | Compile => fun x => match exec Compile (fst x) with (y, r) => ((y, memo0), r) end
  | Solve slv sc fuel sparse o => of_solution_m (solve_m slv sc fuel sparse o)
  | Run slv sc n fuel sparse thr vect mb pr iso => of_solution_m (run_m slv sc n fuel sparse thr vect mb pr iso)
  | _ => uncached (exec c)
  end.
Definition after_m (x : ws F * memo) (l : list (call F)) : ws F * memo := fold_left (fun x c => fst (exec_m c x)) l x.
End memo.
Arguments memo : clear implicits.
Arguments mst : clear implicits.
