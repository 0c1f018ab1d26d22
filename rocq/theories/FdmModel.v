(** Model of the finite-difference solution FDM
    (/repo/reservoirflow/solutions/numerical/fdm.py): assembly of the linear
    system (vectorised and symbolic), solve, run, material balance.  The caches of
    __calc_n_term and __calc_b_term are left out here; the latter, which keeps boundary
    terms computed for earlier conditions, is in MemoModel.  Definitions only. *)
From Coq Require Import String ZArith Bool Arith List.
From Verif Require Import Prelude Num GridModel GeoModel PropModel BlackOilModel.
Import ListNotations.
Set Implicit Arguments.
Local Open Scope string_scope.
Local Open Scope nat_scope.

(** The linear solver a call ends up in: scipy.linalg.solve (dense), spsolve,
    or the iterative solver of that name. *)
Inductive solver_kind := Dense | Direct | Iter (name : string).
(** solvers.py:67-89 *)
Definition ISOLVERS : list string :=
  ["bicg"; "bicgstab"; "cg"; "cgs"; "gmres"; "lgmres"; "minres"; "qmr"; "gcrotmk"; "tfqmr"].
(** fdm.py:740-755, solvers.py:21-91: None and "" are false in Python *)
Definition pick_solver (sparse : bool) (isolver : option string) : res solver_kind :=
  if sparse then
    match isolver with
    | None | Some "" => Ok Direct
    | Some n => if smem n ISOLVERS then Ok (Iter n) else Err ValueError
    end
  else Ok Dense.

(** Arguments of solve (690-698) *)
Record sopts := mkOpts {
  o_thr : bool; o_vect : bool; o_mb : bool; o_upd : bool; o_print : bool; o_iso : option string }.

Section fdm.
Context {F : Type} {NF : Num F}.
Notation matF := (@mat F).
Notation fl := (fl F).
Notation bo := (bo F).
Notation fs := (fs F).
Notation lin := (lin F).

(** The model and the solution being worked on. *)
Definition st := (bo * fs)%type.

(** ** Linear expressions *)
Definition lconst (v : fl) : lin := mkLin v [].
Definition ladd (a b : lin) : lin := mkLin (fadd (l0 a) (l0 b)) (lc a ++ lc b)%list.
Definition lopp (a : lin) : lin :=
  mkLin (option_map nopp (l0 a)) (map (fun kc => (fst kc, nopp (snd kc))) (lc a)).
Definition lcoef (a : lin) (id : Z) : F :=
  nsum (map snd (filter (fun kc => Z.eqb (fst kc) id) (lc a))).
(** the symbols occurring, with their coefficients *)
Definition lsyms (a : lin) : list (Z * F) :=
  filter (fun kc => negb (neqb (snd kc) n0))
    (map (fun id => (id, lcoef a id)) (nodup Z.eq_dec (map fst (lc a)))).
(** as_coefficients_dict().values(): the constant first if it is not zero; NaN
    absorbs the rest *)
Definition lvalues (a : lin) : list fl :=
  match l0 a with
  | None => [None]
  | Some c => ((if neqb c n0 then [] else [Some c]) ++ map (fun kc => Some (snd kc)) (lsyms a))%list
  end.

(** ** Terms *)
Definition dz (m : bo) (id idn : Z) : res F :=
  let* z := gz m in let* a := pyget z idn in let* b := pyget z id in Ok (nsub a b).
(** 61-92 __calc_n_term with the symbol of the cell: T*((pn - p) - g*dz) *)
Definition n_term (m : bo) (id idn : Z) (T : F) : res lin :=
  let* d := dz m id idn in
  Ok (mkLin (Some (nopp (nmul T (nmul (b_g m) d)))) [(idn, T); (id, nopp T)]).
(** 94-142 __calc_b_term with the symbol of the cell *)
Definition b_term (m : bo) (id idb : Z) (T : F) : res lin :=
  match dget idb (b_bdict m) with
  | Some (cond, v) =>
      if smem (lower cond) PRESS then
        let* d := dz m id idb in
        Ok (mkLin (Some (nmul (nmul T n2) (nsub v (nmul (b_g m) d)))) [(id, nopp (nmul T n2))])
      else Ok (lconst (Some v))
  | None => Ok (lconst (Some n0))
  end.
(** the same with a number for the pressure of the cell *)
Definition b_num (m : bo) (id idb : Z) (p : fl) (T : F) : res fl :=
  match dget idb (b_bdict m) with
  | Some (cond, v) =>
      if smem (lower cond) PRESS then
        let* d := dz m id idb in
        Ok (fmul (Some (nmul T n2)) (fsub (fsub (Some v) p) (Some (nmul (b_g m) d))))
      else Ok (Some v)
  | None => Ok (Some n0)
  end.
(** 144-176 __calc_w_term: [Some q] given rate, else G/(B*mu) and pwf *)
Definition w_mode (m : bo) (w : well F) : res (fl + F * fl) :=
  let* c := if has (w_q w) then con_is w "q" else Ok false in
  if c then let* q := keyE (w_q w) in Ok (inl q)
  else let* G := keyE (w_G w) in let* pwf := keyE (w_pwf w) in
       Ok (inr (ndiv (nopp G) (nmul (b_B m) (b_mu m)), pwf)).
Definition w_term (m : bo) (id : Z) (w : well F) : res lin :=
  let* t := w_mode m w in
  Ok (match t with
      | inl q => lconst q
      | inr (J, pwf) => mkLin (fmul (Some J) (option_map nopp pwf)) [(id, J)]
      end).
Definition w_num (m : bo) (w : well F) (p : fl) : res fl :=
  let* t := w_mode m w in
  Ok (match t with inl q => q | inr (J, pwf) => fmul (Some J) (fsub p pwf) end).
(** 178-211 __calc_a_term with the symbol of the cell.  (The bare except
    cannot be reached by a missing pi: NaN does not raise.) *)
Definition a_term (m : bo) (s : fs) (id : Z) : res lin :=
  if b_cmp m then
    let* c := pyget (b_RHS m) id in
    let* p := at2 (s_p s) (s_tstep s) id in
    Ok (mkLin (fmul (Some c) (option_map nopp p)) [(id, c)])
  else Ok (lconst (Some n0)).

(** ** Symbolic assembly *)
(** 312-319: sym.Eq(f, a), __simplify_eq and the parts used.  The right side is
    a number or a symbolic expression (then assigning it to an array raises
    TypeError).  [sc]: the non-zero factor by which sympy's simplify may scale
    the equation.  NaN or an equation without symbols makes sympy return a
    Boolean, which has no attribute lhs. *)
Definition is_zero (c : fl) : bool := feqb c (Some n0).
Definition cell_row (sc : F) (f a : lin) : res (list (Z * F) * res fl) :=
  match l0 f, l0 a with
  | Some cf, Some ca =>
      let d := ladd f (lopp a) in
      match lsyms d with
      | [] => Err AttributeError
      | ks =>
        if neqb cf n0 && neqb ca n0 then
          Ok (lsyms f, match lsyms a with [] => Ok (Some n0) | _ => Err TypeError end)
        else
          let c := nsub cf ca in
          match ks with
          | [(id, k)] => Ok ([(id, n1)], Ok (Some (ndiv (nopp c) k)))
          | _ => if neqb c n0
                 then Ok ([match ks with e :: _ => e | [] => (0%Z, n0) end], Err TypeError)
                 else Ok (map (fun kc => (fst kc, nmul sc (snd kc))) ks, Ok (Some (nmul sc (nopp c))))
          end
      end
  | _, _ => Err AttributeError
  end.

Definition replace_last {A} (l : list A) (v : A) : res (list A) :=
  match l with [] => Err IndexError | _ => Ok (removelast l ++ [v])%list end.
(** 255-310: the terms of a cell, cached in the model's cells_terms *)
Definition new_terms (x : st) (id : Z) : res (terms F) :=
  let (m, s) := x in
  let* _ := passert (zmem id (b_ids m)) in
  let* nb := get_cell_neighbors (bgrid m) id false in
  let* bn := get_cell_boundaries (bgrid m) id in
  let* T := get_cell_trans m id true in
  let* ns := rmapM (fun idn => let* t := dgetE idn T in n_term m id idn t) (dirs_list nb) in
  let* bs := rmapM (fun idb => let* t := dgetE idb T in b_term m id idb t) (dirs_list bn) in
  let* w := match dget id (b_wells m) with
            | Some w => let* t := w_term m id w in Ok [t]
            | None => Ok []
            end in
  let* a := a_term m s id in
  Ok (mkTerms (ns ++ bs ++ w)%list a).
Definition old_terms (x : st) (id : Z) (t : terms F) : res (terms F) :=
  let (m, s) := x in
  let* f := match dget id (b_wells m) with
            | Some w =>
                let* c := con_is w "pwf" in
                if c then let* wt := w_term m id w in replace_last (t_f t) wt else Ok (t_f t)
            | None => Ok (t_f t)
            end in
  let* a := if b_cmp m then a_term m s id else Ok (t_a t) in
  Ok (mkTerms f a).
(** 221-319 get_cell_eq *)
Definition get_cell_eq (sc : Z -> F) (id : Z) : M st (list (Z * F) * res fl) :=
  do t <- mread (fun x => match dget id (b_terms (fst x)) with
                          | Some t => old_terms x id t
                          | None => new_terms x id
                          end) ;;
  do _ <- mset (fun x => Ok (set_terms (dset id t (b_terms (fst x))) (fst x), snd x)) ;;
  mread (fun _ => cell_row (sc id) (fold_left ladd (t_f t) (lconst (Some n0))) (t_a t)).
(** 321-342 get_cells_eq: a dictionary by cell *)
Fixpoint cells_eq_loop (sc : Z -> F) (ids : list Z) : M st (list (Z * (list (Z * F) * res fl))) :=
  match ids with
  | [] => mret []
  | id :: ids' =>
      do e <- get_cell_eq sc id ;;
      do es <- cells_eq_loop sc ids' ;;
      mret ((id, e) :: es)
  end.
Definition get_cells_eq (sc : Z -> F) (thr : bool) : M st (list (Z * (list (Z * F) * res fl))) :=
  do ids <- mread (fun x =>
      if thr && (length (b_ids (fst x)) / 2 =? 0) then Err ValueError else Ok (b_ids (fst x))) ;;
  cells_eq_loop sc ids.

(** 348-372 __update_matrices_symb: one row of (A, d) *)
Definition mat_row (A : matF) (i : nat) (es : list (nat * F)) : matF :=
  fold_left (fun A e => mat_set A i (fst e) (snd e)) es A.
Definition symb_row (m : bo) (id : Z) (e : list (Z * F) * res fl) (Ad : matF * list fl) : res (matF * list fl) :=
  let* ks := rmapM (fun kc => let* j := cell_i m (fst kc) in Ok (j, snd kc)) (fst e) in
  let* i := cell_i m id in
  let* r := snd e in
  Ok (mat_row (fst Ad) i ks, upd (snd Ad) i r).
(** 408-417: with threads, the exceptions of the tasks are never looked at.
    [order]: the order in which the tasks run. *)
Definition symb_rows (m : bo) (thr : bool) (eqs : list (Z * (list (Z * F) * res fl)))
  (order : list Z) (Ad : matF * list fl) : res (matF * list fl) :=
  fold_left (fun acc id =>
    let* Ad := acc in
    let r := (let* e := dgetE id eqs in symb_row m id e Ad) in
    if thr then Ok (match r with Ok Ad' => Ad' | Err _ => Ad end) else r) order (Ok Ad).
Definition set_sym (v : option (matF * list fl)) (s : fs) : fs :=
  match s with mkFs a b c d e f g h i _ k l => mkFs a b c d e f g h i v k l end.
(** 374-423 get_matrices_symb *)
Definition get_matrices_symb (sc : Z -> F) (thr : bool) : M st (matF * list fl) :=
  do eqs <- get_cells_eq sc thr ;;
  do _ <- mset (fun x =>
      let n := length (b_ids (fst x)) in
      Ok (fst x, if (s_tstep (snd x) =? 0) || negb (has (s_sym (snd x)))
                 then set_sym (Some (mat0 n, repeat (Some n0) n)) (snd x) else snd x)) ;;
  do _ <- mset (fun x =>
      let* Ad := attrE (s_sym (snd x)) in
      let* Ad := symb_rows (fst x) thr eqs (b_ids (fst x)) Ad in
      Ok (fst x, set_sym (Some Ad) (snd x))) ;;
  mread (fun x => attrE (s_sym (snd x))).

(** ** Vectorised assembly *)
(** values of an array at cells_id *)
Definition at_ids {A} (ids : list Z) (l : list A) : res (list A) := rmapM (pyget l) ids.
(** 429-461 __init_A *)
Definition init_A (m : bo) : res matF :=
  let* T := get_cells_trans m false in
  let* rhs := at_ids (b_ids m) (b_RHS m) in
  Ok (mkMat (msize T) (fun p q =>
        if p =? q then nsub (nopp (nsum (map (ment T p) (seq 0 (msize T))))) (nth p rhs n0)
        else ment T p q)).
Definition mat_addto (A : matF) (i : nat) (v : F) : matF := mat_set A i i (nadd (ment A i i) v).
Definition set_A (v : option matF) (s : fs) : fs :=
  match s with mkFs a b c d e f _ h i j k l => mkFs a b c d e f v h i j k l end.
Definition set_res (v : list (Z * bool)) (s : fs) : fs :=
  match s with mkFs a b c d e f g _ i j k l => mkFs a b c d e f g v i j k l end.
Definition set_bv (v : list (Z * (fl * fl * Z))) (s : fs) : fs :=
  match s with mkFs a b c d e f g h _ j k l => mkFs a b c d e f g h v j k l end.

(** A_[i, i] += v for the cell of that id; NaN cannot occur here *)
Definition addto_A (id : Z) (v : fl) : M st unit := mset (fun x =>
  let* i := cell_i (fst x) id in
  let* A := attrE (s_A (snd x)) in
  match v with
  | Some v => Ok (fst x, set_A (Some (mat_addto A i v)) (snd x))
  | None => Err ValueError
  end).
(** 543-549 one pressure boundary *)
Definition init_b (idb : Z) : M st unit :=
  do T <- mread (fun x => let* T := get_cell_trans (fst x) idb false in the_only T) ;;
  do b <- mread (fun x => b_term (fst x) (fst T) idb (snd T)) ;;
  do v <- mread (fun _ => match lc b, lvalues b with
                          | [], _ => Err AttributeError
                          | _, [v0; v1] => Ok (v0, v1)
                          | _, _ => Err ValueError
                          end) ;;
  do _ <- mset (fun x => Ok (fst x, set_bv (dset idb (fst v, snd v, fst T) (s_bv (snd x))) (snd x))) ;;
  addto_A (fst T) (snd v).
(** 537-549 *)
Definition init_vect : M st unit :=
  do _ <- mset (fun x => Ok (fst x, set_res [] (snd x))) ;;
  do _ <- mset (fun x => let* A := init_A (fst x) in Ok (fst x, set_A (Some A) (snd x))) ;;
  do _ <- mset (fun x => Ok (fst x, set_bv [] (snd x))) ;;
  do ids <- mread (fun x => Ok (b_bup (fst x))) ;;
  miter init_b ids.
(** 463-500 __init_d.  (The bare except is not reached by a missing pi: NaN does
    not raise.) *)
Definition init_d (x : st) : res (list fl) :=
  let (m, s) := x in
  if b_cmp m then
    let* rhs := at_ids (b_ids m) (b_RHS m) in
    let* row := match nth_error (s_p s) (s_tstep s) with Some r => Ok r | None => Err IndexError end in
    let* p := at_ids (b_ids m) row in
    Ok (map2 (fun c p => fmul (Some (nopp c)) p) rhs p)
  else Ok (repeat (Some n0) (length (b_ids m))).
(** d_[i, 0] -= v for the cell of that id *)
Definition sub_d (m : bo) (d : list fl) (id : Z) (v : fl) : res (list fl) :=
  let* i := cell_i m id in Ok (upd d i (fsub (nth i d None) v)).
(** 554-577 one well: new d and whether the rate branch was taken *)
Definition vect_well (id : Z) (du : list fl * bool) : M st (list fl * bool) :=
  do w <- mread (fun x => dgetE id (b_wells (fst x))) ;;
  do cq <- mread (fun _ => con_is w "q") ;;
  if cq then
    mread (fun x =>
      let* p := at2 (s_p (snd x)) (s_tstep (snd x)) id in
      let* q := w_num (fst x) w p in
      let* d := sub_d (fst x) (fst du) id q in Ok (d, true))
  else
    do cp <- mread (fun _ => con_is w "pwf") ;;
    if cp then
      do v <- mread (fun x =>
          let* t := w_term (fst x) id w in
          match lvalues t with
          | [v0] => Ok (v0, Some n0)
          | [v0; v1] => Ok (v0, v1)
          | _ => Err ValueError
          end) ;;
      do d <- mread (fun x => sub_d (fst x) (fst du) id (fst v)) ;;
      do done <- mread (fun x => Ok (match dget id (s_res (snd x)) with Some b => b | None => false end)) ;;
      do _ <- mwhen (negb done)
         (do _ <- addto_A id (snd v) ;;
          mset (fun x => Ok (fst x, set_res (dset id true (s_res (snd x))) (snd x)))) ;;
      mret (d, snd du)
    else mret du.
Fixpoint vect_wells (ids : list Z) (du : list fl * bool) : M st (list fl * bool) :=
  match ids with
  | [] => mret du
  | id :: ids' => do du <- vect_well id du ;; vect_wells ids' du
  end.
(** 579-588 one entry of bdict *)
Definition vect_b (x : st) (d : list fl) (e : Z * (string * F)) : res (list fl) :=
  let (m, s) := x in
  let* nb := get_cell_neighbors (bgrid m) (fst e) false in
  match dirs_list nb with
  | [] => Ok d
  | id :: _ =>
      if String.eqb (fst (snd e)) "pressure"
      then let* v := dgetE (fst e) (s_bv s) in sub_d m d id (fst (fst v))
      else let* q := at2 (s_r s) (s_tstep s) (fst e) in sub_d m d id q
  end.
(** 502-519 __update_z *)
Definition update_z (m : bo) (d : list fl) : res (list fl) :=
  let* zs := gz m in
  let* z := at_ids (b_ids m) zs in
  let* same := all_same z in
  if same then Ok d else
  let dz_l := (map2 (fun a b => nmul (b_g m) (nsub a b)) (tl z) z ++ [nmul (b_g m) n0])%list in
  let dz_u := (nmul (b_g m) n0 :: map2 (fun a b => nmul (b_g m) (nsub a b)) (removelast z) (tl z))%list in
  let* diag := get_cells_trans_diag_1 m true in
  let* T := at_ids (b_ids m) diag in
  let v := map2 nadd (map2 nmul T dz_l) (map2 nmul T dz_u) in
  Ok (map2 (fun d v => fadd d (Some v)) d v).
(** 521-593 get_matrices_vect *)
Definition get_matrices_vect : M st (matF * list fl) :=
  do ini <- mread (fun x => Ok ((s_tstep (snd x) =? 0) || negb (has (s_A (snd x))))) ;;
  do _ <- mwhen ini init_vect ;;
  do d <- mread init_d ;;
  do wids <- mread (fun x => Ok (dkeys (b_wells (fst x)))) ;;
  do du <- vect_wells wids (d, false) ;;
  do d <- mread (fun x => fold_left (fun acc e => let* d := acc in vect_b x d e) (b_bdict (fst x)) (Ok (fst du))) ;;
  do d <- mread (fun x => if snd du then update_z (fst x) d else Ok d) ;;
  do A <- mread (fun x => attrE (s_A (snd x))) ;;
  mret (A, d).

(** ** Updates after a step *)
Definition set_tstep (v : nat) (s : fs) : fs :=
  match s with mkFs a b c _ e f g h i j k l => mkFs a b c v e f g h i j k l end.
Definition set_nsteps (v : nat) (s : fs) : fs :=
  match s with mkFs a b _ d e f g h i j k l => mkFs a b v d e f g h i j k l end.
Definition add_Ad (A : matF) (d : list fl) (s : fs) : fs :=
  match s with mkFs a b c t e f g h i j k l => mkFs a b c t (e ++ [A])%list (f ++ [d])%list g h i j k l end.
Definition set_err (v : fl) (s : fs) : fs :=
  match s with mkFs a b c d e f g h i j _ l => mkFs a b c d e f g h i j (Some v) l end.
Definition set_cum (v : fl) (s : fs) : fs :=
  match s with mkFs a b c d e f g h i j k _ => mkFs a b c d e f g h i j k (Some v) end.

(** rates[tstep, id] = v *)
Definition put_r (id : Z) (v : fl) : M st unit := mset (fun x =>
  let* r := set2 (s_r (snd x)) (s_tstep (snd x)) id v in Ok (fst x, set_r r (snd x))).
(** 671-676 __update_boundaries *)
Definition update_boundary (idb : Z) : M st unit :=
  do T <- mread (fun x => let* T := get_cell_trans (fst x) idb false in the_only T) ;;
  do p <- mread (fun x => at2 (s_p (snd x)) (s_tstep (snd x)) (fst T)) ;;
  do b <- mread (fun x => b_num (fst x) (fst T) idb p (snd T)) ;;
  put_r idb b.
Definition update_boundaries : M st unit :=
  do ids <- mread (fun x => Ok (b_bup (fst x))) ;; miter update_boundary ids.

Definition upd_wells (id : Z) (f : well F -> well F) : M st unit := mset (fun x =>
  let* w := dgetE id (b_wells (fst x)) in
  Ok (set_wells (dset id (f w) (b_wells (fst x))) (fst x), snd x)).
Definition with_pwf_est (p : fl) (w : well F) : well F :=
  match w with mkWell a b _ d e f g h i => mkWell a b (Some p) d e f g h i end.
Definition with_q_est (q : fl) (w : well F) : well F :=
  match w with mkWell _ b c d e f g h i => mkWell (Some q) b c d e f g h i end.
(** 634-664 one well: (asks for re-solving, bottom-hole pressure) *)
Definition update_well (id : Z) : M st (bool * fl) :=
  do w <- mread (fun x => dgetE id (b_wells (fst x))) ;;
  do p <- mread (fun x => at2 (s_p (snd x)) (s_tstep (snd x)) id) ;;
  do est <- mread (fun x =>
      match w_qsp w with
      | Some q => let* G := keyE (w_G w) in
                  Ok (fadd p (fdiv (Some (nmul (nmul q (b_B (fst x))) (b_mu (fst x)))) (Some G)))
      | None => keyE (w_pwf w)
      end) ;;
  do lim <- mread (fun _ => keyE (w_pwfsp w)) ;;
  do rb <-
    (if fltb (Some lim) est then
       do _ <- upd_wells id (with_con (Some "q")) ;; mret (false, est)
     else
       do b <- mread (fun _ =>
           if fltb est (Some lim)
           then let* q := keyE (w_q w) in let* qsp := keyE (w_qsp w) in Ok (feqb q (Some qsp))
           else Ok false) ;;
       do _ <- upd_wells id (with_con (Some "pwf")) ;; mret (b, Some lim)) ;;
  do _ <- upd_wells id (with_pwf_est (snd rb)) ;;
  do q <- mread (fun x => let* w := dgetE id (b_wells (fst x)) in w_num (fst x) w p) ;;
  do _ <- put_r id q ;;
  do _ <- upd_wells id (with_q_est q) ;;
  mret rb.
(** 599-669 __update_wells: returns at the first well asking for re-solving *)
Fixpoint update_wells_loop (ids : list Z) (acc : list (Z * fl)) : M st (option (list (Z * fl))) :=
  match ids with
  | [] => mret (Some acc)
  | id :: ids' =>
      do rb <- update_well id ;;
      if fst rb then mret None else update_wells_loop ids' (dset id (snd rb) acc)
  end.
Definition update_wells : M st bool :=
  do ids <- mread (fun x => Ok (dkeys (b_wells (fst x)))) ;;
  do t <- update_wells_loop ids [] ;;
  match t with
  | None => mret true
  | Some t =>
      do _ <- miter (fun id => mset (fun x =>
           let* p := dgetE id t in
           Ok (set_wp (dappend id p (b_wp (fst x))) (fst x), snd x))) ids ;;
      mret false
  end.

(** 862-912 check_MB; warnings left out *)
Definition row_at {A} (rows : list (list A)) (t : nat) : res (list A) :=
  match nth_error rows t with Some r => Ok r | None => Err IndexError end.
Definition check_MB : M st unit := mset (fun x : st =>
  let (m, s) := x in
  let* r := row_at (s_r s) (s_tstep s) in
  if b_cmp m then
    let* rhs := at_ids (b_ids m) (b_RHS m) in
    let* rp := row_at (s_p s) (s_tstep s) in let* p := at_ids (b_ids m) rp in
    (* tstep - 1 is -1 at step 0: the last row *)
    let* rq := row_at (s_p s) (if s_tstep s =? 0 then length (s_p s) - 1 else s_tstep s - 1) in
    let* q := at_ids (b_ids m) rq in
    let* ri := row_at (s_p s) 0 in let* i := at_ids (b_ids m) ri in
    let acc c l := fsum (map2 (fun h pq => fmul h (fsub (fst pq) (snd pq)))
                              (map (fun h => c (Some h)) rhs) (combine p l)) in
    let e := fdiv (acc (fun h => h) q) (fsum r) in
    let c := fdiv (acc (fun h => fmul h (Some (b_dt m))) i)
                  (fmul (Some (nmul (b_dt m) (nofZ (Z.of_nat (s_tstep s))))) (fsum (concat (s_r s)))) in
    Ok (m, set_err (fabs (fsub e (Some n1))) (set_cum c s))
  else Ok (m, set_err (fsum r) s)).

(** ** solve and run *)
Section solver.
(** The linear solver (kind, matrix, right side) and sympy's scaling factors. *)
Context (slv : solver_kind -> matF -> list fl -> res (list fl)) (sc : Z -> F).

(** 730-738 *)
Definition get_system (o : sopts) : M st (matF * list fl) :=
  if o_print o then
    do Ad <- get_matrices_symb sc (o_thr o) ;; do _ <- get_matrices_vect ;; mret Ad
  else if o_vect o then get_matrices_vect else get_matrices_symb sc (o_thr o).

(** 758-766: new rows *)
Definition new_rows (A : matF) (d p : list fl) : M st unit :=
  do _ <- mset (fun x : st => Ok (fst x,
      let s := snd x in set_tstep (S (s_tstep s)) (set_p (s_p s ++ [last (s_p s) []])%list s))) ;;
  do _ <- mset (fun x : st =>
      let s := snd x in
      let* row := row_at (s_p s) (s_tstep s) in
      let* row := set_many (b_ids (fst x)) p row in
      Ok (fst x, set_p (upd (s_p s) (s_tstep s) row) s)) ;;
  mset (fun x : st => Ok (fst x, let s := snd x in add_Ad A d (set_r (s_r s ++ [last (s_r s) []])%list s))).
(** 770-772: drop the rows again *)
Definition drop_rows (s : fs) : fs :=
  set_tstep (s_tstep s - 1) (set_p (firstn (s_tstep s) (s_p s)) (set_r (firstn (s_tstep s) (s_r s)) s)).

(** 690-782 solve(threading, vectorize, check_MB, update, print_arrays, isolver)
    with sparse matrices or not.  The recursive call passes five arguments, so
    print_arrays=False and isolver keeps its default "cgs".  [fuel]: Python's
    recursion limit. *)
Fixpoint solve (fuel : nat) (sparse : bool) (o : sopts) : M st unit :=
  match fuel with
  | 0 => mread (fun _ => Err RecursionError)
  | S fuel =>
    do Ad <- get_system o ;;
    do p <- mread (fun _ => let* k := pick_solver sparse (o_iso o) in slv k (fst Ad) (snd Ad)) ;;
    if o_upd o then
      do _ <- new_rows (fst Ad) (snd Ad) p ;;
      do _ <- update_boundaries ;;
      do again <- update_wells ;;
      do _ <- mwhen again
         (do _ <- mset (fun x : st => Ok (fst x, drop_rows (snd x))) ;;
          solve fuel sparse (mkOpts (o_thr o) (o_vect o) false true false (Some "cgs"))) ;;
      mwhen (o_mb o) check_MB
    else mret tt
  end.

(** 784-856 run(nsteps, threading, vectorize, check_MB, print_arrays, isolver) *)
Fixpoint run_loop (n fuel : nat) (sparse : bool) (o : sopts) : M st unit :=
  match n with
  | 0 => mret tt
  | S n' => do _ <- solve fuel sparse o ;; run_loop n' fuel sparse o
  end.
Definition run (n fuel : nat) (sparse thr vect mb pr : bool) (iso : option string) : M st unit :=
  do _ <- mset (fun x : st => Ok (fst x, set_nsteps (s_nsteps (snd x) + n) (snd x))) ;;
  do _ <- run_loop n fuel sparse (mkOpts thr vect mb true pr iso) ;;
  mwhen mb (mread (fun x : st => let* _ := attrE (s_err (snd x)) in Ok tt)).
End solver.
End fdm.
Arguments st : clear implicits.
