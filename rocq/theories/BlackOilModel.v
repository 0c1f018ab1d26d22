(** Model of BlackOil (/repo/reservoirflow/models/black_oil.py): construction,
    transmissibilities, wells, boundaries.  The lru_cache decorators are left out
    (see [CacheModel.v]).  Definitions only. *)
From Coq Require Import String ZArith Bool Arith List Reals.
From Verif Require Import Prelude Num GridModel GeoModel PropModel UnitsModel.
Import ListNotations.
Set Implicit Arguments.
Local Close Scope R_scope.
Local Open Scope string_scope.
Local Open Scope nat_scope.

(** ** Methods: state in, state and value or exception out *)
Definition M (S A : Type) := S -> S * res A.
Definition mret {S A} (a : A) : M S A := fun s => (s, Ok a).
Definition mbind {S A B} (x : M S A) (f : A -> M S B) : M S B :=
  fun s => match x s with (s', Ok a) => f a s' | (s', Err e) => (s', Err e) end.
(** reading the state *)
Definition mread {S A} (f : S -> res A) : M S A := fun s => (s, f s).
(** an assignment whose right-hand side may raise *)
Definition mset {S} (f : S -> res S) : M S unit :=
  fun s => match f s with Ok s' => (s', Ok tt) | Err e => (s, Err e) end.
Definition mwhen {S} (b : bool) (x : M S unit) : M S unit := if b then x else mret tt.
(** a for loop *)
Fixpoint miter {S A} (f : A -> M S unit) (l : list A) : M S unit :=
  match l with [] => mret tt | a :: l' => mbind (f a) (fun _ => miter f l') end.
Notation "'do' x <- e1 ;; e2" := (mbind e1 (fun x => e2))
  (at level 200, x pattern, e1 at level 100, e2 at level 200, only parsing).

(** ** Square root, logarithm and pi, for the well formulas only *)
Class NumT (F : Type) := { nsqrt : F -> F; nln : F -> F; npi : F }.
#[export] Instance NumT_R : NumT R := {| nsqrt := sqrt; nln := ln; npi := PI |}.

(** d[k], raising KeyError *)
Definition dgetE {A} (k : Z) (d : list (Z * A)) : res A :=
  match dget k d with Some v => Ok v | None => Err KeyError end.
Definition din {A} (k : Z) (d : list (Z * A)) : bool :=
  match dget k d with Some _ => true | None => false end.
Definition keyE {A} (o : option A) : res A := match o with Some v => Ok v | None => Err KeyError end.
Definition attrE {A} (o : option A) : res A := match o with Some v => Ok v | None => Err AttributeError end.
Definition has {A} (o : option A) : bool := match o with Some _ => true | None => false end.

Section blackoil.
Context {F : Type} {NF : Num F} {NT : NumT F}.
Notation matF := (@mat F).

(** ** Floats that may be NaN: [None] *)
Definition fl := option F.
Definition lift2 (f : F -> F -> F) (a b : fl) : fl :=
  match a, b with Some x, Some y => Some (f x y) | _, _ => None end.
Definition fadd := lift2 nadd. Definition fsub := lift2 nsub. Definition fmul := lift2 nmul.
(** Division by zero gives an infinity or NaN, both shown as [None]. *)
Definition fdiv (a b : fl) : fl :=
  match a, b with Some x, Some y => if neqb y n0 then None else Some (ndiv x y) | _, _ => None end.
(** Comparisons with NaN are false. *)
Definition fltb (a b : fl) : bool := match a, b with Some x, Some y => nltb x y | _, _ => false end.
Definition feqb (a b : fl) : bool := match a, b with Some x, Some y => neqb x y | _, _ => false end.
Definition fsum (l : list fl) : fl := fold_left fadd l (Some n0).
Definition fabs (a : fl) : fl := option_map (fun x => if nltb x n0 then nopp x else x) a.

(** A well: a dictionary; [None] is a missing key.  "constrain" may hold None. *)
Record well := mkWell {
  w_q : option fl; w_qsp : option F; w_pwf : option fl; w_pwfsp : option F;
  w_con : option (option string);
  w_r : option F; w_s : option F; w_req : option F; w_G : option F }.
Definition well0 : well := mkWell None None None None None None None None None.
(** wells[id]["constrain"] == name *)
Definition con_is (w : well) (name : string) : res bool :=
  let* c := keyE (w_con w) in
  Ok (match c with Some c => String.eqb c name | None => false end).

(** A linear expression in the pressure symbols (sympy): constant and
    coefficients by cell; a cell may occur several times (the sum counts). *)
Record lin := mkLin { l0 : fl; lc : list (Z * F) }.
(** An entry of cells_terms (fdm.py:266). *)
Record terms := mkTerms { t_f : list lin; t_a : lin }.

(** A BlackOil object.  Captured at construction: cells_id, fluid mu, B, g, the
    two unit factors, dt.  [b_cmp]: comp_type is "compressible". *)
Record bo := mkBo {
  b_grid : gobj F; b_ids : list Z; b_mu : F; b_B : F; b_g : F; b_tconv : F; b_vconv : F; b_dt : F;
  b_comp : F; b_cmp : bool; b_RHS : list F;
  b_ip : list fl; b_ir : list fl;                    (* init_pressures[0], init_rates[0] *)
  b_wells : list (Z * well); b_wp : list (Z * list fl);       (* wells, w_pressures *)
  b_bdict : list (Z * (string * F)); b_bup : list Z;          (* bdict, bdict_update *)
  b_terms : list (Z * terms) }.                               (* cells_terms *)

(** An FDM solution object (solution.py:33-38, fdm.py:52-55 and the attributes
    A_, resolve, bdict_v, (A, d), error, cumulative_error created later). *)
Record fs := mkFs {
  s_p : list (list fl); s_r : list (list fl); s_nsteps : nat; s_tstep : nat;
  s_As : list matF; s_ds : list (list fl);                     (* rows after the first *)
  s_A : option matF; s_res : list (Z * bool); s_bv : list (Z * (fl * fl * Z));
  s_sym : option (matF * list fl); s_err : option fl; s_cum : option fl }.

Definition set_ip (v : list fl) (m : bo) : bo :=
  match m with mkBo a b c d e f g h i j k _ l w x y z t => mkBo a b c d e f g h i j k v l w x y z t end.
Definition set_ir (v : list fl) (m : bo) : bo :=
  match m with mkBo a b c d e f g h i j k l _ w x y z t => mkBo a b c d e f g h i j k l v w x y z t end.
Definition set_wells (v : list (Z * well)) (m : bo) : bo :=
  match m with mkBo a b c d e f g h i j k l n _ x y z t => mkBo a b c d e f g h i j k l n v x y z t end.
Definition set_wp (v : list (Z * list fl)) (m : bo) : bo :=
  match m with mkBo a b c d e f g h i j k l n w _ y z t => mkBo a b c d e f g h i j k l n w v y z t end.
Definition set_bdict (v : list (Z * (string * F))) (m : bo) : bo :=
  match m with mkBo a b c d e f g h i j k l n w x _ z t => mkBo a b c d e f g h i j k l n w x v z t end.
Definition set_bup (v : list Z) (m : bo) : bo :=
  match m with mkBo a b c d e f g h i j k l n w x y _ t => mkBo a b c d e f g h i j k l n w x y v t end.
Definition set_terms (v : list (Z * terms)) (m : bo) : bo :=
  match m with mkBo a b c d e f g h i j k l n w x y z _ => mkBo a b c d e f g h i j k l n w x y z v end.
Definition set_p (v : list (list fl)) (s : fs) : fs :=
  match s with mkFs _ b c d e f g h i j k l => mkFs v b c d e f g h i j k l end.
Definition set_r (v : list (list fl)) (s : fs) : fs :=
  match s with mkFs a _ c d e f g h i j k l => mkFs a v c d e f g h i j k l end.

(** cells_i_dict[id]: dict(zip(cells_id, cells_i)) (137) *)
Definition cell_i (m : bo) (id : Z) : res nat :=
  dgetE id (combine (b_ids m) (seq 0 (length (b_ids m)))).
Definition bgrid (m : bo) : grid := ggrid (b_grid m).

(** grid.z, grid.phi, grid.k[dir], grid.d[dir] as attributes *)
Definition gz (m : bo) : res (list F) := attrE (att (pget ZED (prs (b_grid m)))).
Definition gk (m : bo) (a : axis) : res (list F) :=
  let* n := kname a in keyE (att (pget n (prs (b_grid m)))).
Definition gd (m : bo) (a : axis) : list F := cd (geom (b_grid m)) a.

(** 258-263 __calc_comp with model.py:54-75 set_comp: comp and comp_type *)
Definition calc_comp (g : gobj F) (f : fobj F) : res (F * bool) :=
  let inc t := match t with Some (Some t) => String.eqb t "incompressible" | _ => false end in
  let* ft := attrE (c_type (f_c f)) in
  let gt := p_comp_type (prs g) in
  let* comp :=
    if inc (Some ft) && inc (Some gt) then Ok n0
    else let* a := attrE (c_comp (f_c f)) in let* b := attrE (p_comp (prs g)) in Ok (nadd a b) in
  match cset comp with
  | (_, Err e) => Err e
  | (c, Ok _) => Ok (comp, negb (inc (c_type c)))
  end.

(** 620-632 __calc_RHS (its cache of size one is never hit twice with
    different data: it is called once, in the constructor) *)
Definition calc_RHS (g : gobj F) (cmp : bool) (comp vconv B dt : F) : res (list F) :=
  if cmp then
    let* phi := attrE (att (pget PHI (prs g))) in
    Ok (map2 (fun V p => ndiv (nmul (nmul V p) comp) (nmul (nmul vconv B) dt)) (cV (geom g)) phi)
  else Ok (List.repeat n0 (get_n (ggrid g) true)).

(** numpy [row[ids] = v] for distinct ids in range *)
Definition set_many {A} (ids : list Z) (vs : list A) (row : list A) : res (list A) :=
  if length ids =? length vs
  then fold_left (fun r iv => let* l := r in pyset l (fst iv) (snd iv)) (combine ids vs) (Ok row)
  else Err ValueError.

(** 31-103 the constructor with well=None; 109-174 __initialize__.  The fluid
    must have mu and B (the code would raise AttributeError at their first
    use); dtypes, start_date and scalers are left out. *)
Definition bo_new (g : gobj F) (f : fobj F) (unit : string) (pi : option F) (dt : F) : res bo :=
  match set_units uobj0 unit with
  | (_, Err e) => Err e
  | (u, Ok _) =>
    let* tc := factor u "transmissibility conversion" in
    let* vc := factor u "volume conversion" in
    let* ids := get_cells_id (ggrid g) false in
    let n := get_n (ggrid g) true in
    let* ip := match pi with
               | Some p => set_many ids (List.repeat (Some p) (length ids)) (List.repeat (@None F) n)
               | None => Ok (List.repeat None n)
               end in
    let* c := calc_comp g f in
    let* mu := attrE (f_mu f) in
    let* B := attrE (f_B f) in
    let* gr := attrE (f_g f) in
    let* RHS := calc_RHS g (snd c) (fst c) vc B dt in
    Ok (mkBo g ids mu B gr tc vc dt (fst c) (snd c) RHS
             ip (List.repeat (Some n0) n) [] [] [] [] [])
  end.

(** solution.py:19-38, fdm.py:38-55: a new FDM solution copies the initial
    arrays (black_oil.py:202-210).  The row of zeros with which As and ds start
    (fdm.py:54-55) is left out. *)
Definition fdm_new (m : bo) : fs :=
  mkFs [b_ip m] [b_ir m] 1 0 [] [] None [] [] None None None.

(** ** Transmissibilities *)
Definition muB (m : bo) : F := nmul (b_mu m) (b_B m).
(** 268-298 get_cell_trans *)
Definition get_cell_trans (m : bo) (id : Z) (boundary : bool) : res (list (Z * F)) :=
  let* G := get_cell_G (b_grid m) id boundary in
  Ok (map (fun kv => (fst kv, ndiv (snd kv) (muB m))) G).
(** 320-323 get_cells_trans, vectorize=True *)
Definition get_cells_trans (m : bo) (boundary : bool) : res matF :=
  let* G := get_cells_G (b_grid m) boundary in
  Ok (mkMat (msize G) (fun p q => ndiv (ment G p q) (muB m))).
Definition mat0 (n : nat) : matF := mkMat n (fun _ _ => n0).
(** A[p, q] = v *)
Definition mat_set (A : matF) (p q : nat) (v : F) : matF :=
  mkMat (msize A) (fun i j => if (i =? p) && (j =? q) then v else ment A i j).
(** 325-343 get_cells_trans, vectorize=False *)
Definition get_cells_trans_loop (m : bo) (boundary : bool) : res matF :=
  fold_left (fun acc id =>
    let* A := acc in
    let* T := get_cell_trans m id false in
    let* i := if boundary then Ok (Z.to_nat id) else cell_i m id in
    fold_left (fun acc kv =>
      let* A := acc in
      let* j := if boundary then Ok (Z.to_nat (fst kv)) else cell_i m (fst kv) in
      Ok (mat_set A i j (snd kv))) T (Ok A))
  (b_ids m) (Ok (mat0 (get_n (bgrid m) boundary))).
(** 345-356 get_cells_trans_diag(boundary, 1) *)
Definition get_cells_trans_diag_1 (m : bo) (boundary : bool) : res (list F) :=
  let* d := get_cells_G_diag_1 (b_grid m) boundary in
  let* d := if 1 <? get_D (bgrid m)
            then let* r := get_cells_G_diag_2 (b_grid m) boundary (Some d) in
                 Ok (match r with (Some d', _, _) => d' | _ => d end)
            else Ok d in
  Ok (map (fun v => ndiv v (muB m)) d).

(** ** Wells *)
Definition sq (x : F) : F := nmul x x.
(** 404-451 __calc_well_r_eq; x**0.5 and x**0.25 *)
Definition peaceman (kx ky dx dy : F) : F :=
  let kx_ky := ndiv kx ky in let ky_kx := ndiv ky kx in
  ndiv (nmul (dec 28 2) (nsqrt (nadd (nmul (nsqrt ky_kx) (sq dx)) (nmul (nsqrt kx_ky) (sq dy)))))
       (nadd (nsqrt (nsqrt ky_kx)) (nsqrt (nsqrt kx_ky))).
Definition calc_well_r_eq (m : bo) (id : Z) : res F :=
  match get_fdir (bgrid m) with
  | [AX] | [AY] =>
      let* dx := pyget (gd m AX) id in let* dy := pyget (gd m AY) id in
      Ok (nmul (dec 14 2) (nsqrt (nadd (sq dx) (sq dy))))
  | [AX; AY] | [AX; AY; AZ] =>
      let* lx := gk m AX in let* kx := pyget lx id in
      let* ly := gk m AY in let* ky := pyget ly id in
      let* dx := pyget (gd m AX) id in let* dy := pyget (gd m AY) id in
      Ok (peaceman kx ky dx dy)
  | _ => Err ValueError
  end.
(** 362-402 __calc_well_G *)
Definition well_G (T kH dz req r : F) (s : option F) : F :=
  let n := nmul (nmul (nmul (nmul n2 npi) T) kH) dz in
  let d := nln (nmul (ndiv req r) (nofZ 12)) in
  ndiv n (match s with Some s => nadd d s | None => d end).
Definition calc_well_G (m : bo) (id : Z) : res F :=
  let* kH :=
    match get_fdir (bgrid m) with
    | [AX] => let* lx := gk m AX in pyget lx id
    | [AX; AY] | [AX; AY; AZ] =>
        let* lx := gk m AX in let* kx := pyget lx id in
        let* ly := gk m AY in let* ky := pyget ly id in Ok (nsqrt (nmul kx ky))
    | _ => Err ValueError
    end in
  let* dz := pyget (gd m AZ) id in
  let* w := dgetE id (b_wells m) in
  let* req := keyE (w_req w) in
  let* r := keyE (w_r w) in
  Ok (well_G (b_tconv m) kH dz req r (w_s w)).

(** The model and its active solution (None: not compiled). *)
Definition ws := (bo * option fs)%type.
(** 212-216 __get_tstep *)
Definition get_tstep (x : ws) : nat := match snd x with None => 0 | Some s => s_tstep s end.
(** [rows[t, id]] *)
Definition at2 {A} (rows : list (list A)) (t : nat) (id : Z) : res A :=
  match nth_error rows t with Some row => pyget row id | None => Err IndexError end.
(** [rows[t, id] = v] *)
Definition set2 {A} (rows : list (list A)) (t : nat) (id : Z) (v : A) : res (list (list A)) :=
  match nth_error rows t with
  | Some row => let* row := pyset row id v in Ok (upd rows t row)
  | None => Err IndexError
  end.
(** 218-226 __get_pressure(__get_tstep(), id) *)
Definition get_pressure (x : ws) (id : Z) : res fl :=
  match snd x with
  | Some s => if s_tstep s =? 0 then pyget (b_ip (fst x)) id else at2 (s_p s) (s_tstep s) id
  | None => pyget (b_ip (fst x)) id
  end.
(** 228-236, 248-256 __set_pressure, __set_rate at the current step *)
Definition put_pressure (id : Z) (v : fl) : M ws unit := mset (fun x =>
  let ini := let* row := pyset (b_ip (fst x)) id v in Ok (set_ip row (fst x), snd x) in
  match snd x with
  | Some s => if s_tstep s =? 0 then ini
              else let* rows := set2 (s_p s) (s_tstep s) id v in Ok (fst x, Some (set_p rows s))
  | None => ini
  end).
Definition put_rate (id : Z) (v : fl) : M ws unit := mset (fun x =>
  let ini := let* row := pyset (b_ir (fst x)) id v in Ok (set_ir row (fst x), snd x) in
  match snd x with
  | Some s => if s_tstep s =? 0 then ini
              else let* rows := set2 (s_r s) (s_tstep s) id v in Ok (fst x, Some (set_r rows s))
  | None => ini
  end).

(** wells[id] changed by [f]; KeyError if there is none *)
Definition upd_well (id : Z) (f : bo -> well -> res well) : M ws unit := mset (fun x =>
  let* w := dgetE id (b_wells (fst x)) in
  let* w' := f (fst x) w in
  Ok (set_wells (dset id w' (b_wells (fst x))) (fst x), snd x)).
Definition dappend {A} (id : Z) (v : A) (d : list (Z * list A)) : list (Z * list A) :=
  dset id ((match dget id d with Some l => l | None => [] end) ++ [v])%list d.
(** w_pressures[id].append(self.__get_pressure(...)) *)
Definition log_pressure (id : Z) : M ws unit := mset (fun x =>
  let* p := get_pressure x id in
  Ok (set_wp (dappend id p (b_wp (fst x))) (fst x), snd x)).

Definition with_q (q : F) (w : well) : well :=
  match w with mkWell _ _ a b _ c d e f => mkWell (Some (Some q)) (Some q) a b (Some (Some "q")) c d e f end.
Definition with_pwf (p : F) (w : well) : well :=
  match w with mkWell a b _ _ c d e f g => mkWell a b (Some (Some p)) (Some p) c d e f g end.
Definition with_con (c : option string) (w : well) : well :=
  match w with mkWell a b d e _ f g h i => mkWell a b d e (Some c) f g h i end.
Definition with_r (v : F) (w : well) : well :=
  match w with mkWell a b c d e _ g h i => mkWell a b c d e (Some v) g h i end.
Definition with_s (v : F) (w : well) : well :=
  match w with mkWell a b c d e f _ h i => mkWell a b c d e f (Some v) h i end.
Definition with_req (v : F) (w : well) : well :=
  match w with mkWell a b c d e f g _ i => mkWell a b c d e f g (Some v) i end.
Definition with_G (v : F) (w : well) : well :=
  match w with mkWell a b c d e f g h _ => mkWell a b c d e f g h (Some v) end.
Definition mopt {S A} (v : option A) (f : A -> M S unit) : M S unit :=
  match v with Some a => f a | None => mret tt end.

(** assert cell_id in self.grid.cells_id *)
Definition assert_inside (id : Z) : M ws unit := mread (fun x => passert (zmem id (b_ids (fst x)))).

(** 515-524: the part of set_well common to both forms *)
Definition set_well_tail (id : Z) : M ws unit :=
  do _ <- upd_well id (fun m w => let* r := calc_well_r_eq m id in Ok (with_req r w)) ;;
  do _ <- upd_well id (fun m w => let* G := calc_well_G m id in Ok (with_G G w)) ;;
  do w <- mread (fun x => dgetE id (b_wells (fst x))) ;;
  mwhen (negb (has (w_pwf w)))
    (do _ <- upd_well id (fun _ w => Ok (with_pwf n0 w)) ;; log_pressure id).

(** 487-527 set_well(cell_id=, q=, pwf=, r=, s=) *)
Definition set_well (cell : option Z) (q pwf r s : option F) : M ws unit :=
  match cell with
  | None => mread (fun _ => Err AssertionError)
  | Some id =>
    do _ <- assert_inside id ;;
    do _ <- mset (fun x => Ok (if din id (b_wells (fst x)) then x
                               else (set_wells (dset id well0 (b_wells (fst x))) (fst x), snd x))) ;;
    do _ <- mopt q (fun q => upd_well id (fun _ w => Ok (with_q q w))) ;;
    do _ <- mopt pwf (fun p =>
        do _ <- upd_well id (fun _ w =>
            let w := with_pwf p w in
            Ok (if has (w_q w) then w else with_con (Some "pwf") w)) ;;
        log_pressure id) ;;
    do _ <- upd_well id (fun _ w => Ok (if has (w_con w) then w else with_con None w)) ;;
    do _ <- mopt r (fun r => upd_well id (fun _ w => Ok (with_r r w))) ;;
    do _ <- mopt s (fun s => upd_well id (fun _ w => Ok (with_s s w))) ;;
    set_well_tail id
  end.

(** wells/single_cell.py:15-42: arguments that are false (None, 0) set nothing *)
Record single_cell := mkSC { sc_cell : option Z; sc_q : option F; sc_s : option F; sc_r : option F; sc_con : option string }.
Definition truthy (v : option F) : option F :=
  match v with Some x => if neqb x n0 then None else Some x | None => None end.
Definition single_cell_new (cell : option Z) (q s r : option F) (con : option string) : single_cell :=
  mkSC (match cell with Some 0%Z => None | c => c end) (truthy q) (truthy s) (truthy r) con.
(** 480-486 set_well(well=...): wells[id] = vars(well).  (The dictionary is the
    object's own; later changes of the object are not modelled.) *)
Definition well_of (w : single_cell) : well :=
  mkWell (option_map Some (sc_q w)) None None None (Some (sc_con w)) (sc_r w) (sc_s w) None None.
Definition set_well_obj (w : single_cell) (cell : option Z) : M ws unit :=
  do id <- mread (fun _ => match cell with Some id => Ok id | None => attrE (sc_cell w) end) ;;
  do _ <- assert_inside id ;;
  do _ <- mset (fun x => Ok (set_wells (dset id (well_of w) (b_wells (fst x))) (fst x), snd x)) ;;
  set_well_tail id.

(** ** Boundaries *)
Definition RATE := ["rate"; "q"].
Definition PRESS := ["pressure"; "press"; "p"].
Definition GRAD := ["gradient"; "grad"; "g"].
(** unpacking "((a, b),) = d.items()" *)
Definition the_only {A} (l : list A) : res A := match l with [a] => Ok a | _ => Err ValueError end.
(** 563-570: T * d * v of a gradient boundary *)
Definition grad_rate (m : bo) (idb : Z) (v : F) : res F :=
  let* T := get_cell_trans m idb false in
  let* (id, T) := the_only T in
  let* nb := get_cell_neighbors (bgrid m) idb false in
  match filter (fun a => zmem id (dirs_get a nb)) [AX; AY; AZ] with
  | a :: _ => let* d := pyget (gd m a) id in Ok (nmul (nmul T d) v)
  | [] => Err IndexError
  end.
(** 533-575 set_boundary *)
Definition set_boundary (idb : Z) (cond : string) (v : F) : M ws unit :=
  let cond := lower cond in
  if smem cond RATE then put_rate idb (Some v)
  else if smem cond PRESS then put_pressure idb (Some v)
  else if smem cond GRAD then
    do r <- mread (fun x => grad_rate (fst x) idb v) ;; put_rate idb (Some r)
  else mread (fun _ => Err ValueError).
(** 577-596 set_boundaries: bdict is stored first, bdict_update last *)
Definition set_boundaries (bd : list (Z * (string * F))) : M ws unit :=
  do _ <- mset (fun x => Ok (set_bdict bd (fst x), snd x)) ;;
  do bs <- mread (fun x => get_boundaries_id (bgrid (fst x))) ;;
  do _ <- miter (fun e => match e with (id, (cond, v)) =>
      do _ <- mread (fun _ => passert (zmem id bs)) ;; set_boundary id cond v end) bd ;;
  mset (fun x => Ok (set_bup (map fst (filter (fun e => String.eqb (fst (snd e)) "pressure")
                                              (b_bdict (fst x)))) (fst x), snd x)).
(** 598-614 set_all_boundaries *)
Definition set_all_boundaries (cond : string) (v : F) : M ws unit :=
  do bs <- mread (fun x => get_boundaries_id (bgrid (fst x))) ;;
  miter (fun id => set_boundary id cond v) bs.
End blackoil.
Arguments fl : clear implicits. Arguments well : clear implicits. Arguments lin : clear implicits.
Arguments terms : clear implicits. Arguments bo : clear implicits. Arguments fs : clear implicits.
Arguments single_cell : clear implicits. Arguments ws : clear implicits.
