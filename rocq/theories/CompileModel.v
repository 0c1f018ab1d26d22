(** Model of Compiler (/repo/reservoirflow/solutions/compiler.py) and of the
    compile / set_solution part of Model (/repo/reservoirflow/models/model.py).
    Definitions only. *)
From Coq Require Import String ZArith Bool List.
From Verif Require Import Prelude UnitsModel.
Import ListNotations.
Set Implicit Arguments.
Local Open Scope string_scope.

(** compiler.py:1-5 STYPES *)
Definition STYPES : list (string * list string) := [
  ("numerical", ["n"; "num"; "numerical"]);
  ("analytical", ["a"; "ana"; "analytical"]);
  ("neurical", ["nn"; "neu"; "neurical"])].

(** compiler.py:7-36 METHODS, each list with the value __set_method gives to
    self.method (compiler.py:174-225), in the order of the tests. *)
Definition METHODS : list (string * list (string * list string)) := [
  ("numerical", [
    ("FDM", ["fdm"; "finite difference method"; "finite-difference-method"]);
    ("FVM", ["fvm"; "finite volume method"; "finite-volume-method"]);
    ("FEM", ["fem"; "finite element method"; "finite-element-method"])]);
  ("analytical", [
    ("D1P1", ["d1p1"; "1d1p"; "1-dimension-1-phase"; "1dimension1phase"]);
    ("D1P2", ["d1p2"; "1d2p"; "1-dimension-2-phase"; "1dimension2phase"]);
    ("D1P3", ["d1p3"; "1d3p"; "1-dimension-3-phase"; "1dimension3phase"]);
    ("D2P1", ["d2p1"; "2d1p"; "2-dimension-1-phase"; "2dimension1phase"]);
    ("D2P2", ["d2p2"; "2d1p"; "2-dimension-2-phase"; "2dimension2phase"]);
    ("D2P3", ["d2p3"; "2d1p"; "2-dimension-3-phase"; "2dimension3phase"]);
    ("D3P1", ["d3p1"; "3d1p"; "3-dimension-1-phase"; "3dimension1phase"]);
    ("D3P2", ["d3p2"; "3d1p"; "3-dimension-2-phase"; "3dimension2phase"]);
    ("D3P3", ["d3p3"; "3d1p"; "3-dimension-3-phase"; "3dimension3phase"])]);
  ("neurical", [
    ("PINN", ["pinn"; "physics informed neural network"; "physics-informed-neural-network"]);
    ("DeepONet", ["deeponet"; "deep operator network"; "deep-operator-network"])])].

(** A chain of [if name.lower() in TABLE[k]: self.x = k elif ... else raise ValueError]. *)
Fixpoint first_in (name : string) (t : list (string * list string)) : res string :=
  match t with
  | [] => Err ValueError
  | (k, l) :: t' => if smem (lower name) l then Ok k else first_in name t'
  end.
(** compiler.py:161-172 __set_stype *)
Definition set_stype (stype : string) : res string := first_in stype STYPES.
(** compiler.py:174-225 __set_method *)
Definition set_method (stype method : string) : res string :=
  match sget stype METHODS with Some t => first_in method t | None => Err ValueError end.

(** The argument sparse: a bool or anything else. *)
Inductive parg := PBool (b : bool) | POther.

(** Attributes of a Compiler. *)
Record compiler := mkComp { k_stype : string; k_method : string; k_sparse : bool }.

(** A solution object: its class and what its run() calls did to it so far.
    (The numerical content of the history is modelled elsewhere; here a run is
    any label appended to the object's own history.) *)
Record sol := mkSol { s_class : string; s_sparse : bool; s_hist : list nat }.

(** compiler.py:86-159 __add_solution: FDM and D1P1 inherit or call
    Solution.__init__ (solution.py:19-38); the constructors of the other
    classes take keyword arguments only, so the positional call raises
    TypeError (e.g. solutions/numerical/fvm.py, analytical/d1p2.py,
    neurical/pinn.py). *)
Definition construct (method : string) (sparse : bool) : res sol :=
  if smem method ["FDM"; "D1P1"] then Ok (mkSol method sparse []) else Err TypeError.

(** The model object: [sols] is the heap of solution objects, references are
    positions; [bound] is the object whose solve and run are model.solve and
    model.run (None: the methods of class Model). *)
Record mobj := mkMobj {
  m_name : string;
  sols : list sol;
  solution : option nat;
  solutions : list (string * nat);
  compiler_ : option compiler;
  compilers : list (string * compiler);
  bound : option nat }.
(** model.py:28-52 *)
Definition model_new (name : string) : mobj := mkMobj name [] None [] None [] None.

(** compiler.py:238-244 __str__ *)
Definition py_bool (b : bool) : string := if b then "True" else "False".
Definition comp_str (m : mobj) (k : compiler) : string :=
  m_name m ++ "-" ++ k_stype k ++ "-" ++ k_method k ++ "-" ++ py_bool (k_sparse k).

(** compiler.py:50-84 Compiler.__init__: sets model.solution. *)
Definition compiler_new (m : mobj) (stype method : string) (sparse : parg) : mobj * res compiler :=
  match sparse with
  | POther => (m, Err ValueError)
  | PBool b =>
      match set_stype stype with
      | Err e => (m, Err e)
      | Ok st =>
          match set_method st method with
          | Err e => (m, Err e)
          | Ok me =>
              match construct me b with
              | Err e => (m, Err e)
              | Ok s => (mkMobj (m_name m) (sols m ++ [s]) (Some (length (sols m))) (solutions m)
                           (compiler_ m) (compilers m) (bound m), Ok (mkComp st me b))
              end
          end
      end
  end.
(** model.py:77-115 compile *)
Definition compile (m : mobj) (stype method : string) (sparse : parg) : mobj * res unit :=
  match compiler_new m stype method sparse with
  | (m, Err e) => (m, Err e)
  | (m, Ok k) =>
      match solution m with
      | None => (m, Err AttributeError)
      | Some r =>
          (mkMobj (m_name m) (sols m) (solution m) (sset (comp_str m k) r (solutions m))
             (Some k) (sset (comp_str m k) k (compilers m)) (Some r), Ok tt)
      end
  end.
(** model.py:118-125 set_solution *)
Definition set_solution (m : mobj) (name : string) : mobj * res unit :=
  match sget name (solutions m) with
  | Some r =>
      match sget name (compilers m) with
      | Some k => (mkMobj (m_name m) (sols m) (Some r) (solutions m) (Some k) (compilers m) (Some r), Ok tt)
      | None => (mkMobj (m_name m) (sols m) (Some r) (solutions m) (compiler_ m) (compilers m) (bound m), Err KeyError)
      end
  | None => (m, Err ValueError)
  end.
(** model.py:127 get_solutions *)
Definition get_solutions (m : mobj) : list string := map fst (solutions m).
(** model.run(...): changes the bound object's history; before compile the
    method of class Model prints and returns (model.py:130-162). *)
Definition run (m : mobj) (x : nat) : mobj :=
  match bound m with
  | None => m
  | Some r =>
      match nth_error (sols m) r with
      | None => m
      | Some s => mkMobj (m_name m) (upd (sols m) r (mkSol (s_class s) (s_sparse s) (s_hist s ++ [x])))
                    (solution m) (solutions m) (compiler_ m) (compilers m) (bound m)
      end
  end.
