(** Independent vocabulary for the properties of compile and set_solution. *)
From Coq Require Import String ZArith Bool List.
From Verif Require Import Prelude UnitsModel CompileModel.
Import ListNotations.
Local Open Scope string_scope.

(** The names of the analytical methods are built from the number of
    dimensions and of phases. *)
Definition digit (i : nat) : string :=
  match i with 1 => "1" | 2 => "2" | 3 => "3" | _ => "" end.
Definition upper_name (i j : nat) : string := "D" ++ digit i ++ "P" ++ digit j.
Definition canon_name (i j : nat) : string := "d" ++ digit i ++ "p" ++ digit j.
Definition short_name (i j : nat) : string := digit i ++ "d" ++ digit j ++ "p".
Definition dash_name (i j : nat) : string := digit i ++ "-dimension-" ++ digit j ++ "-phase".
Definition flat_name (i j : nat) : string := digit i ++ "dimension" ++ digit j ++ "phase".

(** Lower-case names [t] of a solution type [T]. *)
Inductive type_name : string -> string -> Prop :=
| tn_n : forall t, In t ["n"; "num"; "numerical"] -> type_name "numerical" t
| tn_a : forall t, In t ["a"; "ana"; "analytical"] -> type_name "analytical" t
| tn_nn : forall t, In t ["nn"; "neu"; "neurical"] -> type_name "neurical" t.
(** Lower-case names [n] of method [M] of type [T] (short names apart). *)
Inductive method_name : string -> string -> string -> Prop :=
| mn_num : forall M a b, In (M, a, b) [("FDM", "fdm", "difference"); ("FVM", "fvm", "volume"); ("FEM", "fem", "element")] ->
    forall n, In n [a; "finite " ++ b ++ " method"; "finite-" ++ b ++ "-method"] -> method_name "numerical" M n
| mn_ana : forall i j n, 1 <= i <= 3 -> 1 <= j <= 3 ->
    In n [canon_name i j; dash_name i j; flat_name i j] -> method_name "analytical" (upper_name i j) n
| mn_pinn : forall n, In n ["pinn"; "physics informed neural network"; "physics-informed-neural-network"] ->
    method_name "neurical" "PINN" n
| mn_don : forall n, In n ["deeponet"; "deep operator network"; "deep-operator-network"] ->
    method_name "neurical" "DeepONet" n.
(** The short names that work. *)
Definition short_works (i j : nat) : Prop := i = 1 \/ j = 1.
(** The pair of arguments (in lower case) denotes method [M] of type [T]. *)
Definition denotes (T M : string) (t n : string) : Prop :=
  type_name T t /\
  (method_name T M n \/
   (T = "analytical" /\ exists i j, 1 <= i <= 3 /\ 1 <= j <= 3 /\ short_works i j /\ M = upper_name i j /\ n = short_name i j)).
(** What the constructor of a compiler makes of the two names. *)
Definition resolve (stype method : string) : res (string * string) :=
  match set_stype stype with
  | Err e => Err e
  | Ok T => match set_method T method with Ok M => Ok (T, M) | Err e => Err e end
  end.

(** Operations on a model. *)
Inductive mop := MCompile (stype method : string) (sparse : parg) | MSet (name : string) | MRun (x : nat).
Definition mexec (m : mobj) (o : mop) : mobj * res unit :=
  match o with
  | MCompile s n b => compile m s n b
  | MSet n => set_solution m n
  | MRun x => (run m x, Ok tt)
  end.
Definition mexec_all (m : mobj) (l : list mop) : mobj := fold_left (fun m o => fst (mexec m o)) l m.

(** The intended behaviour, without references: every key (type, method,
    sparse) has at most one history, one key is active; compiling a key starts
    a new history for it; running extends the history of the active key. *)
Definition key : Type := string * string * bool.
Definition key_eqb (a b : key) : bool :=
  let '(a1, a2, a3) := a in let '(b1, b2, b3) := b in
  (String.eqb a1 b1 && String.eqb a2 b2 && Bool.eqb a3 b3)%bool.
Definition key_name (model : string) (k : key) : string :=
  let '(t, m, b) := k in model ++ "-" ++ t ++ "-" ++ m ++ "-" ++ (if b then "True" else "False").
Record intended := mkInt { i_hist : key -> option (list nat); i_active : option key }.
Definition i0 : intended := mkInt (fun _ => None) None.
Definition available (m : string) : bool := smem m ["FDM"; "D1P1"].
(** The key a compile call creates, if it succeeds. *)
Definition compiled_key (o : mop) : option key :=
  match o with
  | MCompile s n (PBool b) => match resolve s n with
                              | Ok (T, M) => if available M then Some (T, M, b) else None
                              | Err _ => None end
  | _ => None
  end.
(** One intended step. *)
Definition istep (model : string) (i : intended) (o : mop) (i' : intended) : Prop :=
  match o with
  | MCompile _ _ _ =>
      match compiled_key o with
      | Some k => i' = mkInt (fun k' => if key_eqb k' k then Some [] else i_hist i k') (Some k)
      | None => i' = i
      end
  | MSet n =>
      (exists k, key_name model k = n /\ i_hist i k <> None /\ i' = mkInt (i_hist i) (Some k)) \/
      (~ (exists k, key_name model k = n /\ i_hist i k <> None) /\ i' = i)
  | MRun x =>
      match i_active i with
      | None => i' = i
      | Some k => exists h, i_hist i k = Some h /\
                  i' = mkInt (fun k' => if key_eqb k' k then Some (h ++ [x])%list else i_hist i k') (Some k)
      end
  end.
Inductive iruns (model : string) : intended -> list mop -> intended -> Prop :=
| ir_nil : forall i, iruns model i [] i
| ir_cons : forall i o i' l i'', istep model i o i' -> iruns model i' l i'' -> iruns model i (o :: l) i''.

(** What a caller sees of a model: which compiler is active, the history of
    model.solution and of the object behind model.run, and the list of names. *)
Definition sees (m : mobj) (i : intended) : Prop :=
  match i_active i with
  | None => compiler_ m = None /\ solution m = None /\ bound m = None
  | Some (t, me, b) =>
      compiler_ m = Some (mkComp t me b) /\
      exists r h, solution m = Some r /\ bound m = Some r /\ i_hist i (t, me, b) = Some h /\
        nth_error (sols m) r = Some (mkSol me b h)
  end /\
  (forall k, i_hist i k <> None -> In (key_name (m_name m) k) (get_solutions m)) /\
  (forall n, In n (get_solutions m) -> exists k, n = key_name (m_name m) k /\ i_hist i k <> None).
