(** Property theorems (each one a lemma proved in [QueryThm.v]), the assumptions they
    rest on, and for each a concrete case meeting its hypotheses. *)
From Coq Require Import String ZArith Bool Arith Lia List.
From Verif Require Import Prelude GridModel GridSpec CacheModel QueryModel QuerySpec QueryFacts.
Import ListNotations.
From Verif Require Import QueryThm.

(** C127: build any number of grids and ask them get_D, get_fdir, get_shape, get_n,
    get_n_max and get_fshape in any order and any writing of the arguments: every
    answer is the one computed afresh from the sizes of the grid, although the methods
    share small caches among all grids and talk to each other through attributes that
    a repeated (cached) call does not set again. *)
Theorem C127_answers :
  forall l : list op, snd (run world0 l) = plain_run (fun _ => None) l.
Proof. exact L_C127_answers. Qed.
Print Assumptions C127_answers.

Example C127_answers_case :
  snd (run world0 [New 0 3 1 1 true; New 1 2 4 1 false; Ask 0 0 (QN true); Ask 1 0 (QN true); Ask 0 1 (QShape false);
                   Ask 0 0 (QFshape true true); Ask 1 0 (QFshape false false); Ask 0 0 QFdir; New 2 0 1 1 true])
  = [Ok None; Ok None; Ok (Some (Num 5)); Ok (Some (Num 24)); Ok (Some (Shape [3; 1; 1])); Ok (Some (Shape [1; 1; 5; 3]));
     Ok (Some (Shape [4; 2])); Ok (Some (Dir [AX])); Err AssertionError].
Proof. exact ex_C127_answers_case. Qed.

(** C127: the attributes after any session: the flow direction is there and right, the
    number of dimensions is right, and shape, n, n_max and fshape, if they are there,
    hold the answer to one of the possible questions.  What is missing: which one. *)
Theorem C127_attributes_partial :
  forall (l : list op) (i : nat) (g : grid) (a : attrs), objs (fst (run world0 l)) i = Some (g, a) ->
    a_fdir a = Some (get_fdir g) /\
    (forall v, a_D a = Some v -> v = get_D g) /\
    (forall v, a_shape a = Some v -> exists b, v = get_shape g b) /\
    (forall v, a_n a = Some v -> exists b, v = get_n g b) /\
    (forall v, a_nmax a = Some v -> exists b, v = get_n_max g b) /\
    (forall v, a_fshape a = Some v -> exists b p, fresh g (QFshape b p) = Ok (Shape v)).
Proof. exact L_C127_attributes_partial. Qed.
Print Assumptions C127_attributes_partial.

Example C127_attributes_case :
  option_map (fun o => (a_D (snd o), a_fdir (snd o), a_shape (snd o), a_n (snd o)))
    (objs (fst (run world0 [New 0 3 1 1 true; Ask 0 0 (QN true)])) 0)
  = Some (Some 1, Some [AX], Some [5; 1; 1], Some 5).
Proof. exact ex_C127_attributes_case. Qed.

(** C127: the attribute n is not the latest answer of get_n: three queries, the last of
    which answers 3 and leaves 5 in the attribute. *)
Theorem C127_attribute_refuted :
  exists (l : list op) (i how : nat) (b : bool) (g : grid) (a : attrs) (v v' : nat),
    objs (fst (run world0 (l ++ [Ask i how (QN b)]))) i = Some (g, a) /\
    last (snd (run world0 (l ++ [Ask i how (QN b)]))) (Ok None) = Ok (Some (Num v)) /\ a_n a = Some v' /\ v <> v'.
Proof. exact L_C127_attribute_refuted. Qed.
Print Assumptions C127_attribute_refuted.
