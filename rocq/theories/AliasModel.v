(** Model of the arrays shared between BlackOil models through the memoised
    RegularCartesian.get_zeros.  Arrays live in a heap; a grid is a number,
    [sz g b] its number of cells.  Definitions only. *)
From Coq Require Import ZArith Bool Arith List.
From Verif Require Import Prelude Num CacheModel.
Import ListNotations.
Set Implicit Arguments.

Section alias.
Context {F : Type} {NF : Num F}.
Variable sz : nat -> bool -> nat.

(** Key of get_zeros(boundary, False, False): grid and boundary. *)
Definition zkey : Type := (nat * bool)%type.
Definition zkey_eqb (k l : zkey) : bool := (fst k =? fst l) && Bool.eqb (snd k) (snd l).

(** [heap]: arrays by address; [zcache]: the cache of get_zeros; [models]: grid
    and address of init_rates of every model; [sols]: model and rates of every
    compiled solution. *)
Record world := mkWorld {
  heap : list (list F); zcache : cache zkey nat; models : list (nat * nat);
  sols : list (nat * list F) }.
Definition world0 : world := mkWorld [] [] [] [].

(** regular_cartesian.py:467-507 get_zeros (fshape and sparse False): maxsize 1;
    a miss allocates a new array of zeros. *)
Definition get_zeros (w : world) (g : nat) (b : bool) : world * nat :=
  match cfind zkey_eqb (g, b) (zcache w) with
  | Some a => (mkWorld (heap w) (chit zkey_eqb (g, b) a (zcache w)) (models w) (sols w), a)
  | None =>
      let a := length (heap w) in
      (mkWorld (heap w ++ [repeat n0 (sz g b)]) (cstore (Some 1) (g, b) a (zcache w)) (models w) (sols w), a)
  end.

Inductive aop :=
| ANew (g : nat)                        (* BlackOil(grid g, ...) *)
| ACompile (m : nat)                    (* model m .compile(..., "FDM") *)
| ASetRate (m : nat) (id : Z) (v : F)   (* a rate boundary set at tstep 0 *)
| AZeros (g : nat) (b : bool).          (* any other call of get_zeros *)

(** black_oil.py:144, 196-200: rates = get_zeros(..)[np.newaxis] is a view;
    solution.py:35, black_oil.py:202-210: compile copies, then FDM.__init__
    calls get_zeros(False) (fdm.py:54); black_oil.py:248-250 __set_rate. *)
Definition astep (w : world) (p : aop) : world :=
  match p with
  | ANew g => let (w', a) := get_zeros w g true in
              mkWorld (heap w') (zcache w') (models w' ++ [(g, a)]) (sols w')
  | ACompile m =>
      match nth_error (models w) m with
      | Some (g, a) =>
          let (w', _) := get_zeros w g false in
          mkWorld (heap w') (zcache w') (models w') (sols w' ++ [(m, nth a (heap w) [])])
      | None => w
      end
  | ASetRate m id v =>
      match nth_error (models w) m with
      | Some (_, a) =>
          match pyset (nth a (heap w) []) id v with
          | Ok l => mkWorld (upd (heap w) a l) (zcache w) (models w) (sols w)
          | Err _ => w
          end
      | None => w
      end
  | AZeros g b => fst (get_zeros w g b)
  end.
Definition arun (w : world) (l : list aop) : world := fold_left astep l w.
(** model.init_rates[0] *)
Definition init_rates (w : world) (m : nat) : option (list F) :=
  option_map (fun p => nth (snd p) (heap w) []) (nth_error (models w) m).
End alias.
