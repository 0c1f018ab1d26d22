(** Property theorems (each one a lemma proved in [ScalerThm.v]), the assumptions they
    rest on, and for each a concrete case meeting its hypotheses. *)
From Coq Require Import String ZArith Reals Bool Lra Lia List.
From Verif Require Import Prelude PreludeFacts Num UnitsModel ScalerModel ScalerSpec.
Import ListNotations.
Local Open Scope string_scope.
Local Open Scope R_scope.
From Verif Require Import ScalerThm.
Local Open Scope string_scope.
Local Open Scope R_scope.

(** Scaling is invertible in both directions, and the ends of the input range
    go to the ends of the output range. *)
Theorem C66_invertible :
  forall (Vlo Vhi : R) (lo hi : rng R) (v : nda R),
  Vlo <> Vhi -> proper_range lo hi -> fits v lo -> fits v hi -> proper v ->
  let m := mm_new (Vlo, Vhi) (Some (lo, hi)) in
  (exists w, mm_transform m v = Ok w /\ mm_inverse m w = Ok v /\
     forall i, (i < length (nd_data v))%nat ->
       let c := Nat.modulo i (last (nd_shape v) 1%nat) in
       (entry v i = end_at lo c -> entry w i = Vlo) /\ (entry v i = end_at hi c -> entry w i = Vhi)) /\
  (exists w, mm_inverse m v = Ok w /\ mm_transform m w = Ok v).
Proof. exact L_C66_invertible. Qed.
Print Assumptions C66_invertible.

Example C66_hyps :
  proper_range (RV [0; 1]) (RV [2; 3]) /\ fits (mkNda [2%nat; 2%nat] [0; 1; 2; 3]) (RV [0; 1]) /\
  proper (mkNda [2%nat; 2%nat] [0; 1; 2; 3]).
Proof. exact ex_C66_hyps. Qed.

(** After a fit, transforming the fitted data stays inside the output range,
    attains both of its ends and keeps the order, column by column for axis=0. *)
Theorem C67_range :
  forall (m m' : minmax R) (v : nda R) (axis0 : bool),
  proper v -> Vmin m < Vmax m -> mm_fit m v axis0 = (m', Ok tt) ->
  exists w, mm_transform m' v = Ok w /\ nd_shape w = nd_shape v /\ length (nd_data w) = length (nd_data v) /\
  forall i j, (i < length (nd_data v))%nat -> (j < length (nd_data v))%nat -> same_range axis0 (nd_shape v) i j ->
  entry v i < entry v j ->
  entry w i < entry w j /\ Vmin m <= entry w i /\ entry w j <= Vmax m /\
  (exists k, (k < length (nd_data v))%nat /\ same_range axis0 (nd_shape v) i k /\ entry w k = Vmin m) /\
  (exists k, (k < length (nd_data v))%nat /\ same_range axis0 (nd_shape v) i k /\ entry w k = Vmax m).
Proof. exact L_C67_range. Qed.
Print Assumptions C67_range.

Example C67_hyps : exists m', mm_fit (mkMM (-1) 1 None None) (mkNda [2%nat; 2%nat] [0; 5; 3; 4]) true = (m', Ok tt) /\
  proper (mkNda [2%nat; 2%nat] [0; 5; 3; 4]) /\ same_range true [2%nat; 2%nat] 0 2.
Proof. exact ex_C67_hyps. Qed.

(** An unfitted MinMax raises on transform and inverse_transform; a fitted one
    never does on arrays with the fitted number of columns; Dummy is the identity. *)
Theorem C68_fitted :
  forall (range : R * R) (calls : list scall) (v : nda R),
  let s := fold_left sstep calls (MinMax (mm_new range None)) in
  match last_fit calls with
  | None => sc_transform s v = Err ValueError /\ sc_inverse s v = Err ValueError
  | Some f => scalable f v -> (exists w, sc_transform s v = Ok w) /\ (exists w, sc_inverse s v = Ok w)
  end /\
  (let d := fold_left sstep calls Dummy in d = Dummy /\ sc_transform d v = Ok v /\ sc_inverse d v = Ok v).
Proof. exact L_C68_fitted. Qed.
Print Assumptions C68_fitted.

Example C68_hyps :
  last_fit [SFit (mkNda [0%nat] []) true; SFitTrans (mkNda [2%nat] [1; 2]) true; SOut (0, 2)] = Some (mkNda [2%nat] [1; 2], true)
  /\ last_fit [SFit (mkNda [0%nat] []) true; STrans (mkNda [1%nat] [0])] = None
  /\ scalable (mkNda [2%nat] [1; 2], true) (mkNda [3%nat] [1; 5; 7]).
Proof. exact ex_C68_hyps. Qed.

(** set_scalers with names other than "all": it succeeds exactly if every name
    is known and every entry asks for an existing scaler, and then each
    quantity has the scaler of the last entry naming it, or the old one. *)
Theorem C69_set_scalers_partial :
  forall (d : list (string * conf R)) (s : scalers R),
  (forall k c, In (k, c) d -> lower k <> "all") ->
  let good := forallb (fun kc => match quantity_of (lower (fst kc)) with Some _ => known_type (snd kc) | None => false end) d in
  (good = true -> exists s', set_scalers s d = (s', Ok tt) /\ forall q,
     scaler_of s' q = (match deciding d q with Some c => wanted c | None => scaler_of s q end) /\
     sget (qname q) (scalers_dict s') = (match deciding d q with Some c => Some (wanted_name c) | None => sget (qname q) (scalers_dict s) end)) /\
  (good = false -> snd (set_scalers s d) = Err ValueError).
Proof. exact L_C69_set_scalers_partial. Qed.
Print Assumptions C69_set_scalers_partial.

Example C69_hyps :
  let d : list (string * conf R) := [("Time", (Some "MinMax", Some (0, 1))); ("P", (None, None)); ("t", (Some "minmaxscaler", Some (2, 3)))] in
  forallb (fun kc => match quantity_of (lower (fst kc)) with Some _ => known_type (snd kc) | None => false end) d = true /\
  deciding d QTime = Some (Some "minmaxscaler", Some (2, 3)) /\ deciding d QRate = None.
Proof. exact ex_C69_hyps. Qed.

(** "all" sets only the time scaler. *)
Theorem C69_all_refuted :
  exists (s s' : scalers R) (c : conf R),
  set_scalers s [("all", c)] = (s', Ok tt) /\ known_type c = true /\
  scaler_of s' QTime = wanted c /\
  forall q, q <> QTime -> scaler_of s' q = scaler_of s q /\ scaler_of s' q <> wanted c.
Proof. exact L_C69_all_refuted. Qed.
Print Assumptions C69_all_refuted.
