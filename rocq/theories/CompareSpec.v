(** Comparing two simulations: vocabulary. *)
From Coq Require Import String ZArith Bool Arith List Reals.
From Verif Require Import Prelude Num GridModel GridSpec GeoModel PropModel BlackOilModel FdmModel HistSpec ModelSpec SolverSpec SolveSpec BalanceSpec LocalSpec.
Import ListNotations.
Close Scope R_scope.
Open Scope nat_scope.

(** Every interior pressure of the first row is at least [c] below the second's. *)
Definition below (m : bo R) (c : R) (r1 r2 : list (fl R)) : Prop :=
  forall id, In id (b_ids m) -> exists v1 v2, value r1 id = Some v1 /\ value r2 id = Some v2 /\ (v1 + c <= v2)%R.
(** A well controlled by rate [q]; by pressure [p], with productivity [G]. *)
Definition at_rate (w : well R) (q : R) : Prop := w_con w = Some (Some "q"%string) /\ w_qsp w = Some q.
Definition at_bhp (w : well R) (G p : R) : Prop := w_con w = Some (Some "pwf"%string) /\ w_pwfsp w = Some p /\ w_G w = Some G.
(** The wells of the first model take out more (or put in less) than those of the
    second: cell by cell the same mode, a smaller rate, a pressure at least [c]
    smaller; or a well of one model only, producing in the first, injecting in the
    second. *)
Definition wells_below (c : R) (m1 m2 : bo R) : Prop :=
  forall id, match dget id (b_wells m1), dget id (b_wells m2) with
  | Some w1, Some w2 =>
      (exists q1 q2, at_rate w1 q1 /\ at_rate w2 q2 /\ (q1 <= q2)%R) \/
      (exists G p1 p2, at_bhp w1 G p1 /\ at_bhp w2 G p2 /\ (0 <= G)%R /\ (p1 + c <= p2)%R)
  | Some w1, None => exists q1, at_rate w1 q1 /\ (q1 <= 0)%R
  | None, Some w2 => exists q2, at_rate w2 q2 /\ (0 <= q2)%R
  | None, None => True
  end.
(** The rate of a condition on a boundary cell that prescribes a rate or a gradient. *)
Definition rate_given (m : bo R) (idb : Z) (e : string * R) (r : R) : Prop :=
  (smem (lower (fst e)) RATE = true /\ r = snd e) \/ (smem (lower (fst e)) GRAD = true /\ gradient_rate m idb (snd e) r).
(** The same for the boundary conditions. *)
Definition conditions_below (c : R) (m1 m2 : bo R) : Prop :=
  forall idb, match dget idb (b_bdict m1), dget idb (b_bdict m2) with
  | Some e1, Some e2 =>
      (fst e1 = "pressure"%string /\ fst e2 = "pressure"%string /\ (snd e1 + c <= snd e2)%R) \/
      (exists r1 r2, rate_given m1 idb e1 r1 /\ rate_given m2 idb e2 r2 /\ (r1 <= r2)%R)
  | Some e1, None => exists r1, rate_given m1 idb e1 r1 /\ (r1 <= 0)%R
  | None, Some e2 => exists r2, rate_given m2 idb e2 r2 /\ (0 <= r2)%R
  | None, None => True
  end.
Definition controls_below (c : R) (m1 m2 : bo R) : Prop := wells_below c m1 m2 /\ conditions_below c m1 m2.
(** Something holds the level of the pressures: a well controlled by pressure, or
    a boundary at given pressure. *)
Definition anchored (m : bo R) : Prop :=
  (exists id w G p, dget id (b_wells m) = Some w /\ at_bhp w G p /\ (0 < G)%R) \/
  (exists idb v, In (idb, ("pressure"%string, v)) (b_bdict m)).
(** Solves by the same path, one by one. *)
Definition same_path (c1 c2 : call R) : Prop :=
  match c1, c2 with Solve _ _ _ _ o1, Solve _ _ _ _ o2 => o_vect o1 = o_vect o2 | _, _ => False end.
(** A simulation: a model built, set up, and solved step by step. *)
Definition simulated (g : gobj R) f unit pi dt l1 ob l2 steps (m0 m : bo R) (s : fs R) : Prop :=
  bo_new g f unit pi dt = Ok m0 /\ plain m0 l1 ob l2 /\
  all_ok (m0, None) (setup l1 ob l2 ++ Compile :: steps) /\
  along balanced_step (after (m0, None) (setup l1 ob l2 ++ [Compile])) steps /\
  after (m0, None) (setup l1 ob l2 ++ Compile :: steps) = (m, Some s).
(** The model when it is set up. *)
Definition prepared (m0 : bo R) l1 ob l2 : bo R := fst (after (m0, None) (setup l1 ob l2)).
(** Every condition on a boundary cell is a pressure, a rate or a gradient. *)
Definition conditioned (m : bo R) : Prop :=
  forall e, In e (b_bdict m) -> fst (snd e) = "pressure"%string \/ smem (lower (fst (snd e))) RATE = true \/ smem (lower (fst (snd e))) GRAD = true.
(** All cells, boundary cells too, are at one height. *)
Definition flat (m : bo R) : Prop := exists zs h, gz m = Ok zs /\ Forall (fun v => v = h) zs.
(** Nothing pushes the pressures above [M]: wells produce or are controlled by a
    pressure of at most [M], boundaries let out or are at a pressure of at most [M]. *)
Definition pushed_at_most (M : R) (m : bo R) : Prop :=
  (forall id w, dget id (b_wells m) = Some w -> (exists q, at_rate w q /\ (q <= 0)%R) \/ (exists G p, at_bhp w G p /\ (0 <= G)%R /\ (p <= M)%R)) /\
  (forall idb e, In (idb, e) (b_bdict m) -> (fst e = "pressure"%string /\ (snd e <= M)%R) \/ exists r, rate_given m idb e r /\ (r <= 0)%R).
(** Nothing draws them below [M]. *)
Definition drawn_at_least (M : R) (m : bo R) : Prop :=
  (forall id w, dget id (b_wells m) = Some w -> (exists q, at_rate w q /\ (0 <= q)%R) \/ (exists G p, at_bhp w G p /\ (0 <= G)%R /\ (M <= p)%R)) /\
  (forall idb e, In (idb, e) (b_bdict m) -> (fst e = "pressure"%string /\ (M <= snd e)%R) \/ exists r, rate_given m idb e r /\ (0 <= r)%R).
Definition at_most (m : bo R) (M : R) (r : list (fl R)) : Prop := forall id, In id (b_ids m) -> exists v, value r id = Some v /\ (v <= M)%R.
Definition at_least (m : bo R) (M : R) (r : list (fl R)) : Prop := forall id, In id (b_ids m) -> exists v, value r id = Some v /\ (M <= v)%R.
(** Every well is controlled by a rate, or by a pressure with a productivity that is
    not negative. *)
Definition operated (m : bo R) : Prop :=
  forall id w, dget id (b_wells m) = Some w -> (exists q, at_rate w q) \/ (exists G p, at_bhp w G p /\ (0 <= G)%R).
(** No control is a pressure. *)
Definition rates_only (m : bo R) : Prop :=
  (forall id w, dget id (b_wells m) = Some w -> exists q, at_rate w q) /\ (forall e, In e (b_bdict m) -> fst (snd e) <> "pressure"%string).
(** Two rows have the same interior pressures. *)
Definition same_pressures (m : bo R) (r1 r2 : list (fl R)) : Prop :=
  forall id, In id (b_ids m) -> exists v, value r1 id = Some v /\ value r2 id = Some v.
(** They differ by at most [d]. *)
Definition near (m : bo R) (d : R) (r1 r2 : list (fl R)) : Prop :=
  forall id, In id (b_ids m) -> exists v1 v2, value r1 id = Some v1 /\ value r2 id = Some v2 /\ (Rabs (v1 - v2) <= d)%R.
(** The second is the first shifted by [d]. *)
Definition shifted (m : bo R) (d : R) (r1 r2 : list (fl R)) : Prop :=
  forall id, In id (b_ids m) -> exists v, value r1 id = Some v /\ value r2 id = Some (v + d)%R.
