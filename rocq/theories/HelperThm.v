(** Property lemmas about the array helpers (see P_Helper.v). *)
From Coq Require Import String ZArith Bool Arith Lia List.
From Verif Require Import Prelude PreludeFacts HelperModel.
Import ListNotations.

Lemma isin_In x a : isin x a = true <-> In x (a_rows a).
Proof.
  unfold isin. rewrite existsb_exists. unfold row_eqb. split.
  - intros (r & H & E). destruct (list_eq_dec Z.eq_dec r x); [now subst|discriminate].
  - intros H. exists x. split; [exact H|]. now destruct (list_eq_dec Z.eq_dec x x).
Qed.

(** intersection contains exactly the common rows, without changing their
    number of repetitions if no input repeats a row; unknown formats raise. *)
Lemma L_C78_intersection :
  forall (x y : arr2) (fmt : string),
  (In fmt ["tuple"; "list"; "array"]%string ->
     exists r, intersection x y fmt = Ok r /\ (forall a, In a r <-> In a (a_rows x) /\ In a (a_rows y)) /\
     (NoDup (a_rows x) -> NoDup (a_rows y) -> NoDup r)) /\
  (~ In fmt ["tuple"; "list"; "array"]%string -> intersection x y fmt = Err ValueError).
Proof.
  intros x y fmt. unfold intersection. split; intros H.
  - set (r := if Nat.leb _ _ then _ else _). exists r. split; [|split].
    + cbn in H. destruct H as [<-|[<-|[<-|[]]]]; reflexivity.
    + intros a. unfold r. destruct (Nat.leb _ _); rewrite filter_In, isin_In; tauto.
    + intros Hx Hy. unfold r. destruct (Nat.leb _ _); now apply NoDup_filter.
  - destruct (smem fmt ["tuple"; "list"]%string) eqn:E1.
    + exfalso. apply H. apply smem_In in E1. cbn in *. tauto.
    + destruct (String.eqb_spec fmt "array"); [|reflexivity]. exfalso. apply H. subst. cbn. tauto.
Qed.
Example ex_C78_run :
  intersection (mkArr2 3 [[1; 0; 0]; [2; 0; 0]; [3; 0; 0]; [4; 0; 0]]%Z) (mkArr2 3 [[4; 0; 0]; [0; 1; 0]; [2; 0; 0]]%Z) "list"%string
  = Ok [[4; 0; 0]; [2; 0; 0]]%Z.
Proof. reflexivity. Qed.

Lemma filter_off {A} (l : list A) i k :
  map snd (filter (fun jx => negb (Nat.eqb i (fst jx))) (combine (seq k (length l)) l)) =
  if (Nat.leb k i && Nat.ltb i (k + length l))%bool then firstn (i - k) l ++ skipn (S (i - k)) l else l.
Proof.
  revert k. induction l as [|a l IH]; intros k; cbn [length seq combine filter map].
  - rewrite firstn_nil. now destruct (_ && _)%bool.
  - cbn [fst]. destruct (Nat.eqb_spec i k) as [->|N]; cbn [negb].
    + rewrite IH. assert (E : Nat.leb (S k) k = false) by (apply Nat.leb_gt; lia). rewrite E, Nat.leb_refl, Nat.sub_diag.
      destruct (Nat.ltb_spec k (k + S (length l))); [reflexivity|lia].
    + cbn [map snd]. rewrite IH. destruct (Nat.leb_spec (S k) i), (Nat.leb_spec k i); cbn [andb]; try lia; auto.
      replace (k + S (length l)) with (S k + length l) by lia.
      destruct (Nat.ltb_spec i (S k + length l)); [|reflexivity].
      replace (i - k) with (S (i - S k)) by lia. reflexivity.
Qed.
Definition drop_at {A} (i : nat) (l : list A) : list A := firstn i l ++ skipn (S i) l.
Lemma off_diag_rows {A} (rows : list (list A)) :
  (forall r, In r rows -> length r = length rows) ->
  off_diag rows = flat_map (fun i => drop_at i (nth i rows [])) (seq 0 (length rows)).
Proof.
  intros H. unfold off_diag.
  assert (G : forall (rs : list (list A)) k, (forall r, In r rs -> length r = k + length rs) -> 
    flat_map (fun ir => map snd (filter (fun jx => negb (Nat.eqb (fst ir) (fst jx)))
       (combine (seq 0 (length (snd ir))) (snd ir)))) (combine (seq k (length rs)) rs) =
    flat_map (fun i => drop_at i (nth (i - k) rs [])) (seq k (length rs))).
  { induction rs as [|r rs IH]; intros k Hr; cbn [length seq combine flat_map]; auto. f_equal.
    - cbn [fst snd]. rewrite filter_off. rewrite Nat.sub_diag. cbn [nth]. specialize (Hr r (or_introl eq_refl)). cbn in Hr.
      destruct (Nat.leb_spec 0 k); [|lia]. destruct (Nat.ltb_spec k (0 + length r)); [|lia]. cbn [andb]. now rewrite Nat.sub_0_r.
    - rewrite IH; [|intros r' Hr'; rewrite (Hr r' (or_intror Hr')); cbn; lia].
      apply flat_map_ext_in. intros i Hi. apply in_seq in Hi. replace (i - k) with (S (i - S k)) by lia. reflexivity. }
  rewrite (G rows 0) by (intros; cbn; auto). apply flat_map_ext_in. intros i _. now rewrite Nat.sub_0_r.
Qed.

(** remove_diag of a square matrix drops the i-th entry of the i-th row;
    entry by entry, column j of the result is column j or j+1 of the input. *)
Lemma L_C79_remove_diag :
  forall (A : Type) (rows : list (list A)) (n : nat) (d : A),
  0 < n -> length rows = n -> (forall r, In r rows -> length r = n) ->
  exists out, remove_diag rows = Ok out /\ length out = n /\
  forall i, i < n -> length (nth i out []) = n - 1 /\
  forall j, j < n - 1 -> nth j (nth i out []) d = nth (if Nat.ltb j i then j else S j) (nth i rows []) d.
Proof.
  intros A rows n d Hn L R. subst n. unfold remove_diag.
  assert (E : forallb (fun r => Nat.eqb (length r) (length rows)) rows = true).
  { apply forallb_forall. intros r Hr. apply Nat.eqb_eq. auto. }
  rewrite E. unfold reshape_rows. destruct (Nat.eqb_spec (length rows) 0) as [?|Hz]; [lia|]. clear Hz.
  rewrite off_diag_rows by assumption.
  set (n := length rows) in *.
  assert (Ld : forall i, In i (seq 0 n) -> length (drop_at i (nth i rows [])) = n - 1).
  { intros i Hi. apply in_seq in Hi. unfold drop_at. rewrite app_length, firstn_length, skipn_length.
    rewrite (R (nth i rows [])) by (apply nth_In; unfold n in *; lia). lia. }
  assert (Ltot : length (flat_map (fun i => drop_at i (nth i rows [])) (seq 0 n)) = n * (n - 1)).
  { rewrite (firstn_flat_map_chunk _ (n - 1)) by exact Ld. now rewrite seq_length. }
  rewrite Ltot. rewrite (Nat.mul_comm n), Nat.mod_mul, Nat.div_mul by lia. cbn [Nat.eqb].
  eexists. split; [reflexivity|]. split; [now rewrite map_length, seq_length|].
  intros i Hi.
  assert (Row : nth i (map (fun i0 => chunk (n - 1) i0 (flat_map (fun i1 => drop_at i1 (nth i1 rows [])) (seq 0 n))) (seq 0 n)) [] = drop_at i (nth i rows [])).
  { erewrite nth_indep with (d' := chunk (n - 1) 0 _); [|now rewrite map_length, seq_length].
    rewrite map_nth with (f := fun i0 => chunk (n - 1) i0 _). rewrite seq_nth by assumption. cbn [plus].
    rewrite (chunk_flat_map _ (n - 1) i (seq 0 n) 0); [|exact Ld|now rewrite seq_length].
    rewrite seq_nth by assumption. reflexivity. }
  rewrite Row. split; [apply Ld, in_seq; lia|]. intros j Hj. unfold drop_at.
  assert (Lr : length (nth i rows []) = n) by (apply R, nth_In; exact Hi).
  destruct (Nat.ltb_spec j i) as [J|J].
  - rewrite app_nth1 by (rewrite firstn_length; lia). clear -J. generalize (nth i rows []). revert J.
    revert j. induction i; intros j J l; [lia|]. destruct l; cbn [firstn]; [now destruct j|].
    destruct j; cbn; auto. apply IHi. lia.
  - rewrite app_nth2 by (rewrite firstn_length; lia). rewrite firstn_length, Nat.min_l by lia.
    rewrite <- (firstn_skipn (S i) (nth i rows [])) at 2.
    rewrite app_nth2 by (rewrite firstn_length; lia). rewrite firstn_length, Nat.min_l by lia. reflexivity.
Qed.
Example ex_C79_run : remove_diag [[1; 2; 3]; [4; 5; 6]; [7; 8; 9]] = Ok [[2; 3]; [4; 6]; [7; 8]].
Proof. reflexivity. Qed.
