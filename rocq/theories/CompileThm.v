(** Property lemmas about compile and set_solution (see P_Compile.v). *)
From Coq Require Import String ZArith Bool Lia List.
From Verif Require Import Prelude PreludeFacts UnitsModel CompileModel CompileSpec.
Import ListNotations.
Local Open Scope string_scope.

(** A compile call that raises changes nothing. *)
Lemma L_C62_failing_compile :
  forall (m m' : mobj) (stype method : string) (sparse : parg) (e : exn),
  compile m stype method sparse = (m', Err e) -> m' = m.
Proof.
  intros m m' stype method sparse e. unfold compile, compiler_new.
  destruct sparse as [b|]; [|now intros [= <- _]].
  destruct (set_stype stype) as [st|]; [|now intros [= <- _]].
  destruct (set_method st method) as [me|]; [|now intros [= <- _]].
  destruct (construct me b) as [s|]; [|now intros [= <- _]].
  cbn [solution]. discriminate.
Qed.
Example ex_C62_hyps :
  let m := fst (compile (model_new "BlackOil") "num" "fdm" (PBool true)) in
  snd (compile m "num" "FVM" (PBool true)) = Err TypeError /\ snd (compile m "numer" "FDM" (PBool true)) = Err ValueError /\
  snd (compile m "n" "fdm" POther) = Err ValueError.
Proof. repeat split. Qed.

Lemma lower_set_stype s s' : lower s = lower s' -> set_stype s = set_stype s'.
Proof. unfold set_stype. generalize STYPES as t. induction t as [|[k l] t IH]; intros E; cbn; auto. rewrite E, IH; auto. Qed.
Lemma lower_first s s' t : lower s = lower s' -> first_in s t = first_in s' t.
Proof. intros E. induction t as [|[k l] t IH]; cbn; auto. rewrite E, IH; auto. Qed.
Lemma lower_set_method T s s' : lower s = lower s' -> set_method T s = set_method T s'.
Proof. intros E. unfold set_method. destruct (sget T METHODS); auto. now apply lower_first. Qed.

Lemma first_in_err n t e : first_in n t = Err e -> e = ValueError.
Proof. induction t as [|[k l] t IH]; cbn; [congruence|]. destruct (smem (lower n) l); [discriminate|auto]. Qed.
Lemma first_in_ok n t k : first_in n t = Ok k -> exists l, In (k, l) t /\ In (lower n) l.
Proof.
  induction t as [|[k' l] t IH]; cbn; [discriminate|]. destruct (smem (lower n) l) eqn:E.
  - intros [= ->]. exists l. split; [now left|]. now apply smem_In.
  - intros H. destruct (IH H) as (l' & A & B). eauto.
Qed.
Lemma range3 i : 1 <= i <= 3 -> i = 1 \/ i = 2 \/ i = 3.
Proof. lia. Qed.
Ltac in_cases H := cbn in H; repeat (destruct H as [H|H]); try contradiction.

Lemma stype_spec s T : set_stype s = Ok T <-> type_name T (lower s).
Proof.
  split.
  - intros H. apply first_in_ok in H as (l & A & B). cbn in A.
    destruct A as [A|[A|[A|[]]]]; injection A as <- <-; [apply tn_n|apply tn_a|apply tn_nn]; exact B.
  - intros H. unfold set_stype, STYPES. cbn [first_in]. inversion H as [t Ht|t Ht|t Ht]; subst; in_cases Ht; rewrite <- Ht; reflexivity.
Qed.
Lemma stype_T s T : set_stype s = Ok T -> T = "numerical" \/ T = "analytical" \/ T = "neurical".
Proof. intros H. apply stype_spec in H. inversion H; auto. Qed.

Lemma method_fwd T n M : (T = "numerical" \/ T = "analytical" \/ T = "neurical") -> set_method T n = Ok M ->
  method_name T M (lower n) \/
   (T = "analytical" /\ exists i j, 1 <= i <= 3 /\ 1 <= j <= 3 /\ short_works i j /\ M = upper_name i j /\ lower n = short_name i j).
Proof.
  intros HT H0. pose proof H0 as H. unfold set_method in H.
  destruct HT as [->|[->| ->]]; cbn [sget METHODS String.eqb Ascii.eqb Bool.eqb] in H.
  - apply first_in_ok in H as (l & A & B). left. in_cases A; injection A as <- <-.
    + apply (mn_num "FDM" "fdm" "difference"); [now left|exact B].
    + apply (mn_num "FVM" "fvm" "volume"); [right; now left|exact B].
    + apply (mn_num "FEM" "fem" "element"); [right; right; now left|exact B].
  - apply first_in_ok in H as (l & A & B).
    assert (K : forall i j, 1 <= i <= 3 -> 1 <= j <= 3 -> M = upper_name i j ->
      In (lower n) [canon_name i j; dash_name i j; flat_name i j] \/ (short_works i j /\ lower n = short_name i j) ->
      method_name "analytical" M (lower n) \/ ("analytical" = "analytical" /\ exists i j, 1 <= i <= 3 /\ 1 <= j <= 3 /\ short_works i j /\ M = upper_name i j /\ lower n = short_name i j)).
    { intros i j Hi Hj -> [X|(X & Y)]; [left; now apply mn_ana|right; split; [reflexivity|]; exists i, j; auto 6]. }
    assert (Q : lower n = "2d1p" \/ lower n = "3d1p" -> set_method "analytical" n = Ok (if String.eqb (lower n) "2d1p" then "D2P1" else "D3P1")).
    { intros [E|E]; unfold set_method; cbn [sget METHODS String.eqb Ascii.eqb Bool.eqb first_in]; rewrite E; reflexivity. }
    in_cases A; injection A as <- <-; in_cases B; symmetry in B;
    first
    [ match type of H0 with
      | _ = Ok "D1P1" => apply (K 1 1)
      | _ = Ok "D1P2" => apply (K 1 2)
      | _ = Ok "D1P3" => apply (K 1 3)
      | _ = Ok "D2P1" => apply (K 2 1)
      | _ = Ok "D2P2" => apply (K 2 2)
      | _ = Ok "D2P3" => apply (K 2 3)
      | _ = Ok "D3P1" => apply (K 3 1)
      | _ = Ok "D3P2" => apply (K 3 2)
      | _ = Ok "D3P3" => apply (K 3 3)
      end; [lia|lia|reflexivity|]; rewrite B; first [left; cbn; tauto | right; split; [unfold short_works; lia|reflexivity]]
    | exfalso; assert (X : lower n = "2d1p" \/ lower n = "3d1p") by tauto; rewrite (Q X), B in H0; discriminate H0 ].
  - apply first_in_ok in H as (l & A & B). left. in_cases A; injection A as <- <-; [apply mn_pinn|apply mn_don]; exact B.
Qed.
Lemma method_bwd T n M :
  method_name T M (lower n) \/
   (T = "analytical" /\ exists i j, 1 <= i <= 3 /\ 1 <= j <= 3 /\ short_works i j /\ M = upper_name i j /\ lower n = short_name i j) ->
  set_method T n = Ok M.
Proof.
  intros [H|(-> & i & j & Hi & Hj & Hs & -> & E)].
  - inversion H as [M' a b Hab nn Hn|i j nn Hi Hj Hn|nn Hn|nn Hn]; subst; unfold set_method;
    cbn [sget METHODS String.eqb Ascii.eqb Bool.eqb first_in].
    + in_cases Hab; injection Hab as <- <- <-; in_cases Hn; rewrite <- Hn; reflexivity.
    + apply range3 in Hi, Hj. destruct Hi as [->|[->| ->]], Hj as [->|[->| ->]]; in_cases Hn; rewrite <- Hn; reflexivity.
    + in_cases Hn; rewrite <- Hn; reflexivity.
    + in_cases Hn; rewrite <- Hn; reflexivity.
  - unfold set_method; cbn [sget METHODS String.eqb Ascii.eqb Bool.eqb first_in]. rewrite E.
    apply range3 in Hi, Hj. unfold short_works in Hs. destruct Hi as [->|[->| ->]], Hj as [->|[->| ->]]; try reflexivity; exfalso; lia.
Qed.
Lemma resolve_spec s n T M : resolve s n = Ok (T, M) <-> denotes T M (lower s) (lower n).
Proof.
  unfold resolve, denotes. split.
  - destruct (set_stype s) as [T'|] eqn:E; [|discriminate]. destruct (set_method T' n) as [M'|] eqn:E'; [|discriminate].
    intros [= <- <-]. split; [now apply stype_spec|]. apply method_fwd; [exact (stype_T s T' E)|exact E'].
  - intros (A & B). apply stype_spec in A. rewrite A. now rewrite (method_bwd T n M B).
Qed.
Lemma resolve_err s n e : resolve s n = Err e -> e = ValueError.
Proof.
  unfold resolve. destruct (set_stype s) as [T'|e'] eqn:E.
  - destruct (set_method T' n) as [M'|e'] eqn:E'; [discriminate|]. intros [= <-].
    unfold set_method in E'. destruct (sget T' METHODS); [now apply first_in_err in E'|congruence].
  - intros [= <-]. unfold set_stype in E. now apply first_in_err in E.
Qed.

(** Names are resolved without regard to letter case, to exactly the method
    they denote, never to two methods; all other names raise ValueError, from
    compile as well. *)
Lemma L_C63_names :
  forall (s n : string),
  (forall T M, resolve s n = Ok (T, M) <-> denotes T M (lower s) (lower n)) /\
  (forall T M T' M', denotes T M (lower s) (lower n) -> denotes T' M' (lower s) (lower n) -> T = T' /\ M = M') /\
  ((forall T M, ~ denotes T M (lower s) (lower n)) -> resolve s n = Err ValueError /\
     forall m b, compile m s n (PBool b) = (m, Err ValueError)) /\
  (forall s' n', lower s' = lower s -> lower n' = lower n -> resolve s' n' = resolve s n /\
     forall m b, compile m s' n' b = compile m s n b) /\
  (forall T M m b m', resolve s n = Ok (T, M) -> compile m s n (PBool b) = (m', Ok tt) ->
     compiler_ m' = Some (mkComp T M b)).
Proof.
  intros s n. split; [intros; apply resolve_spec|]. split.
  { intros T M T' M' A B. apply resolve_spec in A, B. rewrite A in B. injection B as <- <-. auto. }
  split.
  { intros H. destruct (resolve s n) as [[T M]|e] eqn:E; [exfalso; apply (H T M); now apply resolve_spec|].
    pose proof (resolve_err s n e E) as ->. split; [reflexivity|]. intros m b. unfold resolve in E. unfold compile, compiler_new.
    destruct (set_stype s) as [T|]; [|now injection E as ->]. destruct (set_method T n); [discriminate|]. now injection E as ->. }
  split.
  { intros s' n' Hs Hn. unfold resolve, compile, compiler_new. rewrite (lower_set_stype s' s Hs). split.
    - destruct (set_stype s); auto. now rewrite (lower_set_method a n' n Hn).
    - intros m [b|]; auto. destruct (set_stype s); auto. now rewrite (lower_set_method a n' n Hn). }
  intros T M m b m' E H. unfold resolve in E. unfold compile, compiler_new in H.
  destruct (set_stype s) as [T'|]; [|discriminate]. destruct (set_method T' n) as [M'|]; [|discriminate].
  injection E as <- <-. destruct (construct M' b); [|discriminate]. cbn in H. injection H as <-. reflexivity.
Qed.
Example ex_C63_hyps : resolve "NUM" "Finite Volume Method" = Ok ("numerical", "FVM") /\
  denotes "analytical" "D2P3" "ana" "2-dimension-3-phase".
Proof. split; [reflexivity|]. split; [apply tn_a; cbn; tauto|]. left. apply (mn_ana 2 3); [lia|lia|cbn; tauto]. Qed.

(** The short names of one dimension or one phase select that method ... *)
Lemma L_C64_short_names_partial :
  forall (s : string) (i j : nat) (n : string), set_stype s = Ok "analytical" ->
  1 <= i <= 3 -> 1 <= j <= 3 -> i = 1 \/ j = 1 -> lower n = short_name i j ->
  resolve s n = Ok ("analytical", upper_name i j).
Proof.
  intros s i j n Hs Hi Hj Hij E. apply resolve_spec. split; [now apply stype_spec|]. right. split; [reflexivity|].
  exists i, j. auto 6.
Qed.
Example ex_C64_hyps : set_stype "Analytical" = Ok "analytical" /\ lower "3D1P" = short_name 3 1.
Proof. split; reflexivity. Qed.
(** ... but the other four short names are unknown. *)
Lemma L_C64_short_names_refuted :
  forall (i j : nat), 2 <= i <= 3 -> 2 <= j <= 3 ->
  resolve "analytical" (short_name i j) = Err ValueError /\
  (forall m b, compile m "analytical" (short_name i j) (PBool b) = (m, Err ValueError)).
Proof.
  intros i j Hi Hj. assert (I : i = 2 \/ i = 3) by lia. assert (J : j = 2 \/ j = 3) by lia.
  destruct I as [->| ->], J as [->| ->]; (split; [reflexivity|intros; reflexivity]).
Qed.

(** *** switching between solutions *)
Definition valid_key (k : key) : Prop := (fst k = ("numerical", "FDM") \/ fst k = ("analytical", "D1P1")).
Lemma append_cancel p s t : p ++ s = p ++ t -> s = t.
Proof. induction p; cbn; [auto|]. intros [= H]. auto. Qed.
Lemma key_name_inj model k k' : valid_key k -> valid_key k' -> key_name model k = key_name model k' -> k = k'.
Proof.
  destruct k as [[t m] b], k' as [[t' m'] b']. unfold valid_key. cbn [fst]. intros H H' E. unfold key_name in E. apply append_cancel in E.
  destruct H as [H|H], H' as [H'|H']; injection H as -> ->; injection H' as -> ->; destruct b, b'; cbn in E; congruence.
Qed.
Lemma key_eqb_eq a b : key_eqb a b = true <-> a = b.
Proof.
  destruct a as [[a1 a2] a3], b as [[b1 b2] b3]. cbn. rewrite !andb_true_iff, !String.eqb_eq, Bool.eqb_true_iff.
  split; [intros ((-> & ->) & ->); auto|intros [= -> -> ->]; auto].
Qed.
Lemma key_eqb_neq a b : key_eqb a b = false <-> a <> b.
Proof. rewrite <- key_eqb_eq. destruct (key_eqb a b); split; congruence. Qed.
Lemma compiled_valid o k : compiled_key o = Some k -> valid_key k.
Proof.
  destruct o as [s n [b|]|n|x]; cbn [compiled_key]; try discriminate. destruct (resolve s n) as [[T M]|] eqn:E; [|discriminate].
  destruct (available M) eqn:A; [|discriminate]. intros [= <-]. apply resolve_spec in E as (ET & EM). apply smem_In in A. cbn in A.
  unfold valid_key. cbn [fst].
  destruct EM as [EM|(-> & i & j & Hi & Hj & _ & -> & _)].
  - inversion EM as [M' a b' Hab nn Hn Eq1 Eq2|i j nn Hi Hj Hn Eq1 Eq2|nn Hn Eq1 Eq2|nn Hn Eq1 Eq2]; subst.
    + destruct A as [<-|[<-|[]]]; [now left|]. in_cases Hab; discriminate.
    + apply range3 in Hi, Hj. destruct Hi as [->|[->| ->]], Hj as [->|[->| ->]]; destruct A as [A|[A|[]]]; try discriminate A; now right.
    + destruct A as [A|[A|[]]]; discriminate A.
    + destruct A as [A|[A|[]]]; discriminate A.
  - apply range3 in Hi, Hj. destruct Hi as [->|[->| ->]], Hj as [->|[->| ->]]; destruct A as [A|[A|[]]]; try discriminate A; now right.
Qed.
Lemma sget_sset_eq {A} k (v : A) d : sget k (sset k v d) = Some v.
Proof.
  induction d as [|[k' w] d IH]; cbn.
  - now rewrite String.eqb_refl.
  - destruct (String.eqb k k') eqn:E; cbn; rewrite E; auto.
Qed.
Lemma sget_sset_neq {A} k k' (v : A) d : k <> k' -> sget k (sset k' v d) = sget k d.
Proof.
  intros H. induction d as [|[k'' w] d IH]; cbn.
  - apply String.eqb_neq in H. now rewrite H.
  - destruct (String.eqb k' k'') eqn:E; cbn; destruct (String.eqb k k'') eqn:E2; auto.
    apply String.eqb_eq in E, E2. congruence.
Qed.
Lemma sget_In {A} k (d : list (string * A)) : In k (map fst d) <-> exists v, sget k d = Some v.
Proof.
  induction d as [|[k' w] d IH]; cbn; [split; [intros []|intros (v & H); discriminate]|].
  destruct (String.eqb k k') eqn:E.
  - apply String.eqb_eq in E. subst. split; eauto.
  - apply String.eqb_neq in E. rewrite IH. split; [intros [->|H]; [congruence|auto]|auto].
Qed.

Definition obj_of (k : key) (h : list nat) : sol := mkSol (snd (fst k)) (snd k) h.
Definition comp_of (k : key) : compiler := mkComp (fst (fst k)) (snd (fst k)) (snd k).
Record Inv (m : mobj) (i : intended) : Prop := {
  inv_valid : forall k, i_hist i k <> None -> valid_key k;
  inv_hist : forall k h, i_hist i k = Some h -> exists r, sget (key_name (m_name m) k) (solutions m) = Some r /\
     nth_error (sols m) r = Some (obj_of k h) /\ sget (key_name (m_name m) k) (compilers m) = Some (comp_of k);
  inv_sol : forall n r, sget n (solutions m) = Some r -> exists k, n = key_name (m_name m) k /\ i_hist i k <> None;
  inv_inj : forall n n' r, sget n (solutions m) = Some r -> sget n' (solutions m) = Some r -> n = n';
  inv_act : match i_active i with
            | None => compiler_ m = None /\ solution m = None /\ bound m = None
            | Some k => i_hist i k <> None /\ compiler_ m = Some (comp_of k) /\
                        solution m = sget (key_name (m_name m) k) (solutions m) /\ bound m = solution m
            end }.
Lemma inv_sees m i : Inv m i -> sees m i.
Proof.
  intros [V H S J A]. unfold sees. split; [|split].
  - destruct (i_active i) as [[[t me] b]|]; [|exact A]. destruct A as (A1 & A2 & A3 & A4). split; [exact A2|].
    destruct (i_hist i (t, me, b)) as [h|] eqn:E; [|congruence]. destruct (H _ _ E) as (r & R1 & R2 & R3).
    exists r, h. rewrite A4, A3, R1. auto.
  - intros k Hk. unfold get_solutions. apply sget_In. destruct (i_hist i k) as [h|] eqn:E; [|congruence].
    destruct (H _ _ E) as (r & R1 & _). eauto.
  - intros n Hn. apply sget_In in Hn as (r & Hr). destruct (S n r Hr) as (k & -> & Hk). eauto.
Qed.
Lemma nth_error_app_last {A} (l : list A) x : nth_error (l ++ [x]) (length l) = Some x.
Proof. induction l; cbn; auto. Qed.
Lemma nth_error_app_old {A} (l : list A) x r y : nth_error l r = Some y -> nth_error (l ++ [x]) r = Some y.
Proof. intros H. rewrite nth_error_app1; auto. apply nth_error_Some. congruence. Qed.
Lemma nth_error_upd {A} (l : list A) r s v : nth_error (upd l r v) s = if Nat.eqb r s then (match nth_error l s with Some _ => Some v | None => None end) else nth_error l s.
Proof. revert r s. induction l; intros [|r] [|s]; cbn; auto. destruct (Nat.eqb r s); reflexivity. Qed.

(** What a compile call does. *)
Lemma compile_ok m s n b T M : resolve s n = Ok (T, M) -> available M = true ->
  compile m s n (PBool b) = (mkMobj (m_name m) (sols m ++ [mkSol M b []])%list (Some (length (sols m)))
     (sset (key_name (m_name m) (T, M, b)) (length (sols m)) (solutions m)) (Some (mkComp T M b))
     (sset (key_name (m_name m) (T, M, b)) (mkComp T M b) (compilers m)) (Some (length (sols m))), Ok tt).
Proof.
  intros E A. unfold resolve in E. unfold compile, compiler_new.
  destruct (set_stype s) as [T'|]; [|discriminate]. destruct (set_method T' n) as [M'|]; [|discriminate].
  injection E as <- <-. unfold construct. unfold available in A. rewrite A. reflexivity.
Qed.
Lemma compile_no m o : compiled_key o = None -> match o with MCompile s n b => fst (compile m s n b) = m | _ => True end.
Proof.
  destruct o as [s n b|n|x]; auto. cbn [compiled_key]. intros H.
  destruct (compile m s n b) as [m' r] eqn:E. cbn [fst]. destruct r as [u|e]; [|now apply L_C62_failing_compile in E].
  exfalso. unfold compile, compiler_new in E. destruct b as [b|]; [|discriminate]. unfold resolve in H.
  destruct (set_stype s) as [T|]; [|discriminate]. destruct (set_method T n) as [M|]; [|discriminate].
  unfold construct in E. unfold available in H. destruct (smem M ["FDM"; "D1P1"]); discriminate.
Qed.

Lemma inv_step m i o : Inv m i ->
  (exists i', istep (m_name m) i o i') /\ (forall i', istep (m_name m) i o i' -> Inv (fst (mexec m o)) i') /\
  m_name (fst (mexec m o)) = m_name m.
Proof.
  intros I. pose proof I as [V H S J A]. destruct o as [s n b|n|x].
  - destruct (compiled_key (MCompile s n b)) as [k|] eqn:CK.
    + pose proof (compiled_valid _ _ CK) as VK. unfold istep. rewrite CK. split; [eauto|].
      cbn [compiled_key] in CK. destruct b as [b|]; [|discriminate]. destruct (resolve s n) as [[T M]|] eqn:E; [|discriminate].
      destruct (available M) eqn:Av; [|discriminate]. injection CK as <-.
      cbn [mexec]. rewrite (compile_ok m s n b T M E Av). cbn [fst m_name]. split; [|reflexivity]. intros i' ->. set (k := (T, M, b)) in *.
      assert (Fresh : forall n' r, sget n' (solutions m) = Some r -> r < length (sols m)).
      { intros n' r Hr. destruct (S n' r Hr) as (k' & -> & Hk'). destruct (i_hist i k') as [h|] eqn:Eh; [|congruence].
        destruct (H k' h Eh) as (r' & R1 & R2 & _). rewrite Hr in R1. injection R1 as <-. apply nth_error_Some. congruence. }
      constructor; cbn [i_hist i_active m_name sols solution solutions compiler_ compilers bound].
      * intros k' Hk'. destruct (key_eqb k' k) eqn:Ek; [apply key_eqb_eq in Ek; now subst|auto].
      * intros k' h' Hk'. destruct (key_eqb k' k) eqn:Ek.
        -- apply key_eqb_eq in Ek. subst k'. injection Hk' as <-. exists (length (sols m)).
           rewrite !sget_sset_eq. split; [reflexivity|]. split; [apply nth_error_app_last|reflexivity].
        -- apply key_eqb_neq in Ek.
           assert (N : key_name (m_name m) k' <> key_name (m_name m) k).
           { intros X. apply Ek. apply (key_name_inj (m_name m)); auto. apply V. congruence. }
           destruct (H k' h' Hk') as (r & R1 & R2 & R3). exists r. rewrite !sget_sset_neq by assumption.
           split; [exact R1|]. split; [now apply nth_error_app_old|exact R3].
      * intros n' r Hr. destruct (String.eqb n' (key_name (m_name m) k)) eqn:En.
        -- apply String.eqb_eq in En. exists k. split; [exact En|]. assert (X : key_eqb k k = true) by now apply key_eqb_eq. rewrite X. discriminate.
        -- apply String.eqb_neq in En. rewrite sget_sset_neq in Hr by assumption. destruct (S n' r Hr) as (k' & -> & Hk').
           exists k'. split; [reflexivity|]. destruct (key_eqb k' k); [discriminate|exact Hk'].
      * intros n1 n2 r. destruct (String.eqb n1 (key_name (m_name m) k)) eqn:E1, (String.eqb n2 (key_name (m_name m) k)) eqn:E2.
        -- apply String.eqb_eq in E1, E2. congruence.
        -- apply String.eqb_eq in E1. apply String.eqb_neq in E2. subst n1. rewrite sget_sset_eq, sget_sset_neq by assumption.
           intros [= <-] Hr. apply Fresh in Hr. lia.
        -- apply String.eqb_eq in E2. apply String.eqb_neq in E1. subst n2. rewrite sget_sset_eq, sget_sset_neq by assumption.
           intros Hr [= <-]. apply Fresh in Hr. lia.
        -- apply String.eqb_neq in E1, E2. rewrite !sget_sset_neq by assumption. apply J.
      * assert (X : key_eqb k k = true) by now apply key_eqb_eq. rewrite X. split; [discriminate|]. split; [reflexivity|].
        rewrite sget_sset_eq. auto.
    + pose proof (compile_no m _ CK) as C. cbn beta iota in C. unfold istep. rewrite CK. split; [eauto|]. cbn [mexec].
      rewrite C. split; [|reflexivity]. intros i' ->. exact I.
  - cbn [mexec istep]. unfold set_solution. destruct (sget n (solutions m)) as [r|] eqn:En.
    + destruct (S n r En) as (k & -> & Hk). split; [eexists; left; exists k; eauto|].
      destruct (i_hist i k) as [h|] eqn:Eh; [|congruence]. destruct (H k h Eh) as (r' & R1 & R2 & R3).
      rewrite R3. cbn [fst m_name]. split; [|reflexivity].
      intros i' [(k' & Kn & Kh & ->)|(Nx & ->)]; [|exfalso; apply Nx; exists k; split; [reflexivity|congruence]].
      assert (k' = k) by (apply (key_name_inj (m_name m)); auto; apply V; congruence). subst k'.
      constructor; cbn [i_hist i_active m_name sols solution solutions compiler_ compilers bound];
        [exact V|exact H|exact S|exact J|].
      split; [exact Kh|]. split; [reflexivity|]. rewrite En. auto.
    + cbn [fst]. assert (Nx : ~ (exists k, key_name (m_name m) k = n /\ i_hist i k <> None)).
      { intros (k & <- & Hk). destruct (i_hist i k) as [h|] eqn:Eh; [|congruence]. destruct (H k h Eh) as (r & R1 & _). congruence. }
      split; [eexists; right; eauto|]. split; [|reflexivity]. intros i' [(k & K1 & K2 & ->)|(_ & ->)]; [|exact I].
      exfalso. apply Nx. eauto.
  - cbn [mexec istep fst]. unfold run. destruct (i_active i) as [k|] eqn:Ea.
    + destruct A as (A1 & A2 & A3 & A4). destruct (i_hist i k) as [h|] eqn:Eh; [|congruence].
      destruct (H k h Eh) as (r & R1 & R2 & R3). rewrite A4, A3, R1, R2. cbn [m_name].
      split; [eexists; exists h; eauto|]. split; [|reflexivity].
      intros i' (h' & E' & ->). injection E' as <-.
      constructor; cbn [i_hist i_active m_name sols solution solutions compiler_ compilers bound]; [| | |exact J|].
      * intros k' Hk'. destruct (key_eqb k' k) eqn:Ek; [apply key_eqb_eq in Ek; subst; apply V; congruence|auto].
      * intros k' h' Hk'. destruct (key_eqb k' k) eqn:Ek.
        -- apply key_eqb_eq in Ek. subst k'. injection Hk' as <-. exists r. split; [exact R1|]. split; [|exact R3].
           rewrite nth_error_upd, Nat.eqb_refl, R2. reflexivity.
        -- apply key_eqb_neq in Ek. destruct (H k' h' Hk') as (r' & Q1 & Q2 & Q3). exists r'. split; [exact Q1|]. split; [|exact Q3].
           rewrite nth_error_upd. destruct (Nat.eqb_spec r r'); [|exact Q2]. subst r'. exfalso. apply Ek.
           apply (key_name_inj (m_name m)); [apply V; congruence|apply V; congruence|]. exact (J _ _ _ Q1 R1).
      * intros n' r' Hr. destruct (S n' r' Hr) as (k' & -> & Hk'). exists k'. split; [reflexivity|].
        destruct (key_eqb k' k); [discriminate|exact Hk'].
      * assert (X : key_eqb k k = true) by now apply key_eqb_eq. rewrite X. split; [discriminate|]. split; [exact A2|]. auto.
    + destruct A as (A1 & A2 & A3). rewrite A3. split; [eauto|]. split; [|reflexivity]. intros i' ->. exact I.
Qed.
Lemma inv_run l : forall m i, Inv m i ->
  (exists i', iruns (m_name m) i l i') /\ (forall i', iruns (m_name m) i l i' -> Inv (mexec_all m l) i').
Proof.
  induction l as [|o l IH]; intros m i I.
  - split; [exists i; constructor|]. intros i' Hr. inversion Hr. subst. exact I.
  - destruct (inv_step m i o I) as ((i1 & S1) & S2 & S3). split.
    + destruct (IH _ i1 (S2 _ S1)) as ((i2 & R) & _). rewrite S3 in R. exists i2. econstructor; eauto.
    + intros i' Hr. inversion Hr as [|? ? i2 ? ? T1 T2]; subst. unfold mexec_all. cbn [fold_left].
      apply (proj2 (IH _ i2 (S2 _ T1))). rewrite S3. exact T2.
Qed.
Lemma inv_init name : Inv (model_new name) i0.
Proof. constructor; cbn; try discriminate; auto; congruence. Qed.

(** Compiling and switching behave as if every (type, method, sparse) had its
    own history, of which one is active; unknown names raise ValueError and
    change nothing; different solutions never share a name. *)
Lemma L_C65_switching :
  forall (name : string) (l : list mop),
  let m := mexec_all (model_new name) l in
  (exists i, iruns name i0 l i) /\
  (forall i, iruns name i0 l i -> sees m i) /\
  (forall n, ~ In n (get_solutions m) -> set_solution m n = (m, Err ValueError)) /\
  (forall n, In n (get_solutions m) -> snd (set_solution m n) = Ok tt) /\
  (forall o o' k k', compiled_key o = Some k -> compiled_key o' = Some k' -> k <> k' -> key_name name k <> key_name name k').
Proof.
  intros name l m. destruct (inv_run l (model_new name) i0 (inv_init name)) as ((i & R) & G).
  change (m_name (model_new name)) with name in *.
  split; [eauto|]. split; [intros i' Hi; apply inv_sees; exact (G i' Hi)|].
  pose proof (G i R) as [V H S J A]. fold m in V, H, S, J, A. split; [|split].
  - intros n Hn. unfold set_solution. destruct (sget n (solutions m)) as [r|] eqn:E; [|reflexivity].
    exfalso. apply Hn. apply sget_In. eauto.
  - intros n Hn. apply sget_In in Hn as (r & E). unfold set_solution. rewrite E. destruct (S n r E) as (k & -> & Hk).
    destruct (i_hist i k) as [h|] eqn:Eh; [|congruence]. destruct (H k h Eh) as (r' & _ & _ & ->). reflexivity.
  - intros o o' k k' Hk Hk' Hne E. apply Hne. apply (key_name_inj name); eauto using compiled_valid.
Qed.
Example ex_C65_run :
  let m := mexec_all (model_new "BlackOil") [MCompile "n" "fdm" (PBool true); MRun 1; MCompile "a" "1D1P" (PBool true); MRun 2;
     MSet "BlackOil-numerical-FDM-True"; MSet "no such"; MRun 3] in
  nth_error (sols m) 0 = Some (mkSol "FDM" true [1; 3]) /\ bound m = Some 0 /\
  get_solutions m = ["BlackOil-numerical-FDM-True"; "BlackOil-analytical-D1P1-True"].
Proof. repeat split. Qed.
