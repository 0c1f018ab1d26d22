(** What the calls that read scaled data leave in the scalers, and what they depend on. *)
From Coq Require Import String Ascii ZArith Bool Arith List Lia Reals Lra.
From Verif Require Import Prelude PreludeFacts TabFacts Num GridModel GridSpec GridProofs GeoModel PropModel UnitsModel BlackOilModel FdmModel FrameModel FrameSpec ScalerModel ScalerSpec ScalerThm ScaleModel ScaleSpec MonadFacts InvFacts FrameFacts FrameThm ScaleFacts.
Import ListNotations.
Local Close Scope R_scope.
Local Open Scope list_scope.
Local Open Scope nat_scope.

Section state.
Context {F : Type} {NF : Num F} {NC : NumC F}.
Notation fl := (fl F).
Notation scs := (scalers fl).

(** ** Settings: everything but the fitted ranges *)
Definition erase (x : scaler fl) : scaler fl := match x with Dummy => Dummy | MinMax k => MinMax (mkMM (Vmin k) (Vmax k) None None) end.
Definition same (S T : scs) : Prop := scalers_dict S = scalers_dict T /\ forall q, erase (scaler_of S q) = erase (scaler_of T q).
Lemma same_refl S : same S S. Proof. now split. Qed.
Lemma same_sym S T : same S T -> same T S. Proof. intros (A & B). split; [congruence|]. intros q. now rewrite B. Qed.
Lemma same_trans S T U : same S T -> same T U -> same S U. Proof. intros (A & B) (C & D). split; [congruence|]. intros q. now rewrite B. Qed.
Lemma sc_fit_same (x y : scaler fl) v a : erase x = erase y -> snd (sc_fit x v a) = snd (sc_fit y v a) /\ erase (fst (sc_fit x v a)) = erase y /\
  (snd (sc_fit x v a) = Ok tt -> fst (sc_fit x v a) = fst (sc_fit y v a)).
Proof.
  destruct x as [|j], y as [|k]; cbn [erase sc_fit]; intros E; try discriminate; [auto|]. inversion E as [[E1 E2]].
  unfold mm_fit. destruct (_ && _)%bool; cbn; [repeat split; try congruence; discriminate|].
  destruct (np_reduce nmin a v); cbn; [|repeat split; try congruence; discriminate].
  destruct (np_reduce nmax a v); cbn; repeat split; try congruence; discriminate.
Qed.
Lemma sc_fit_erase (x : scaler fl) v a : erase (fst (sc_fit x v a)) = erase x.
Proof. now destruct (sc_fit_same x x v a eq_refl) as (_ & ? & _). Qed.
Lemma sc_fit_again (x : scaler fl) v a : snd (sc_fit x v a) = Ok tt -> sc_fit (fst (sc_fit x v a)) v a = sc_fit x v a.
Proof.
  intros H. destruct (sc_fit_same _ x v a (sc_fit_erase x v a)) as (A & _ & C). rewrite H in A. specialize (C A).
  destruct (sc_fit (fst (sc_fit x v a)) v a) as [y r]. cbn [fst snd] in *. subst y r. rewrite <- H. now destruct (sc_fit x v a).
Qed.
(** one of the four places *)
Definition place (q : quantity) : (scs -> scaler fl) * (scs -> scaler fl -> scs) := match q with
  | QTime => (@time_scaler fl, put_time) | QSpace => (@space_scaler fl, put_space)
  | QPressure => (@pressures_scaler fl, put_press) | QRate => (@rates_scaler fl, put_rates) end.
Definition refit (q : quantity) (v : nda fl) (a : bool) : M scs unit := fit_into (fst (place q)) (snd (place q)) v a.
Lemma place_get q S : fst (place q) S = scaler_of S q. Proof. now destruct q. Qed.
Lemma place_put q q' S x : scaler_of (snd (place q) S x) q' = if qeqb q q' then x else scaler_of S q'. Proof. now destruct q, q'. Qed.
Lemma place_dict q S x : scalers_dict (snd (place q) S x) = scalers_dict S. Proof. now destruct q. Qed.
Lemma refit_same q v a S : same (fst (refit q v a S)) S.
Proof.
  unfold refit, fit_into. rewrite place_get. pose proof (sc_fit_erase (scaler_of S q) v a) as E. destruct (sc_fit _ _ _) as [x r]. cbn [fst] in *.
  split; [apply place_dict|]. intros q'. rewrite place_put. destruct (qeqb q q') eqn:Q; auto. destruct q, q'; try discriminate; exact E.
Qed.
Lemma i_same {A} (c : M scs A) : (forall S, same (fst (c S)) S) <-> forall T, inv (fun S => same S T) c.
Proof. split; intros H; [intros T S HS; eapply same_trans; eauto|intros S; apply (H S S), same_refl]. Qed.

Lemma i_time m so T : inv (fun S => same S T) (update_time_scaler m so).
Proof. unfold update_time_scaler. apply i_bind; [apply i_read|]. intros t S HS. eapply same_trans; [|exact HS]. exact (refit_same QTime _ _ S). Qed.
Lemma i_space m b T : inv (fun S => same S T) (update_space_scaler m b).
Proof. unfold update_space_scaler. apply i_bind; [apply i_read|]. intros t S HS. eapply same_trans; [|exact HS]. exact (refit_same QSpace _ _ S). Qed.
Lemma i_press m so b T : inv (fun S => same S T) (update_pressures_scaler m so b).
Proof. unfold update_pressures_scaler. apply i_bind; [apply i_read|]. intros t S HS. eapply same_trans; [|exact HS]. exact (refit_same QPressure _ _ S). Qed.
Lemma i_rates m so b T : inv (fun S => same S T) (update_rates_scaler m so b).
Proof. unfold update_rates_scaler. apply i_bind; [apply i_read|]. intros t S HS. eapply same_trans; [|exact HS]. exact (refit_same QRate _ _ S). Qed.
Lemma i_update m so b T : inv (fun S => same S T) (update_scalers m so b).
Proof. unfold update_scalers. repeat (apply i_bind; [first [apply i_time|apply i_space|apply i_press|apply i_rates]|intros ?]). apply i_rates. Qed.
Lemma i_gtime m so sc T : inv (fun S => same S T) (get_time_s m so sc).
Proof. unfold get_time_s. apply i_bind; [apply i_read|]. intros t. destruct sc; [|apply i_ret]. apply i_bind; [apply i_time|]. intros _. apply i_read. Qed.
Lemma i_gcenters m sc b T : inv (fun S => same S T) (get_centers_s m sc b).
Proof.
  unfold get_centers_s. apply i_bind; [apply i_read|]. intros t. destruct sc; [|apply i_ret]. apply i_bind; [apply i_space|]. intros _. apply i_bind; [apply i_read|]. intros ?. apply i_ret.
Qed.
Lemma i_gdomain m so sc b T : inv (fun S => same S T) (get_domain_s m so sc b).
Proof. unfold get_domain_s. apply i_bind; [apply i_gtime|]. intros t. apply i_bind; [apply i_gcenters|]. intros ?. apply i_ret. Qed.
Lemma i_full m so un cols b u melt sc T : inv (fun S => same S T) (full_df_s m so un cols b u melt sc).
Proof.
  unfold full_df_s. apply i_bind; [apply i_when, i_update|]. intros _. apply i_bind.
  - destruct melt; [|apply i_ret]. unfold melted_start_s. destruct so; [|apply i_read]. apply i_bind; [apply i_read|]. intros df. unfold add_xyz_s.
    apply i_bind; [apply i_gcenters|]. intros c. apply i_ret.
  - intros df. apply i_read.
Qed.
Lemma i_df m so un cols b u melt sc dn dz T : inv (fun S => same S T) (get_df_s m so un cols b u melt sc dn dz).
Proof. unfold get_df_s. apply i_bind; [apply i_full|]. intros df. apply i_ret. Qed.
Lemma dstep_same S c : reads c -> same (dstep S c) S.
Proof.
  destruct c; cbn [reads dstep]; intros H; [destruct H| | | | |];
    [apply i_update|apply i_gtime|apply i_gcenters|apply i_gdomain|apply i_df]; apply same_refl.
Qed.
Lemma dafter_same l : forall S, Forall reads l -> same (dafter S l) S.
Proof.
  induction l as [|c l IH]; intros S H; [apply same_refl|]. cbn. eapply same_trans; [apply IH; now inversion H|]. apply dstep_same. now inversion H.
Qed.

(** ** The results depend on the settings only *)
Lemma same_eq (S T : scs) : scalers_dict S = scalers_dict T -> (forall q, scaler_of S q = scaler_of T q) -> S = T.
Proof.
  intros D H. pose proof (H QTime) as H1. pose proof (H QSpace) as H2. pose proof (H QPressure) as H3. pose proof (H QRate) as H4.
  destruct S, T. cbn in *. congruence.
Qed.
(** From equal settings and equal scalers of the quantities [K] the same result, and
    if it is none but exceptions equal scalers of [K']. *)
Definition det {A} (K K' : quantity -> Prop) (c : M scs A) : Prop := forall S T, same S T -> (forall q, K q -> scaler_of S q = scaler_of T q) ->
  snd (c S) = snd (c T) /\ same (fst (c S)) (fst (c T)) /\ forall a, snd (c S) = Ok a -> forall q, K' q -> scaler_of (fst (c S)) q = scaler_of (fst (c T)) q.
Lemma d_bind {A B} (K K' K'' : quantity -> Prop) (c : M scs A) (f : A -> M scs B) : det K K' c -> (forall a, det K' K'' (f a)) -> det K K'' (mbind c f).
Proof.
  intros Hc Hf S T H E. destruct (Hc S T H E) as (A1 & A2 & A3). unfold mbind. destruct (c S) as [S1 r], (c T) as [T1 r']. cbn [fst snd] in *. subst r'.
  destruct r as [a|e]; [|split; [reflexivity|split; [auto|discriminate]]]. apply Hf; auto. exact (A3 a eq_refl).
Qed.
Lemma d_ret {A} (K : quantity -> Prop) (a : A) : det K K (mret a).
Proof. intros S T H E. cbn. split; auto. Qed.
Lemma d_read {A} (K : quantity -> Prop) (f : scs -> res A) : (forall S T, same S T -> (forall q, K q -> scaler_of S q = scaler_of T q) -> f S = f T) -> det K K (mread f).
Proof. intros Hf S T H E. cbn. split; auto. Qed.
Lemma d_const {A} (K : quantity -> Prop) (r : res A) : det K K (mread (fun _ => r)).
Proof. now apply d_read. Qed.
Lemma d_weak {A} (K K' L : quantity -> Prop) (c : M scs A) : det K K' c -> (forall q, L q -> K' q) -> det K L c.
Proof. intros H HL S T Hs E. destruct (H S T Hs E) as (A1 & A2 & A3). split; auto. split; auto. intros a Ea q Hq. eauto. Qed.
Definition also (K : quantity -> Prop) (q : quantity) : quantity -> Prop := fun q' => K q' \/ q' = q.
Lemma d_refit K q v a : det K (also K q) (refit q v a).
Proof.
  intros S T H E. pose proof (refit_same q v a S) as S1. pose proof (refit_same q v a T) as T1.
  split; [|split; [eapply same_trans; [exact S1|]; eapply same_trans; [exact H|]; now apply same_sym|]]; destruct H as (D & H);
  pose proof (sc_fit_same _ _ v a (H q)) as (A & B & C); unfold refit, fit_into; rewrite !place_get;
  destruct (sc_fit (scaler_of S q) v a) as [x r], (sc_fit (scaler_of T q) v a) as [y r']; cbn [fst snd] in *; auto.
  intros u Eu q' HQ. destruct u. rewrite !place_put. destruct (qeqb q q') eqn:Q; [auto|]. destruct HQ as [HQ| ->]; [auto|]. destruct q; discriminate.
Qed.
Definition nothing (q : quantity) : Prop := False.
Lemma d_time K m so : det K (also K QTime) (update_time_scaler m so).
Proof. unfold update_time_scaler. eapply d_bind; [apply d_const|]. intros t. exact (d_refit K QTime _ _). Qed.
Lemma d_space K m b : det K (also K QSpace) (update_space_scaler m b).
Proof. unfold update_space_scaler. eapply d_bind; [apply d_const|]. intros t. exact (d_refit K QSpace _ _). Qed.
Lemma d_press K m so b : det K (also K QPressure) (update_pressures_scaler m so b).
Proof. unfold update_pressures_scaler. eapply d_bind; [apply d_const|]. intros t. exact (d_refit K QPressure _ _). Qed.
Lemma d_rates K m so b : det K (also K QRate) (update_rates_scaler m so b).
Proof. unfold update_rates_scaler. eapply d_bind; [apply d_const|]. intros t. exact (d_refit K QRate _ _). Qed.
Lemma d_update K m so b : det K (fun _ => True) (update_scalers m so b).
Proof.
  unfold update_scalers. eapply d_bind; [apply d_time|]. intros _. eapply d_bind; [apply d_space|]. intros _. eapply d_bind; [apply d_press|]. intros _.
  eapply d_weak; [apply d_rates|]. intros q _. unfold also. destruct q; auto.
Qed.
Lemma d_gtime K m so sc : det K K (get_time_s m so sc).
Proof.
  unfold get_time_s. eapply d_bind; [apply d_const|]. intros t. cbv zeta. destruct sc; [|apply d_ret].
  eapply d_weak with (K' := also K QTime); [|intros q; now left]. eapply d_bind; [apply d_time|]. intros _. apply d_read.
  intros S T H E. assert (E1 : time_scaler S = time_scaler T) by (apply (E QTime); now right). now rewrite E1.
Qed.
Lemma d_gcenters K m sc b : det K K (get_centers_s m sc b).
Proof.
  unfold get_centers_s. eapply d_bind; [apply d_const|]. intros t. cbv zeta. destruct sc; [|apply d_ret].
  eapply d_weak with (K' := also K QSpace); [|intros q; now left]. eapply d_bind; [apply d_space|]. intros _. eapply d_bind; [|intros r; apply d_ret]. apply d_read.
  intros S T H E. assert (E1 : space_scaler S = space_scaler T) by (apply (E QSpace); now right). now rewrite E1.
Qed.
Lemma d_gdomain K m so sc b : det K K (get_domain_s m so sc b).
Proof. unfold get_domain_s. eapply d_bind; [apply d_gtime|]. intros t. eapply d_bind; [apply d_gcenters|]. intros c. apply d_ret. Qed.
Lemma fold_ext {A B} (f g : A -> B -> A) l : (forall a b, f a b = g a b) -> forall a, fold_left f l a = fold_left g l a.
Proof. intros H. induction l as [|b l IH]; intros a; cbn; [reflexivity|]. now rewrite H, IH. Qed.
Lemma add_column_dict m so un u b melt S T df c : scalers_dict S = scalers_dict T ->
  add_column_s m so un u b melt false S df c = add_column_s m so un u b melt false T df c.
Proof. intros H. unfold add_column_s, add_time_s, add_date_s, add_cells_s, add_wells_rate_s, add_wells_pressures_s, name_str. reflexivity. Qed.
Lemma d_full m so un cols b u melt sc : det nothing nothing (full_df_s m so un cols b u melt sc).
Proof.
  destruct sc.
  - unfold full_df_s. cbn [mwhen]. eapply d_weak with (K' := fun _ => True); [|auto]. eapply d_bind; [apply d_update|]. intros _.
    assert (D : det (fun _ => True) (fun _ => True) (if melt then melted_start_s m so b true else mret (@frame0 F))).
    { destruct melt; [|apply d_ret]. unfold melted_start_s. destruct so; [|apply d_const]. eapply d_bind; [apply d_const|]. intros df. unfold add_xyz_s.
      eapply d_bind; [apply d_gcenters|]. intros c. apply d_ret. }
    eapply d_bind; [exact D|]. intros df. apply d_read. intros S T (H & _) E. assert (S = T) by (apply same_eq; auto). now subst.
  - unfold full_df_s. cbn [mwhen]. eapply d_bind; [apply d_ret|]. intros _. 
    assert (D : det nothing nothing (if melt then melted_start_s m so b false else mret (@frame0 F))).
    { destruct melt; [|apply d_ret]. unfold melted_start_s. destruct so; [|apply d_const]. eapply d_bind; [apply d_const|]. intros df. unfold add_xyz_s.
      eapply d_bind; [apply d_gcenters|]. intros c. apply d_ret. }
    eapply d_bind; [exact D|]. intros df. apply d_read. intros S T (H & _) E. apply fold_ext. intros r c. destruct r; cbn [rbind]; [|reflexivity]. now apply add_column_dict.
Qed.
Lemma d_df m so un cols b u melt sc dn dz : det nothing nothing (get_df_s m so un cols b u melt sc dn dz).
Proof. unfold get_df_s. eapply d_bind; [apply d_full|]. intros df. apply d_ret. Qed.
Lemma det_same {A} (c : M scs A) S T : det nothing nothing c -> same S T -> snd (c S) = snd (c T).
Proof. intros H E. apply (H S T E). intros q []. Qed.

(** ** Names and kinds of the scalers agree *)
Definition consistent (S : scs) : Prop := forall q, exists c, sget (qname q) (scalers_dict S) = Some c /\
  match fst c with Some _ => exists k, scaler_of S q = MinMax k | None => scaler_of S q = Dummy end.
Lemma consistent_same S T : same S T -> consistent S -> consistent T.
Proof.
  intros (D & H) C q. destruct (C q) as (c & E & K). exists c. rewrite <- D. split; auto. specialize (H q).
  destruct (fst c); [destruct K as (k & K)|]; rewrite K in H; destruct (scaler_of T q); cbn in H; try discriminate; eauto.
Qed.
Lemma create_kind (c : conf fl) x str : create_scaler c = Ok (x, str) ->
  match fst (match c with (Some _, Some r) => (str, Some r) | _ => (None, None) end) with Some _ => exists k, x = MinMax k | None => x = Dummy end.
Proof.
  destruct c as [[t|] [r|]]; cbn; try (intros E; inversion E; reflexivity). destruct (_ || _)%bool; [|discriminate]. intros E. inversion E. eauto.
Qed.
Lemma set_scaler_consistent S k c : consistent S -> consistent (fst (set_scaler S k c)).
Proof.
  intros C. unfold set_scaler.
  assert (G : forall q, consistent (fst (match create_scaler c with Err e => (S, Err e) | Ok (sc, str) => (record_conf (snd (place q) S sc) (qname q) c str, Ok tt) end))).
  { intros q. destruct (create_scaler c) as [[x str]|e] eqn:E; [|exact C]. cbn [fst]. intros q'. unfold record_conf. cbn [scalers_dict]. rewrite place_dict.
    apply create_kind in E. destruct (qeqb q q') eqn:Q.
    - assert (q' = q) by (destruct q, q'; try discriminate; reflexivity). subst q'. eexists. rewrite sget_sset_same. split; [reflexivity|].
      replace (scaler_of _ q) with x by (now destruct q). exact E.
    - destruct (C q') as (c' & E1 & E2). exists c'. rewrite sget_sset_other by (intros X; destruct q, q'; discriminate). split; auto.
      replace (scaler_of _ q') with (scaler_of S q') by (destruct q, q'; try discriminate; reflexivity). exact E2. }
  repeat match goal with |- context [if smem ?a ?l then _ else _] => destruct (smem a l) end; [exact (G QTime)|exact (G QSpace)|exact (G QPressure)|exact (G QRate)|exact C].
Qed.
Lemma set_scalers_consistent d : forall S, consistent S -> consistent (fst (set_scalers S d)).
Proof.
  induction d as [|[k c] d IH]; intros S C; cbn [set_scalers]; [exact C|]. pose proof (set_scaler_consistent S k c C) as C1.
  destruct (set_scaler S k c) as [S1 [?|?]]; cbn [andthen fst] in *; auto.
Qed.
Lemma new_consistent : consistent scalers_new.
Proof. intros q. unfold scalers_new. destruct q; eexists; (split; [reflexivity|]); first [eexists; reflexivity|reflexivity]. Qed.
Lemma dafter_consistent l : forall S, consistent S -> consistent (dafter S l).
Proof.
  induction l as [|c l IH]; intros S C; [exact C|]. cbn. apply IH. destruct c as [d| | | | |]; [now apply set_scalers_consistent| | | | |];
    (eapply consistent_same; [apply same_sym, dstep_same; exact I|exact C]).
Qed.
End state.
