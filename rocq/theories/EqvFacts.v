(** Methods of the FDM solution do not see differences in the model outside what
    they read: a general lemma, for maps of the model commuting with the
    assignments FDM makes to it. *)
From Coq Require Import String ZArith Bool Arith List Lia.
From Verif Require Import Prelude PreludeFacts Num GridModel GeoModel PropModel BlackOilModel FdmModel MonadFacts.
Import ListNotations.
Open Scope nat_scope.

Section commuting.
Context {F : Type} {NF : Num F}.
Variable (psi : bo F -> bo F) (P : bo F -> Prop).
Notation phi := (fun x : st F => (psi (fst x), snd x)).
Notation PP := (fun x : st F => P (fst x)).
Hypothesis (Hgrid : forall m, b_grid (psi m) = b_grid m) (Hids : forall m, b_ids (psi m) = b_ids m)
  (Hmu : forall m, b_mu (psi m) = b_mu m) (HB : forall m, b_B (psi m) = b_B m) (Hg : forall m, b_g (psi m) = b_g m)
  (Hdt : forall m, b_dt (psi m) = b_dt m) (Hcmp : forall m, b_cmp (psi m) = b_cmp m) (HRHS : forall m, b_RHS (psi m) = b_RHS m)
  (Hwells : forall m, b_wells (psi m) = b_wells m) (Hwp : forall m, b_wp (psi m) = b_wp m) (Hterms : forall m, b_terms (psi m) = b_terms m).
Hypothesis (Cwells : forall v m, psi (set_wells v m) = set_wells v (psi m)) (Cwp : forall v m, psi (set_wp v m) = set_wp v (psi m))
  (Cterms : forall v m, psi (set_terms v m) = set_terms v (psi m)).
Hypothesis (Pwells : forall v m, P m -> P (set_wells v m)) (Pwp : forall v m, P m -> P (set_wp v m)) (Pterms : forall v m, P m -> P (set_terms v m)).
Hypothesis (Hbt : forall m id idb T, P m -> b_term (psi m) id idb T = b_term m id idb T).

Lemma psi_trans m id b : get_cell_trans (psi m) id b = get_cell_trans m id b.
Proof. unfold get_cell_trans, muB. now rewrite Hgrid, Hmu, HB. Qed.
Lemma psi_ctrans m b : get_cells_trans (psi m) b = get_cells_trans m b.
Proof. unfold get_cells_trans, muB. now rewrite Hgrid, Hmu, HB. Qed.
Lemma psi_i m id : cell_i (psi m) id = cell_i m id.
Proof. unfold cell_i. now rewrite Hids. Qed.
Lemma psi_z m : gz (psi m) = gz m.
Proof. unfold gz. now rewrite Hgrid. Qed.
Lemma psi_n m id idn T : n_term (psi m) id idn T = n_term m id idn T.
Proof. unfold n_term, dz. now rewrite psi_z, Hg. Qed.
Lemma psi_mode m w : w_mode (psi m) w = w_mode m w.
Proof. unfold w_mode. now rewrite HB, Hmu. Qed.
Lemma psi_w m id w : w_term (psi m) id w = w_term m id w.
Proof. unfold w_term. now rewrite psi_mode. Qed.
Lemma psi_wn m w p : w_num (psi m) w p = w_num m w p.
Proof. unfold w_num. now rewrite psi_mode. Qed.
Lemma psi_a m s id : a_term (psi m) s id = a_term m s id.
Proof. unfold a_term. now rewrite Hcmp, HRHS. Qed.
Lemma rmapM_ext {A B} (f g : A -> res B) l : (forall a, f a = g a) -> rmapM f l = rmapM g l.
Proof. intros E. induction l as [|a l IH]; cbn; auto. now rewrite E, IH. Qed.

Lemma e_cell_eq sc id : eqv PP phi (get_cell_eq sc id).
Proof.
  unfold get_cell_eq. apply e_bind.
  { apply e_read. intros [m s] Pm. cbn [fst snd] in *. rewrite Hterms. destruct (dget id (b_terms m)) as [t|].
    - unfold old_terms. rewrite Hwells, Hcmp. destruct (dget id (b_wells m)) as [w|].
      + rewrite psi_w, psi_a. reflexivity.
      + rewrite psi_a. reflexivity.
    - unfold new_terms, bgrid. rewrite Hids, Hgrid, Hwells, psi_a, psi_trans.
      destruct (dget id (b_wells m)) as [w|]; rewrite ?psi_w;
      (destruct (passert (zmem id (b_ids m))); [|reflexivity]); cbn [rbind];
      (destruct (get_cell_neighbors (ggrid (b_grid m)) id false); [|reflexivity]); cbn [rbind];
      (destruct (get_cell_boundaries (ggrid (b_grid m)) id); [|reflexivity]); cbn [rbind];
      (destruct (get_cell_trans m id true) as [T|]; [|reflexivity]); cbn [rbind].
      all: rewrite (rmapM_ext (fun idn => let* t := dgetE idn T in n_term (psi m) id idn t) (fun idn => let* t := dgetE idn T in n_term m id idn t))
           by (intros; destruct (dgetE _ _); [cbn; apply psi_n|reflexivity]).
      all: rewrite (rmapM_ext (fun idn => let* t := dgetE idn T in b_term (psi m) id idn t) (fun idn => let* t := dgetE idn T in b_term m id idn t))
           by (intros; destruct (dgetE _ _); [cbn; apply Hbt, Pm|reflexivity]).
      all: reflexivity. }
  intros t. apply e_bind.
  { apply e_set. intros [m s] Pm. cbn [fst snd] in *. rewrite Hterms, Cterms. auto. }
  intros _. apply e_read. auto.
Qed.
Lemma e_cells_loop sc ids : eqv PP phi (cells_eq_loop sc ids).
Proof.
  induction ids as [|id ids IH]; cbn [cells_eq_loop]; [apply e_ret|].
  apply e_bind; [apply e_cell_eq|]. intros e. apply e_bind; [apply IH|]. intros. apply e_ret.
Qed.
Lemma symb_rows_psi m thr eqs o Ad : symb_rows (psi m) thr eqs o Ad = symb_rows m thr eqs o Ad.
Proof.
  unfold symb_rows. generalize (Ok Ad). induction o as [|id o IH]; intros r; cbn [fold_left]; auto.
  rewrite IH. f_equal. destruct r as [Ad'|]; auto. cbn [rbind].
  assert (E : forall e, symb_row (psi m) id e Ad' = symb_row m id e Ad').
  { intros e. unfold symb_row. rewrite (rmapM_ext (fun kc => let* j := cell_i (psi m) (fst kc) in Ok (j, snd kc)) (fun kc => let* j := cell_i m (fst kc) in Ok (j, snd kc)))
      by (intros; now rewrite psi_i). now rewrite psi_i. }
  destruct (dgetE id eqs); cbn [rbind]; [|reflexivity]. now rewrite E.
Qed.
Lemma e_symb sc thr : eqv PP phi (get_matrices_symb sc thr).
Proof.
  unfold get_matrices_symb, get_cells_eq. apply e_bind.
  { apply e_bind; [|intros; apply e_cells_loop]. apply e_read. intros x Px. cbn [fst]. now rewrite Hids. }
  intros eqs. apply e_bind. { apply e_set. intros [m s] Pm. cbn [fst snd] in *. rewrite Hids. auto. }
  intros _. apply e_bind.
  { apply e_set. intros [m s] Pm. cbn [fst snd] in *. destruct (attrE (s_sym s)) as [Ad|]; cbn [rbind]; auto.
    rewrite symb_rows_psi, Hids. destruct (symb_rows m thr eqs (b_ids m) Ad); cbn [rbind]; auto. }
  intros _. apply e_read. auto.
Qed.

(** ** Vectorised assembly and the step *)
Hypothesis (Hbup : forall m, b_bup (psi m) = b_bup m).
Hypothesis (Hbn : forall m id idb p T, P m -> b_num (psi m) id idb p T = b_num m id idb p T).
Hypothesis (Hvb : forall m s d, P m ->
  fold_left (fun acc e => let* d := acc in vect_b (psi m, s) d e) (b_bdict (psi m)) (Ok d) =
  fold_left (fun acc e => let* d := acc in vect_b (m, s) d e) (b_bdict m) (Ok d)).

Lemma e_snd (f : bo F -> fs F -> res (fs F)) : (forall m s, P m -> f (psi m) s = f m s) ->
  eqv PP phi (mset (fun x => let* s := f (fst x) (snd x) in Ok (fst x, s))).
Proof. intros H. apply e_set. intros [m s] Pm. cbn [fst snd] in *. rewrite H by auto. destruct (f m s); cbn [rbind]; auto. Qed.
Lemma e_addto id v : eqv PP phi (addto_A id v).
Proof.
  apply e_set. intros [m s] Pm. cbn [fst snd] in *. rewrite psi_i. destruct (cell_i m id); cbn [rbind]; auto.
  destruct (attrE (s_A s)); cbn [rbind]; auto. destruct v; auto.
Qed.
Lemma e_only idb : eqv PP phi (mread (fun x : st F => let* T := get_cell_trans (fst x) idb false in the_only T)).
Proof. apply e_read. intros [m s] _. cbn [fst]. now rewrite psi_trans. Qed.
Lemma e_init_b idb : eqv PP phi (init_b idb).
Proof.
  unfold init_b. apply e_bind; [apply e_only|]. intros T. apply e_bind.
  { apply e_read. intros [m s] Pm. cbn [fst] in *. now apply Hbt. }
  intros b. apply e_bind; [apply e_read; auto|]. intros v. apply e_bind; [apply e_set; auto|]. intros _. apply e_addto.
Qed.
Lemma psi_init_A m : init_A (psi m) = init_A m.
Proof. unfold init_A. now rewrite psi_ctrans, Hids, HRHS. Qed.
Lemma e_init_vect : eqv PP phi init_vect.
Proof.
  unfold init_vect. apply e_bind; [apply e_set; auto|]. intros _. apply e_bind.
  { apply e_set. intros [m s] Pm. cbn [fst snd] in *. rewrite psi_init_A. destruct (init_A m); cbn [rbind]; auto. }
  intros _. apply e_bind; [apply e_set; auto|]. intros _. apply e_bind.
  { apply e_read. intros [m s] _. cbn [fst]. now rewrite Hbup. }
  intros ids. apply e_iter. intros; apply e_init_b.
Qed.
Lemma psi_sub_d m d id v : sub_d (psi m) d id v = sub_d m d id v.
Proof. unfold sub_d. now rewrite psi_i. Qed.
Lemma e_vect_well id du : eqv PP phi (vect_well id du).
Proof.
  unfold vect_well. apply e_bind. { apply e_read. intros [m s] _. cbn [fst]. now rewrite Hwells. }
  intros w. apply e_bind; [apply e_read; auto|]. intros [|].
  - apply e_read. intros [m s] _. cbn [fst snd]. destruct (at2 (s_p s) (s_tstep s) id); cbn [rbind]; auto.
    rewrite psi_wn. destruct (w_num m w a); cbn [rbind]; auto. now rewrite psi_sub_d.
  - apply e_bind; [apply e_read; auto|]. intros [|]; [|apply e_ret].
    apply e_bind. { apply e_read. intros [m s] _. cbn [fst]. now rewrite psi_w. }
    intros v. apply e_bind. { apply e_read. intros [m s] _. cbn [fst]. now rewrite psi_sub_d. }
    intros d. apply e_bind; [apply e_read; auto|]. intros done. apply e_bind; [|intros; apply e_ret].
    apply e_when. intros _. apply e_bind; [apply e_addto|]. intros _. apply e_set; auto.
Qed.
Lemma e_vect_wells ids : forall du, eqv PP phi (vect_wells ids du).
Proof.
  induction ids as [|id ids IH]; intros du; cbn [vect_wells]; [apply e_ret|]. apply e_bind; [apply e_vect_well|]. auto.
Qed.
Lemma psi_update_z m d : update_z (psi m) d = update_z m d.
Proof. unfold update_z, get_cells_trans_diag_1, bgrid, muB. rewrite psi_z, Hids, Hgrid, Hmu, HB, Hg. reflexivity. Qed.
Lemma e_vect : eqv PP phi get_matrices_vect.
Proof.
  unfold get_matrices_vect. apply e_bind; [apply e_read; auto|]. intros ini. apply e_bind; [apply e_when; intros; apply e_init_vect|].
  intros _. apply e_bind. { apply e_read. intros [m s] _. cbn [fst snd]. unfold init_d. now rewrite Hcmp, Hids, HRHS. }
  intros d. apply e_bind. { apply e_read. intros [m s] _. cbn [fst]. now rewrite Hwells. }
  intros wids. apply e_bind; [apply e_vect_wells|]. intros du. apply e_bind.
  { apply e_read. intros [m s] Pm. cbn [fst snd] in *. now apply Hvb. }
  intros d'. apply e_bind. { apply e_read. intros [m s] _. cbn [fst]. now rewrite psi_update_z. }
  intros d''. apply e_bind; [apply e_read; auto|]. intros; apply e_ret.
Qed.
Lemma e_put_r id v : eqv PP phi (put_r id v).
Proof. apply e_set. intros [m s] Pm. cbn [fst snd] in *. destruct (set2 (s_r s) (s_tstep s) id v); cbn [rbind]; auto. Qed.
Lemma e_upd_boundaries : eqv PP phi update_boundaries.
Proof.
  unfold update_boundaries. apply e_bind. { apply e_read. intros [m s] _. cbn [fst]. now rewrite Hbup. }
  intros ids. apply e_iter. intros idb _. unfold update_boundary. apply e_bind; [apply e_only|]. intros T. apply e_bind; [apply e_read; auto|].
  intros p. apply e_bind; [|intros; apply e_put_r]. apply e_read. intros [m s] Pm. cbn [fst] in *. now apply Hbn.
Qed.
Lemma e_upd_wells id f : eqv PP phi (upd_wells id f).
Proof.
  apply e_set. intros [m s] Pm. cbn [fst snd] in *. rewrite Hwells. destruct (dgetE id (b_wells m)); cbn [rbind]; auto.
  split; [cbn [fst snd]; now rewrite Cwells|apply Pwells, Pm].
Qed.
Lemma e_update_well id : eqv PP phi (update_well id).
Proof.
  unfold update_well. apply e_bind. { apply e_read. intros [m s] _. cbn [fst]. now rewrite Hwells. }
  intros w. apply e_bind; [apply e_read; auto|]. intros p. apply e_bind.
  { apply e_read. intros [m s] _. cbn [fst]. now rewrite HB, Hmu. }
  intros est. apply e_bind; [apply e_read; auto|]. intros lim. apply e_bind.
  { apply e_if.
    - apply e_bind; [apply e_upd_wells|]. intros; apply e_ret.
    - apply e_bind; [apply e_read; auto|]. intros b. apply e_bind; [apply e_upd_wells|]. intros; apply e_ret. }
  intros rb. apply e_bind; [apply e_upd_wells|]. intros _. apply e_bind.
  { apply e_read. intros [m s] _. cbn [fst]. rewrite Hwells. destruct (dgetE id (b_wells m)); cbn [rbind]; auto. apply psi_wn. }
  intros q. apply e_bind; [apply e_put_r|]. intros _. apply e_bind; [apply e_upd_wells|]. intros; apply e_ret.
Qed.
Lemma e_update_wells : eqv PP phi update_wells.
Proof.
  unfold update_wells. apply e_bind. { apply e_read. intros [m s] _. cbn [fst]. now rewrite Hwells. }
  intros ids. apply e_bind.
  { generalize (@nil (Z * fl F)). induction ids as [|id ids IH]; intros acc; cbn [update_wells_loop]; [apply e_ret|].
    apply e_bind; [apply e_update_well|]. intros rb. apply e_if; [apply e_ret|apply IH]. }
  intros [t|]; [|apply e_ret]. apply e_bind; [|intros; apply e_ret]. apply e_iter. intros id _. apply e_set. intros [m s] Pm. cbn [fst snd] in *.
  destruct (dgetE id t); cbn [rbind]; auto. rewrite Hwp. split; [cbn [fst snd]; now rewrite Cwp|apply Pwp, Pm].
Qed.
Lemma e_check_MB : eqv PP phi check_MB.
Proof.
  apply e_set. intros [m s] Pm. cbn [fst snd] in *. rewrite Hcmp, Hids, HRHS, Hdt.
  destruct (row_at (s_r s) (s_tstep s)); cbn [rbind]; auto. destruct (b_cmp m); auto.
  destruct (at_ids (b_ids m) (b_RHS m)); cbn [rbind]; auto.
  destruct (row_at (s_p s) (s_tstep s)); cbn [rbind]; auto.
  destruct (at_ids (b_ids m) a1); cbn [rbind]; auto.
  match goal with |- context [row_at (s_p s) (if ?t then ?u else ?v)] => destruct (row_at (s_p s) (if t then u else v)) end; cbn [rbind]; auto.
  match goal with |- context [at_ids (b_ids m) ?t] => destruct (at_ids (b_ids m) t) end; cbn [rbind]; auto.
  destruct (row_at (s_p s) 0); cbn [rbind]; auto.
  match goal with |- context [at_ids (b_ids m) ?t] => destruct (at_ids (b_ids m) t) end; cbn [rbind]; auto.
Qed.
Variables (slv : solver_kind -> @mat F -> list (fl F) -> res (list (fl F))) (sc : Z -> F).
Lemma e_system o : eqv PP phi (get_system sc o).
Proof.
  unfold get_system. destruct (o_print o).
  - apply e_bind; [apply e_symb|]. intros. apply e_bind; [apply e_vect|]. intros; apply e_ret.
  - apply e_if; [apply e_vect|apply e_symb].
Qed.
Lemma e_new_rows A d p : eqv PP phi (new_rows A d p).
Proof.
  unfold new_rows. apply e_bind; [apply e_set; auto|]. intros _. apply e_bind; [|intros; apply e_set; auto].
  apply e_set. intros [m s] Pm. cbn [fst snd] in *. rewrite Hids. destruct (row_at (s_p s) (s_tstep s)); cbn [rbind]; auto.
  destruct (set_many (b_ids m) p a); cbn [rbind]; auto.
Qed.
Lemma e_solve fuel sparse : forall o, eqv PP phi (solve slv sc fuel sparse o).
Proof.
  induction fuel as [|fuel IH]; intros o; cbn [solve]; [apply e_read; auto|].
  apply e_bind; [apply e_system|]. intros Ad. apply e_bind; [apply e_read; auto|]. intros p. apply e_if; [|apply e_ret].
  apply e_bind; [apply e_new_rows|]. intros _. apply e_bind; [apply e_upd_boundaries|]. intros _. apply e_bind; [apply e_update_wells|].
  intros again. apply e_bind; [|intros; apply e_when; intros; apply e_check_MB]. apply e_when. intros _.
  apply e_bind; [apply e_set; auto|]. intros _. apply IH.
Qed.
Lemma e_run n fuel sparse thr vect mb pr iso : eqv PP phi (run slv sc n fuel sparse thr vect mb pr iso).
Proof.
  unfold run. apply e_bind; [apply e_set; auto|]. intros _. apply e_bind; [|intros; apply e_when; intros; apply e_read; auto].
  induction n as [|n IH]; cbn [run_loop]; [apply e_ret|]. apply e_bind; [apply e_solve|]. auto.
Qed.
End commuting.
