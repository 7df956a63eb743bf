(** Until the flux selection, a survey leaves every selector's [sampled] flag,
    class and parameter values alone. *)
From Verif Require Import Base BaseFacts Keeps Env ParamModel SelModel SelSpec SelProofs SimVarModel DistModel AuxModel AuxSpec AuxProofs
  Tree PopModel SynthModel SynthFrame.
Open Scope list_scope.

Create HintDb kept discriminated.
Section P.
Variable E : env.
Notation V := (V E).
Notation Rst := (Rst E).
Notation selector := (selector E).
Notation sampler := (sampler E).
Notation world := (world E).
Notation synth := (synth E).

Definition same_setup (s s' : selector) : Prop :=
  sel_static E s' = sel_static E s /\ s_sampled s' = s_sampled s /\ forall k v, par_is s k v <-> par_is s' k v.
Lemma setup_refl s : same_setup s s. Proof. split; [easy|]. split; [easy|]. reflexivity. Qed.
Lemma setup_trans a b c : same_setup a b -> same_setup b c -> same_setup a c.
Proof. intros (A1 & A2 & A3) (B1 & B2 & B3). split; [congruence|]. split; [congruence|]. intros k v. now rewrite A3, B3. Qed.

Definition Rk (a b : selector * Rst) : Prop := same_setup (fst a) (fst b).
Lemma Rk_refl a : Rk a a. Proof. apply setup_refl. Qed.
Lemma Rk_trans a b c : Rk a b -> Rk b c -> Rk a c. Proof. apply setup_trans. Qed.

Ltac kg refl trans := repeat first
  [ assumption | solve [trivial with kept]
  | match goal with
    | |- keeps _ (let _ := _ in _) => cbv zeta
    | |- keeps _ (ret _) => apply keeps_ret; exact refl
    | |- keeps _ (raise _) => apply keeps_raise; exact refl
    | |- keeps _ (lift _) => apply keeps_lift; exact refl
    | |- keeps _ get => apply keeps_get; exact refl
    | |- keeps _ (gets _) => apply keeps_gets; exact refl
    | |- keeps _ (iterM _ _) => apply keeps_iter; [exact refl|exact trans|intros ?]
    | |- keeps _ (foldM _ _ _) => apply keeps_fold; [exact refl|exact trans|intros ? ?]
    | |- keeps _ (repeatM _ _) => apply keeps_repeat; [exact refl|exact trans|]
    | |- keeps _ (bind _ _) => apply keeps_bind; [exact trans| |intros ?]
    end ].
Ltac ks := kg Rk_refl Rk_trans.

Lemma param_get_keeps (d d2 : pdecl V) k k2 o :
  (k = k2 -> d = d2) -> fst (param_get d2 k2 (snd (param_get d k o))) = fst (param_get d2 k2 o).
Proof.
  intros S. unfold param_get in *.
  destruct (String.eqb_spec k k2) as [->|N].
  - rewrite (S eq_refl) in *. unfold touch_norm in *. destruct (pd_norm d2); cbn [po_store] in *;
    (destruct (dget (po_store o) k2) as [[w|]|] eqn:Q;
     [cbn [snd po_store]; now rewrite Q| |];
     (destruct (pd_default d2) as [w|] eqn:Q2; cbn [snd fst po_store];
      rewrite ?dget_dset_eq, ?Q; reflexivity)).
  - set (o' := snd _). assert (H : dget (po_store o') k2 = dget (po_store o) k2).
    { subst o'. unfold touch_norm. destruct (pd_norm d); cbn [po_store];
      (destruct (dget (po_store o) k) as [[w|]|]; cbn [snd po_store]; [reflexivity| |];
       (destruct (pd_default d); cbn [snd po_store]; [now apply dget_dset_neq; auto|try reflexivity; now apply dget_dset_neq; auto])). }
    unfold touch_norm. destruct (pd_norm d2); cbn [po_store]; rewrite H;
      destruct (dget (po_store o) k2) as [[w|]|]; auto; destruct (pd_default d2); auto.
Qed.

Lemma read_par_kept k : keeps Rk (@read_par E k).
Proof.
  intros [s g]. unfold read_par. destruct (dget (sel_class (s_kind s)) k) as [d|] eqn:D; [|apply Rk_refl].
  assert (G := param_get_keeps d). destruct (param_get d k (s_par s)) as [r o] eqn:X. cbn.
  split; [reflexivity|]. split; [reflexivity|]. intros k2 b.
  assert (K : forall d2, dget (sel_class (s_kind s)) k2 = Some d2 -> fst (param_get d2 k2 o) = fst (param_get d2 k2 (s_par s))).
  { intros d2 D2. specialize (G d2 k k2 (s_par s)). rewrite X in G. apply G. intros ->. congruence. }
  split; intros (d2 & D2 & R); exists d2; cbn in *; (split; [easy|]); specialize (K _ D2); congruence.
Qed.
Hint Resolve read_par_kept : kept.
Lemma with_mask_setup s m : same_setup s (with_mask s m). Proof. split; [easy|]. split; [easy|]. reflexivity. Qed.
Lemma store_mask_kept m : keeps Rk (@store_mask E m). Proof. intros [s g]. apply with_mask_setup. Qed.
Hint Resolve store_mask_kept : kept.
Lemma bern1_kept p : keeps Rk (@bern1 E p).
Proof. intros [s g]. unfold bern1. destruct (r_bern_ok E p); [|apply Rk_refl]. cbn. destruct (r_bern E p g). apply setup_refl. Qed.
Hint Resolve bern1_kept : kept.
Lemma bern_vec_kept p : keeps Rk (@bern_vec E p).
Proof. intros [s g]. unfold bern_vec. destruct (forallb _ p); [|apply Rk_refl]. cbn. destruct (rmapdraws _ p g). apply setup_refl. Qed.
Hint Resolve bern_vec_kept : kept.
Lemma bern_n_kept p n : keeps Rk (@bern_n E p n).
Proof. intros [s g]. unfold bern_n. destruct (r_bern_ok E p); [|apply Rk_refl]. cbn. destruct (rdraws _ n g). apply setup_refl. Qed.
Hint Resolve bern_n_kept : kept.
Lemma sel_draw_kept prog n : keeps Rk (@sel_draw E prog n).
Proof.
  unfold sel_draw, here. ks. destruct (s_kind a); ks.
  - destruct prog; ks. unfold bern_loop. ks.
  - intros [s g]. cbn [fst snd]. destruct (draw (s_data a) n g) as [[m|e] g']; [apply with_mask_setup|apply setup_refl].
Qed.
Hint Resolve sel_draw_kept : kept.

Definition wkept (w w' : world) : Prop :=
  forall i s, nth_error (w_sels w) i = Some s -> exists s', nth_error (w_sels w') i = Some s' /\ same_setup s s'.
Lemma wkept_refl w : wkept w w. Proof. intros i s H. exists s. split; [easy|apply setup_refl]. Qed.
Lemma wkept_trans a b c : wkept a b -> wkept b c -> wkept a c.
Proof.
  intros A B i s H. destruct (A i s H) as (s1 & H1 & S1). destruct (B i s1 H1) as (s2 & H2 & S2).
  exists s2. split; [easy|]. eapply setup_trans; eauto.
Qed.
Lemma same_sels w w' : w_sels w' = w_sels w -> wkept w w'.
Proof. intros H i s. rewrite H. intros S. exists s. split; [easy|apply setup_refl]. Qed.
Ltac kw := kg wkept_refl wkept_trans.

Lemma get_aux_kept i : keeps wkept (@get_aux E i). Proof. intros w. apply wkept_refl. Qed.
Hint Resolve get_aux_kept : kept.
Lemma get_sel_kept i : keeps wkept (@get_sel E i). Proof. intros w. apply wkept_refl. Qed.
Hint Resolve get_sel_kept : kept.
Lemma upd_aux_kept i f : keeps wkept (@upd_aux E i f).
Proof. intros w. unfold upd_aux, bind, get_aux. destruct (nth_error (w_auxs w) i); now apply same_sels. Qed.
Hint Resolve upd_aux_kept : kept.
Lemma lset_kept w i s s' g : nth_error (w_sels w) i = Some s -> same_setup s s' ->
  wkept w (w_set_gens g (w_set_sels (lset (w_sels w) i s') w)).
Proof.
  intros N S j x X. cbn [w_sels w_set_gens w_set_sels]. destruct (Nat.eq_dec j i) as [->|D].
  - exists s'. rewrite N in X. injection X as <-. split; [|easy]. apply nth_lset_eq. apply nth_error_Some. congruence.
  - exists x. rewrite nth_lset_neq by auto. split; [easy|apply setup_refl].
Qed.
Lemma upd_sel_kept i f : (forall s, same_setup s (f s)) -> keeps wkept (@upd_sel E i f).
Proof.
  intros F w. unfold upd_sel, bind, get_sel. destruct (nth_error (w_sels w) i) as [a|] eqn:A; [|apply wkept_refl].
  exact (lset_kept w i a (f a) (w_g w, w_n w) A (F a)).
Qed.
Lemma on_sel_kept A i (m : SM E A) : keeps Rk m -> keeps wkept (on_sel i m).
Proof.
  intros F w. unfold on_sel, bind, get_sel. destruct (nth_error (w_sels w) i) as [a|] eqn:X; [|apply wkept_refl].
  cbn. specialize (F (a, w_g w)). destruct (m (a, w_g w)) as [r [s' g']]. cbn in F |- *.
  now apply lset_kept with a.
Qed.
Lemma aux_reads_kept i ks : keeps wkept (@aux_reads E i ks).
Proof. unfold aux_reads. kw. destruct (preads _ _ _ _). kw. Qed.
Hint Resolve aux_reads_kept : kept.
Lemma modify_log_kept i : keeps wkept (modify (@w_add_log E i)). Proof. intros w. now apply same_sels. Qed.
Hint Resolve modify_log_kept : kept.
Lemma gens_kept A (f : world -> res A * gens E) : keeps wkept (fun w => let (r, g) := f w in (r, w_set_gens g w)).
Proof. intros w. cbn. destruct (f w). now apply same_sels. Qed.
Lemma run_true_kept i n : keeps wkept (@run_true E i n).
Proof. unfold run_true. kw; [apply gens_kept|]. destruct a3; kw. Qed.
Hint Resolve run_true_kept : kept.
Lemma run_obs_kept i n : keeps wkept (@run_obs E i n).
Proof. unfold run_obs. kw; [apply gens_kept|]. destruct a2; kw. Qed.
Hint Resolve run_obs_kept : kept.
Lemma run_prob_kept i : keeps wkept (@run_prob E i).
Proof. unfold run_prob. kw. Qed.
Hint Resolve run_prob_kept : kept.
Lemma with_data_setup s d : same_setup s (with_data s d). Proof. split; [easy|]. split; [easy|]. reflexivity. Qed.
Lemma aux_pre_kept a : keeps wkept (@aux_pre E a).
Proof.
  unfold aux_pre. kw.
  - destruct (a_usesd (a_st a)); [|kw]. destruct (a_sp (a_dy a)); [|kw]. apply upd_sel_kept. intros. apply with_data_setup.
  - destruct (a_lum (a_dy a)); [|kw]. apply upd_sel_kept. intros. apply with_data_setup.
Qed.
Hint Resolve aux_pre_kept : kept.
Lemma aux_finish_kept prog i n : keeps wkept (@aux_finish E prog i n).
Proof.
  unfold aux_finish. kw.
  - destruct (a_observed (a_st a0)); kw.
  - apply upd_sel_kept. intros. apply with_data_setup.
  - apply on_sel_kept, sel_draw_kept.
Qed.
Hint Resolve aux_finish_kept : kept.
Lemma set_sp_kept i sp : keeps wkept (@set_sp E i sp). Proof. apply upd_aux_kept. Qed.
Hint Resolve set_sp_kept : kept.
Lemma set_lum_kept i l : keeps wkept (@set_lum E i l). Proof. apply upd_aux_kept. Qed.
Hint Resolve set_lum_kept : kept.
Lemma aux_draw_kept prog fuel : forall i n, keeps wkept (@aux_draw E prog fuel i n).
Proof.
  induction fuel as [|fuel IH]; intros i n; cbn [aux_draw]; [kw|].
  kw. destruct (a_sampled (a_dy a)); kw.
  destruct (a_issec (a_ln a2)); [|kw]. destruct (a_sp (a_dy a)); kw.
Qed.
Hint Resolve aux_draw_kept : kept.

Definition ykept (y y' : synth) : Prop := wkept (y_w y) (y_w y').
Lemma ykept_refl y : ykept y y. Proof. apply wkept_refl. Qed.
Lemma ykept_trans a b c : ykept a b -> ykept b c -> ykept a c. Proof. apply wkept_trans. Qed.
Ltac ky := kg ykept_refl ykept_trans.
Lemma in_w_kept A (m : AM E A) : keeps wkept m -> keeps ykept (in_w m).
Proof. intros H y. unfold in_w. specialize (H (y_w y)). destruct (m (y_w y)) as [r w]. exact H. Qed.
Lemma in_sp_kept A (m : DM E A) : keeps ykept (in_sp m).
Proof. intros y. unfold in_sp. destruct (m (y_sp y, w_g (y_w y))) as [r [d g]]. now apply same_sels. Qed.
Lemma in_lum_kept A (m : LM E A) : keeps ykept (in_lum m).
Proof.
  intros y. unfold in_lum. destruct (y_lum y) as [l|]; [|apply ykept_refl].
  destruct (m (l, w_g (y_w y))) as [r [d g]]. now apply same_sels.
Qed.
Lemma in_g_kept A (m : M Rst A) : keeps ykept (in_g m).
Proof. intros y. unfold in_g. destruct (m (w_g (y_w y))). now apply same_sels. Qed.
Hint Resolve in_g_kept in_sp_kept in_lum_kept : kept.
Lemma survey_size_kept ns norm : keeps ykept (@survey_size E ns norm).
Proof. unfold survey_size. ky; [intros y; now apply same_sels|]. destruct ns; ky. Qed.
Hint Extern 0 (keeps _ (in_w _)) => apply in_w_kept; solve [trivial with kept] : kept.
Lemma times_kept p q : keeps ykept (@times E p q). Proof. unfold times. ky. Qed.
Hint Resolve times_kept : kept.
Lemma add_truth_kept i t : keeps ykept (@add_truth E i t). Proof. unfold add_truth, sampler_truth. ky. Qed.
Hint Resolve add_truth_kept : kept.
Lemma get_sp_kept : keeps ykept (@get_sp E). Proof. unfold get_sp. ky. Qed.
Hint Resolve get_sp_kept : kept.
Lemma props_kept rl i : keeps ykept (@props E rl i). Proof. unfold props. ky. Qed.
Hint Resolve props_kept : kept.
Lemma check_len_kept n i : keeps ykept (@check_len E n i). Proof. unfold check_len. ky. Qed.
Hint Resolve check_len_kept : kept.
Lemma in_w_get_kept : keeps ykept (in_w (E := E) get). Proof. intros y. now apply same_sels. Qed.
Hint Resolve in_w_get_kept : kept.
Lemma survey_lum_kept prog rl n p t : keeps ykept (@survey_lum E prog rl n p t).
Proof. unfold survey_lum. ky. destruct (y_lum a), (y_der a); ky. Qed.
Lemma survey_aux_kept prog rl n l acc kv : keeps ykept (@survey_aux E prog rl n l acc kv).
Proof.
  unfold survey_aux. ky.
  - destruct (a_usesl _); ky.
  - destruct (a_usesd _); ky.
Qed.
Lemma survey_flux_kept sg l10 n f : keeps ykept (@survey_flux E sg l10 n f).
Proof. unfold survey_flux. ky. destruct (is_unity _), sg; ky. destruct (vlt _ _ _); ky. Qed.
End P.
