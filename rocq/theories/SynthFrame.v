(** What drawing a survey does not change: the wiring of the samplers, the class
    and flags of the selectors, and the configuration of the synth. *)
From Verif Require Import Base BaseFacts Keeps Env ParamModel SelModel SimVarModel DistModel AuxModel AuxSpec AuxProofs
  Tree PopModel SynthModel.
Open Scope list_scope.

Create HintDb keep discriminated.
Section P.
Variable E : env.
Notation V := (V E).
Notation Rst := (Rst E).
Notation selector := (selector E).
Notation sampler := (sampler E).
Notation world := (world E).
Notation synth := (synth E).

Definition sel_static (s : selector) :=
  (s_kind s, s_type s, s_name s, (s_fobs s, s_fdist s, s_flum s, s_fflux s)).

Definition Rsel (a b : selector * Rst) : Prop := sel_static (fst b) = sel_static (fst a).
Lemma Rsel_refl a : Rsel a a. Proof. reflexivity. Qed.
Lemma Rsel_trans a b c : Rsel a b -> Rsel b c -> Rsel a c. Proof. unfold Rsel. congruence. Qed.

Ltac ks := repeat first
  [ assumption | solve [trivial with keep]
  | match goal with
    | |- keeps _ (let _ := _ in _) => cbv zeta
    | |- keeps _ (ret _) => apply keeps_ret; exact Rsel_refl
    | |- keeps _ (raise _) => apply keeps_raise; exact Rsel_refl
    | |- keeps _ (lift _) => apply keeps_lift; exact Rsel_refl
    | |- keeps _ get => apply keeps_get; exact Rsel_refl
    | |- keeps _ (gets _) => apply keeps_gets; exact Rsel_refl
    | |- keeps _ (iterM _ _) => apply keeps_iter; [exact Rsel_refl|exact Rsel_trans|intros ?]
    | |- keeps _ (foldM _ _ _) => apply keeps_fold; [exact Rsel_refl|exact Rsel_trans|intros ? ?]
    | |- keeps _ (repeatM _ _) => apply keeps_repeat; [exact Rsel_refl|exact Rsel_trans|]
    | |- keeps _ (bind _ _) => apply keeps_bind; [exact Rsel_trans| |intros ?]
    end ].

Lemma read_par_keeps k : keeps Rsel (@read_par E k).
Proof.
  intros [s g]. unfold read_par. destruct (dget _ k); [|reflexivity].
  destruct (param_get p k (s_par s)). reflexivity.
Qed.
Hint Resolve read_par_keeps : keep.
Lemma store_mask_keeps m : keeps Rsel (@store_mask E m). Proof. intros [s g]. reflexivity. Qed.
Hint Resolve store_mask_keeps : keep.
Lemma bern1_keeps p : keeps Rsel (@bern1 E p).
Proof. intros [s g]. unfold bern1. destruct (r_bern_ok E p); [|reflexivity]. cbn. now destruct (r_bern E p g). Qed.
Hint Resolve bern1_keeps : keep.
Lemma bern_vec_keeps p : keeps Rsel (@bern_vec E p).
Proof. intros [s g]. unfold bern_vec. destruct (forallb _ p); [|reflexivity]. cbn. now destruct (rmapdraws _ p g). Qed.
Hint Resolve bern_vec_keeps : keep.
Lemma bern_n_keeps p n : keeps Rsel (@bern_n E p n).
Proof. intros [s g]. unfold bern_n. destruct (r_bern_ok E p); [|reflexivity]. cbn. now destruct (rdraws _ n g). Qed.
Hint Resolve bern_n_keeps : keep.

Lemma sel_draw_keeps prog n : keeps Rsel (@sel_draw E prog n).
Proof.
  unfold sel_draw, here. ks. destruct (s_kind a); ks.
  - destruct prog; ks. unfold bern_loop. ks.
  - intros [s g]. cbn [fst snd]. destruct (draw (s_data a) n g) as [[m|e] g']; reflexivity.
Qed.
Hint Resolve sel_draw_keeps : keep.
Lemma sel_select_keeps prog n : keeps Rsel (@sel_select E prog n).
Proof.
  unfold sel_select, here. ks.
  - destruct (s_sampled a); ks.
  - destruct (s_mask a1); ks. intros [s g]. reflexivity.
Qed.
Hint Resolve sel_select_keeps : keep.

(** ** Worlds *)
Definition wframe (w w' : world) : Prop :=
  same_wiring w w' /\ map sel_static (w_sels w') = map sel_static (w_sels w).
Lemma wframe_refl w : wframe w w. Proof. split; reflexivity. Qed.
Lemma wframe_trans a b c : wframe a b -> wframe b c -> wframe a c.
Proof. intros [A1 A2] [B1 B2]. split; [eapply wiring_trans; eauto|congruence]. Qed.

Ltac kw := repeat first
  [ assumption | solve [trivial with keep]
  | match goal with
    | |- keeps _ (let _ := _ in _) => cbv zeta
    | |- keeps _ (ret _) => apply keeps_ret; exact wframe_refl
    | |- keeps _ (raise _) => apply keeps_raise; exact wframe_refl
    | |- keeps _ (lift _) => apply keeps_lift; exact wframe_refl
    | |- keeps _ get => apply keeps_get; exact wframe_refl
    | |- keeps _ (gets _) => apply keeps_gets; exact wframe_refl
    | |- keeps _ (iterM _ _) => apply keeps_iter; [exact wframe_refl|exact wframe_trans|intros ?]
    | |- keeps _ (foldM _ _ _) => apply keeps_fold; [exact wframe_refl|exact wframe_trans|intros ? ?]
    | |- keeps _ (repeatM _ _) => apply keeps_repeat; [exact wframe_refl|exact wframe_trans|]
    | |- keeps _ (bind _ _) => apply keeps_bind; [exact wframe_trans| |intros ?]
    end ].

Lemma get_aux_keeps i : keeps wframe (@get_aux E i). Proof. intros w. apply wframe_refl. Qed.
Hint Resolve get_aux_keeps : keep.
Lemma get_sel_keeps i : keeps wframe (@get_sel E i). Proof. intros w. apply wframe_refl. Qed.
Hint Resolve get_sel_keeps : keep.
Lemma upd_aux_keeps i f : keeps wframe (@upd_aux E i f).
Proof.
  intros w. unfold upd_aux, bind, get_aux. destruct (nth_error (w_auxs w) i) as [a|] eqn:A; [|apply wframe_refl].
  cbn. split; [|reflexivity]. unfold same_wiring. cbn. symmetry. apply map_lset with (x := a); [exact A|reflexivity].
Qed.
Hint Resolve upd_aux_keeps : keep.
Lemma upd_sel_keeps i f : (forall s, sel_static (f s) = sel_static s) -> keeps wframe (@upd_sel E i f).
Proof.
  intros F w. unfold upd_sel, bind, get_sel. destruct (nth_error (w_sels w) i) as [a|] eqn:A; [|apply wframe_refl].
  cbn. split; [reflexivity|]. cbn. apply map_lset with (x := a); [exact A|apply F].
Qed.
Lemma on_sel_keeps A i (m : SM E A) : keeps Rsel m -> keeps wframe (on_sel i m).
Proof.
  intros F w. unfold on_sel, bind, get_sel. destruct (nth_error (w_sels w) i) as [a|] eqn:X; [|apply wframe_refl].
  cbn. specialize (F (a, w_g w)). destruct (m (a, w_g w)) as [r [s' g']]. cbn in F |- *.
  split; [reflexivity|]. cbn. apply map_lset with (x := a); [exact X|exact F].
Qed.
Lemma aux_reads_keeps i ks : keeps wframe (@aux_reads E i ks).
Proof.
  unfold aux_reads. kw. destruct (preads _ _ _ _). kw.
Qed.
Hint Resolve aux_reads_keeps : keep.
Lemma modify_log_keeps i : keeps wframe (modify (@w_add_log E i)). Proof. intros w. split; reflexivity. Qed.
Hint Resolve modify_log_keeps : keep.
Lemma gens_keeps A (f : world -> res A * gens E) : keeps wframe (fun w => let (r, g) := f w in (r, w_set_gens g w)).
Proof. intros w. cbn. destruct (f w). split; reflexivity. Qed.
Lemma run_true_keeps i n : keeps wframe (@run_true E i n).
Proof.
  unfold run_true. kw.
  - apply gens_keeps.
  - destruct a3; kw.
Qed.
Hint Resolve run_true_keeps : keep.
Lemma run_obs_keeps i n : keeps wframe (@run_obs E i n).
Proof.
  unfold run_obs. kw.
  - apply gens_keeps.
  - destruct a2; kw.
Qed.
Hint Resolve run_obs_keeps : keep.
Lemma run_prob_keeps i : keeps wframe (@run_prob E i).
Proof.
  unfold run_prob. kw.
Qed.
Hint Resolve run_prob_keeps : keep.
Lemma aux_pre_keeps a : keeps wframe (@aux_pre E a).
Proof.
  unfold aux_pre. kw.
  - destruct (a_usesd (a_st a)); [|kw]. destruct (a_sp (a_dy a)); [|kw]. now apply upd_sel_keeps.
  - destruct (a_lum (a_dy a)); [|kw]. now apply upd_sel_keeps.
Qed.
Hint Resolve aux_pre_keeps : keep.
Lemma aux_finish_keeps prog i n : keeps wframe (@aux_finish E prog i n).
Proof.
  unfold aux_finish. kw.
  - destruct (a_observed (a_st a0)); kw.
  - now apply upd_sel_keeps.
  - apply on_sel_keeps, sel_draw_keeps.
Qed.
Hint Resolve aux_finish_keeps : keep.
Lemma set_sp_keeps i sp : keeps wframe (@set_sp E i sp). Proof. apply upd_aux_keeps. Qed.
Hint Resolve set_sp_keeps : keep.
Lemma set_lum_keeps i l : keeps wframe (@set_lum E i l). Proof. apply upd_aux_keeps. Qed.
Hint Resolve set_lum_keeps : keep.
Lemma aux_draw_keeps prog fuel : forall i n, keeps wframe (@aux_draw E prog fuel i n).
Proof.
  induction fuel as [|fuel IH]; intros i n; cbn [aux_draw]; [kw|].
  kw. destruct (a_sampled (a_dy a)); kw.
  destruct (a_issec (a_ln a2)); [|kw]. destruct (a_sp (a_dy a)); kw.
Qed.
Hint Resolve aux_draw_keeps : keep.

(** ** Synths *)
Definition lum_static (l : option (ldist E)) := option_map (fun x => (ld_cls x, ld_name x)) l.
Definition conf_static (y : synth) :=
  (sd_cls (y_sp y), sd_name (y_sp y), lum_static (y_lum y), (y_spm y, y_lumm y, y_seed y, y_name y, y_nmodel y, y_spaces y),
   (y_aux y, y_der y, y_flux y, y_fluxset y, y_dsel y, y_dset y, y_ssel y)).
Definition yframe (y y' : synth) : Prop :=
  wframe (y_w y) (y_w y') /\ conf_static y' = conf_static y.
Lemma yframe_refl y : yframe y y. Proof. split; [apply wframe_refl|reflexivity]. Qed.
Lemma yframe_trans a b c : yframe a b -> yframe b c -> yframe a c.
Proof. intros [A1 A2] [B1 B2]. split; [eapply wframe_trans; eauto|congruence]. Qed.

Ltac ky := repeat first
  [ assumption | solve [trivial with keep]
  | match goal with
    | |- keeps _ (let _ := _ in _) => cbv zeta
    | |- keeps _ (ret _) => apply keeps_ret; exact yframe_refl
    | |- keeps _ (raise _) => apply keeps_raise; exact yframe_refl
    | |- keeps _ (lift _) => apply keeps_lift; exact yframe_refl
    | |- keeps _ get => apply keeps_get; exact yframe_refl
    | |- keeps _ (gets _) => apply keeps_gets; exact yframe_refl
    | |- keeps _ (iterM _ _) => apply keeps_iter; [exact yframe_refl|exact yframe_trans|intros ?]
    | |- keeps _ (foldM _ _ _) => apply keeps_fold; [exact yframe_refl|exact yframe_trans|intros ? ?]
    | |- keeps _ (repeatM _ _) => apply keeps_repeat; [exact yframe_refl|exact yframe_trans|]
    | |- keeps _ (bind _ _) => apply keeps_bind; [exact yframe_trans| |intros ?]
    end ].

Lemma in_w_keeps A (m : AM E A) : keeps wframe m -> keeps yframe (in_w m).
Proof.
  intros H y. unfold in_w. specialize (H (y_w y)). destruct (m (y_w y)) as [r w]. cbn in H |- *. now split.
Qed.
Definition Rsp (a b : sdist E * Rst) : Prop := sd_cls (fst b) = sd_cls (fst a) /\ sd_name (fst b) = sd_name (fst a).
Lemma Rsp_refl a : Rsp a a. Proof. split; reflexivity. Qed.
Lemma Rsp_trans a b c : Rsp a b -> Rsp b c -> Rsp a c. Proof. unfold Rsp. intuition congruence. Qed.
Lemma in_sp_keeps A (m : DM E A) : keeps Rsp m -> keeps yframe (in_sp m).
Proof.
  intros H y. unfold in_sp. specialize (H (y_sp y, w_g (y_w y))). destruct (m (y_sp y, w_g (y_w y))) as [r [d g]].
  cbn in H |- *. destruct H as [H1 H2]. split; [split; reflexivity|]. unfold conf_static. cbn in *. now rewrite H1, H2.
Qed.
Definition Rlm (a b : ldist E * Rst) : Prop := ld_cls (fst b) = ld_cls (fst a) /\ ld_name (fst b) = ld_name (fst a).
Lemma Rlm_refl a : Rlm a a. Proof. split; reflexivity. Qed.
Lemma Rlm_trans a b c : Rlm a b -> Rlm b c -> Rlm a c. Proof. unfold Rlm. intuition congruence. Qed.
Lemma in_lum_keeps A (m : LM E A) : keeps Rlm m -> keeps yframe (in_lum m).
Proof.
  intros H y. unfold in_lum. destruct (y_lum y) as [l|] eqn:L; [|apply yframe_refl].
  specialize (H (l, w_g (y_w y))). destruct (m (l, w_g (y_w y))) as [r [d g]].
  cbn in H |- *. destruct H as [H1 H2]. split; [split; reflexivity|]. unfold conf_static. cbn in *.
  unfold lum_static. rewrite L. cbn. now rewrite H1, H2.
Qed.
Lemma in_g_keeps A (m : M Rst A) : keeps yframe (in_g m).
Proof. intros y. unfold in_g. destruct (m (w_g (y_w y))). split; [split; reflexivity|reflexivity]. Qed.
Hint Resolve in_g_keeps : keep.

Ltac kd := repeat first
  [ assumption | solve [trivial with keep]
  | match goal with
    | |- keeps _ (let _ := _ in _) => cbv zeta
    | |- keeps _ (ret _) => apply keeps_ret; exact Rsp_refl
    | |- keeps _ (raise _) => apply keeps_raise; exact Rsp_refl
    | |- keeps _ (lift _) => apply keeps_lift; exact Rsp_refl
    | |- keeps _ get => apply keeps_get; exact Rsp_refl
    | |- keeps _ (gets _) => apply keeps_gets; exact Rsp_refl
    | |- keeps _ (iterM _ _) => apply keeps_iter; [exact Rsp_refl|exact Rsp_trans|intros ?]
    | |- keeps _ (foldM _ _ _) => apply keeps_fold; [exact Rsp_refl|exact Rsp_trans|intros ? ?]
    | |- keeps _ (repeatM _ _) => apply keeps_repeat; [exact Rsp_refl|exact Rsp_trans|]
    | |- keeps _ (bind _ _) => apply keeps_bind; [exact Rsp_trans| |intros ?]
    end ].
Lemma in_par_keeps A (m : M (pobj V) A) : keeps Rsp (in_par m).
Proof. intros [d g]. unfold in_par. cbn. destruct (m (sd_par d)). split; reflexivity. Qed.
Hint Resolve in_par_keeps : keep.
Lemma cls_keeps : keeps Rsp (@cls E). Proof. apply keeps_gets. exact Rsp_refl. Qed.
Hint Resolve cls_keeps : keep.
Lemma rd_rmax_keeps : keeps Rsp (@rd_rmax E). Proof.
  unfold rd_rmax. kd.
Qed.
Hint Resolve rd_rmax_keeps : keep.
Lemma rd_dens_keeps : keeps Rsp (@rd_dens E). Proof.
  unfold rd_dens. kd.
Qed.
Hint Resolve rd_dens_keeps : keep.
Lemma norm_to_one_keeps o : keeps Rsp (@norm_to_one E o).
Proof.
  unfold norm_to_one. kd. destruct (po_norm a); kd.
Qed.
Hint Resolve norm_to_one_keeps : keep.
Lemma norm_restore_keeps o : keeps Rsp (@norm_restore E o).
Proof.
  unfold norm_restore. kd. destruct (po_norm a), o; kd.
Qed.
Hint Resolve norm_restore_keeps : keep.
Lemma in_rng_keeps A (m : M Rst A) : keeps Rsp (in_rng m).
Proof. intros [d g]. unfold in_rng. cbn. destruct (m g). split; reflexivity. Qed.
Hint Resolve in_rng_keeps : keep.
Lemma draw_distance_keeps prog fuel n norm : keeps Rsp (@draw_distance E prog fuel n norm).
Proof.
  unfold draw_distance. kd.
  - destruct norm; kd.
  - destruct a0 as [old integral]. kd; intros [d g]; split; reflexivity.
Qed.
Hint Resolve draw_distance_keeps : keep.
Lemma draw_sky_keeps n : keeps Rsp (@draw_sky_positions E n).
Proof.
  intros [d g]. unfold draw_sky_positions. cbn [fst snd]. destruct (sc_sky (sd_cls d)) as [f|].
  - destruct (sd_dist d) as [ds|]; [|split; reflexivity]. destruct (f ds n g) as [[s|e] g']; split; reflexivity.
  - destruct (sample_theta_phi E n g) as [[t p] g']. split; reflexivity.
Qed.
Hint Resolve draw_sky_keeps : keep.

Lemma survey_size_keeps ns norm : keeps yframe (@survey_size E ns norm).
Proof.
  unfold survey_size. ky; [intros y; split; [split; reflexivity|reflexivity]|].
  destruct ns; ky. apply in_sp_keeps. kd.
  destruct norm; kd. match goal with |- keeps _ (match ?o with _ => _ end) => destruct o as [[v|]|] end; kd.
Qed.
Hint Resolve survey_size_keeps : keep.
Hint Extern 0 (keeps _ (in_w _)) => apply in_w_keeps; solve [trivial with keep] : keep.
Lemma times_keeps p q : keeps yframe (@times E p q). Proof. unfold times. ky. Qed.
Hint Resolve times_keeps : keep.
Lemma add_truth_keeps i t : keeps yframe (@add_truth E i t).
Proof.
  unfold add_truth, sampler_truth. ky.
Qed.
Hint Resolve add_truth_keeps : keep.
Lemma get_sp_keeps : keeps yframe (@get_sp E). Proof. unfold get_sp. ky. Qed.
Hint Resolve get_sp_keeps : keep.
Lemma props_keeps rl i : keeps yframe (@props E rl i). Proof. unfold props. ky. Qed.
Hint Resolve props_keeps : keep.
Lemma check_len_keeps n i : keeps yframe (@check_len E n i).
Proof.
  unfold check_len. ky.
Qed.
Hint Resolve check_len_keeps : keep.
Lemma draw_luminosity_keeps n : keeps Rlm (@draw_luminosity E n).
Proof.
  unfold draw_luminosity. apply keeps_bind; [exact Rlm_trans|apply keeps_gets; exact Rlm_refl|intros c].
  apply keeps_bind; [exact Rlm_trans| |intros vals].
  - intros [l g]. unfold in_lpar. cbn. destruct (preads _ _ _ _). split; reflexivity.
  - intros [l g]. cbn. destruct (lc_draw c vals n g). split; reflexivity.
Qed.
Hint Resolve draw_luminosity_keeps : keep.
Lemma compute_probability_keeps l : keeps Rlm (@compute_probability E l).
Proof.
  unfold compute_probability. apply keeps_bind; [exact Rlm_trans|apply keeps_gets; exact Rlm_refl|intros c].
  apply keeps_bind; [exact Rlm_trans| |intros vals].
  - intros [x g]. unfold in_lpar. cbn. destruct (preads _ _ _ _). split; reflexivity.
  - apply keeps_bind; [exact Rlm_trans|apply keeps_lift; exact Rlm_refl|intros ps]. intros [x g]. split; reflexivity.
Qed.
Hint Resolve compute_probability_keeps : keep.
Lemma survey_lum_keeps prog rl n p t : keeps yframe (@survey_lum E prog rl n p t).
Proof.
  assert (X : forall i, keeps yframe (
      let! sp := get_sp (E := E) in
      in_w (set_sp i sp) ;;
      in_w (aux_draw prog rl i n) ;;
      check_len n i ;;
      let! a := in_w (get_aux i) in
      let st := dset nil (name_of a) (container_of a) in
      let! vals := in_w (aux_reads i (k_lreads (kind_of a))) in
      let! a' := in_w (get_aux i) in
      let! w := in_w get in
      let! f := lift (of_opt AttributeError (k_lum (kind_of a))) in
      let! lum := lift (f vals (view_of (w_auxs w) a')) in
      let! t1 := add_truth i t in
      let! r := foldM (fun acc kv =>
                  let! s := props rl (snd kv) in
                  let! t2 := add_truth (snd kv) (snd acc) in
                  ret (st_add (fst acc) s, t2)) (st, t1) (a_sec (a_ln a)) in
      ret (lum, p, snd r, fst r))).
  { intros i. ky. }
  unfold survey_lum. ky. destruct (y_lum a), (y_der a); ky; try apply X;
    try (apply in_lum_keeps; first [apply draw_luminosity_keeps|apply compute_probability_keeps]).
Qed.
Hint Resolve survey_lum_keeps : keep.
Lemma survey_aux_keeps prog rl n l acc kv : keeps yframe (@survey_aux E prog rl n l acc kv).
Proof.
  unfold survey_aux. ky.
  - destruct (a_usesl _); ky.
  - destruct (a_usesd _); ky.
Qed.
Hint Resolve survey_aux_keeps : keep.
Lemma survey_flux_keeps sg l10 n f : keeps yframe (@survey_flux E sg l10 n f).
Proof.
  unfold survey_flux. ky.
  destruct (is_unity _), sg; ky. destruct (vlt _ _ _); ky.
Qed.
Hint Resolve survey_flux_keeps : keep.
Lemma survey_selection_keeps acc kv : keeps yframe (@survey_selection E acc kv).
Proof.
  unfold survey_selection. ky. destruct (is_unity _); ky.
Qed.
Hint Resolve survey_selection_keeps : keep.
Lemma read_graph_keeps rl : keeps yframe (@read_graph E rl).
Proof.
  intros y. unfold read_graph. destruct (build_graph _ _ _ _ _ _ _) as [r g]. cbn. split; [apply wframe_refl|reflexivity].
Qed.
Hint Resolve read_graph_keeps : keep.
End P.
