(** C79: the population of a drawn survey is one that the library can store. *)
From Verif Require Import Base BaseFacts Env ParamModel SelModel SimVarModel DistModel AuxModel AuxSpec Tree PopModel PopSpec SynthModel SynthFrame SynthInv HdfModel HdfSpec KeptSpec KeptProofs.
From Verif Require HdfPop PopProofs Share.
Open Scope string_scope.
Open Scope list_scope.

Section P.
Variable E : env.
Notation V := (V E).
Notation synth := (synth E).
Notation PY := (@keepable E).
Lemma run_kept A (m : YM E A) Q y a y' : hk PY m Q -> PY y -> m y = (Ok a, y') -> PY y' /\ Q a.
Proof. intros H K R. destruct (H y K) as [X Y]. rewrite R in X, Y. split; [exact X|now apply Y]. Qed.

Lemma rmapM_keys st aux : rmapM (quantity (E := E)) st = Ok aux -> dkeys aux = dkeys st.
Proof.
  revert aux. induction st as [|[k c] st IH]; intros aux H; [now injection H as <-|]. cbn [rmapM] in H. destruct (quantity (E := E) (k, c)) as [q|] eqn:Q; [|discriminate]. cbn [rbind] in H.
  destruct (rmapM (quantity (E := E)) st) as [l|] eqn:R; [|discriminate]. cbn [rbind] in H. injection H as <-. change (fst q :: dkeys l = k :: dkeys st). rewrite (IH _ eq_refl).
  unfold quantity in Q. cbn [snd fst] in Q. destruct (c_true c); [|discriminate]. destruct (c_obs c); [|discriminate]. cbn in Q. now injection Q as <-.
Qed.

Lemma survey_writable prog fuel rl fs l10 ns norm (y : synth) p y' : keepable y -> draw_survey prog fuel rl fs l10 ns norm y = (Ok p, y') ->
  keepable y' /\ exists a aux conf, pop_new a = Ok p /\ pa_name a = PyStr (y_name y) /\ writable a (y_name y) aux (y_spaces y) conf /\ (forall b, m_rate (y_spm y) = Some b -> has_bool (TDict conf)).
Proof.
  intros K H. destruct (survey_steps _ _ _ _ _ _ _ _ _ _ _ H) as (t & S).
  assert (T0 : PT E [(sd_name (y_sp y), truth (sd_par (y_sp y)))]).
  { split; [discriminate|]. assert (X := plain_truth _ _ _ (proj1 (proj2 (ke_sp K)))). split.
    - split; [repeat constructor; now intros []|]. intros k [<-|[]]. exact (proj1 (ke_sp K)).
    - intros k d [Z|[]]. now injection Z as <- <-. }
  destruct (run_kept _ _ _ _ _ _ (survey_size_kept E ns norm) K (sp_size _ _ _ _ _ _ _ _ _ _ _ _ S)) as [K1 _].
  destruct (run_kept _ _ _ _ _ _ (in_sp_kept _ _ _ _ (draw_distance_kept E prog fuel (tr_n E t) norm)) K1 (sp_dist _ _ _ _ _ _ _ _ _ _ _ _ S)) as [K2 _].
  destruct (run_kept _ _ _ _ _ _ (in_sp_kept _ _ _ _ (draw_sky_kept E (tr_n E t))) K2 (sp_sky _ _ _ _ _ _ _ _ _ _ _ _ S)) as [K3 _].
  destruct (run_kept _ _ _ _ _ _ (survey_lum_kept E prog rl (tr_n E t) (tr_p0 E t) _ T0) K3 (sp_lum _ _ _ _ _ _ _ _ _ _ _ _ S)) as [K4 [T1 S1]]. cbn [fst snd] in T1, S1.
  assert (FK := hk_fold PY _ _ (survey_aux prog rl (tr_n E t) (tr_lum E t)) (fun r => PT E (fst r) /\ plain_names (snd r)) (y_aux y) (fun b a _ q => survey_aux_kept E prog rl (tr_n E t) (tr_lum E t) b a q) (tr_t1 E t, tr_st1 E t) (conj T1 S1)).
  destruct (run_kept _ _ _ _ _ _ FK K4 (sp_aux _ _ _ _ _ _ _ _ _ _ _ _ S)) as [K5 [T2 S2]]. cbn [fst snd] in T2, S2. clear FK.
  destruct (run_kept _ _ _ _ _ _ (survey_flux_kept E fs l10 (tr_n E t) (tr_flux E t)) K5 (sp_fobs _ _ _ _ _ _ _ _ _ _ _ _ S)) as [K6 _].
  destruct (sp_fsel _ _ _ _ _ _ _ _ _ _ _ _ S) as (y1 & F1 & F2).
  assert (SO : hk PY (in_w (upd_sel (y_flux y) (fun s => set_observed_flux s (tr_fobs E t)))) any) by (apply in_w_kept, upd_sel_kept; intros s0 X; now apply data_kept).
  destruct (run_kept _ _ _ _ _ _ SO K6 F1) as [K7 _].
  destruct (run_kept _ _ _ _ _ _ (in_w_kept _ _ _ _ (on_sel_kept _ _ (y_flux y) _ (sel_select_kept E prog (tr_n E t)))) K7 F2) as [K8 _].
  assert (SS : hk PY (spatial_step E prog (tr_n E t) (tr_s2 E t) (y_ssel y)) any).
  { unfold spatial_step. destruct (y_ssel y) as [i|]; [|now apply hk_ret]. hb; [apply get_sp_kept|]. hb; [apply in_w_kept, get_sel_kept|].
    eapply hk_bind with (Q1 := @keepable_selector E).
    - apply hk_lift. intros s' X. unfold set_spatial_distribution in X. repeat (match type of X with (if ?c then _ else _) = _ => destruct c | match ?c with _ => _ end = _ => destruct c end; try discriminate X). injection X as <-. now apply data_kept.
    - intros s' KS. hb; [apply in_w_kept, put_sel_kept, KS|]. hb; [apply in_w_kept, on_sel_kept, sel_select_kept|]. hb; [apply in_w_kept, get_sel_kept|]. apply hk_lift. easy. }
  destruct (run_kept _ _ _ _ _ _ SS K8 (sp_s3 _ _ _ _ _ _ _ _ _ _ _ _ S)) as [K9 _].
  destruct (run_kept _ _ _ _ _ _ (in_w_kept _ _ _ _ (on_sel_kept _ _ (y_dsel y) _ (sel_select_kept E prog (count (tr_mask E t))))) K9 (sp_dsel _ _ _ _ _ _ _ _ _ _ _ _ S)) as [K10 _].
  destruct (run_kept _ _ _ _ _ _ (in_sp_kept _ _ _ _ (rd_rmax_kept E)) K10 (sp_rm _ _ _ _ _ _ _ _ _ _ _ _ S)) as [K11 _].
  destruct (run_kept _ _ _ _ _ _ (read_graph_kept E rl) K11 (sp_g _ _ _ _ _ _ _ _ _ _ _ _ S)) as [K12 G].
  split; [exact K12|]. destruct (to_dict_storable _ _ _ _ K12 (sp_conf _ _ _ _ _ _ _ _ _ _ _ _ S)) as (conf & CE & CN & CS & CB).
  eexists _, (tr_aux E t), conf. split; [exact (sp_pop _ _ _ _ _ _ _ _ _ _ _ _ S)|]. split; [reflexivity|]. split.
  - constructor; cbn [pa_name pa_spform pa_sppar pa_lfpar pa_lfform pa_nmodel pa_seed pa_aux pa_spaces pa_truth pa_graph pa_popsynth].
    + reflexivity.
    + exact (ke_name K).
    + apply (ke_forms K).
    + split; apply (ke_sp K12).
    + destruct (y_lum y') as [l|] eqn:L; [|reflexivity]. cbn. assert (KL := ke_lum K12 L). split; [apply KL|]. split; [apply KL|]. eexists. split; [reflexivity|]. apply (ke_forms K).
    + exact (ke_nmodel K).
    + exact (ke_seed K).
    + split; [reflexivity|]. unfold plain_names. rewrite (rmapM_keys _ _ (sp_quant _ _ _ _ _ _ _ _ _ _ _ _ S)). exact S2.
    + split; [reflexivity|]. exact (ke_spaces K).
    + exact T2.
    + exact G.
    + rewrite CE. split; [reflexivity|]. now split.
  - intros b M. apply (CB b). destruct (Share.graph_end _ _ _ _ _ _ _ _ _ _ _ H) as (z & g & _ & [_ J1] & R & _).
    assert (J2 := read_graph_keeps E rl z). rewrite R in J2. destruct J2 as [_ J2]. cbn [snd] in J2. unfold conf_static in J1, J2. rewrite <- M. congruence.
Qed.

(** ** Making synths *)
Ltac pl := unfold plain_name, no_nul; cbn; intuition discriminate.
Lemma unity_keepable nm : keepable_selector (unity E nm).
Proof. constructor; [pl|]. split; [apply plain_nil|]. split; discriminate. Qed.
Lemma new_keepable w (sp : sdist E) spm lum lumm seed : (forall a, In a (w_auxs w) -> keepable_sampler a) -> (forall s, In s (w_sels w) -> keepable_selector s) ->
  is_ascii (synth_name sp lum) = true -> is_ascii (m_form spm) = true /\ is_ascii (m_form lumm) = true -> fits64 seed ->
  plain_name (sd_name sp) /\ set_parameters (sc_params (sd_cls sp)) (sd_par sp) ->
  plain_name (m_type spm) /\ m_type spm <> "is_rate" /\ (lum <> None -> plain_name (m_type lumm)) ->
  (forall l, lum = Some l -> plain_name (ld_name l) /\ set_parameters (lc_params (ld_cls l)) (ld_par l)) ->
  keepable (synth_new w sp spm lum lumm seed).
Proof.
  intros WA WS NM FO SE SP TY LU. constructor; cbn [synth_new y_w y_sp y_spm y_lum y_lumm y_seed y_name y_nmodel y_spaces y_aux y_graph w_set_sels w_auxs w_sels]; try assumption.
  - unfold fits64. cbn. lia.
  - apply plain_nil.
  - intros s X. apply in_app_iff in X. destruct X as [X|[<-|[<-|[]]]]; [now apply WS|apply unity_keepable..].
  - intros k i [].
  - cbn. split; [discriminate|]. split; [split; cbn; [repeat constructor; now intros []|constructor|intros u v []]|]. intros k [<-|[]]. exact (proj1 SP).
Qed.
Lemma add_quantity_kept x : hk PY (add_quantity x) any.
Proof.
  destruct x as [i|]; [|apply hk_raise]. cbn [add_quantity]. hb; [apply in_w_kept, get_aux_kept|]. destruct (k_lum (kind_of a)).
  - apply hk_modify. intros y []. now constructor.
  - destruct (a_issec (a_ln a)); [apply hk_raise|]. hb; [apply hk_get|]. destruct (dmem (y_aux a0) (name_of a)); [apply hk_raise|].
    apply hk_modify. intros y []. constructor; try assumption. cbn. intros k j X. apply In_dset in X. destruct X as [(-> & _)|X]; [apply H|eauto].
Qed.
Lemma set_flux_kept x : hk PY (set_flux x) any. Proof. destruct x; [|apply hk_raise]. apply hk_modify. intros y []. now constructor. Qed.
Lemma set_dist_kept x : hk PY (set_dist x) any. Proof. destruct x; [|apply hk_raise]. apply hk_modify. intros y []. now constructor. Qed.
Lemma add_spatial_kept x : hk PY (add_spatial x) any. Proof. destruct x; [|apply hk_raise]. apply hk_modify. intros y []. now constructor. Qed.
Lemma add_space_kept nm a b log : plain_name nm -> hk PY (add_space nm a b log) any.
Proof. intros N. apply hk_modify. intros y []. constructor; try assumption. cbn. now apply plain_dset. Qed.
Lemma reset_kept i : hk (PW E) (upd_sel i (@sel_reset E)) any. Proof. apply upd_sel_kept. intros s [A B]. unfold sel_reset. destruct (s_sampled s); now constructor. Qed.
Lemma aux_reset_kept rl : forall i, hk (PW E) (aux_reset rl i) any.
Proof.
  induction rl as [|rl IH]; intros i; cbn [aux_reset]; [apply hk_raise|]. hb; [apply get_aux_kept|]. ha; [|apply hk_iter; intros; apply IH].
  destruct (a_sampled (a_dy a)); [|now apply hk_ret]. hb; [apply upd_aux_kept; reflexivity|apply reset_kept].
Qed.
Lemma alloc_kept nm : hk PY (alloc_sel (unity E nm)) any.
Proof.
  intros y K. split; [|easy]. cbn. apply with_world; [exact K|]. split; cbn; [apply K|]. intros s X. apply in_app_iff in X. destruct X as [X|[<-|[]]]; [now apply K|apply unity_keepable].
Qed.
Lemma clean_kept rl b : hk PY (clean rl b) any.
Proof.
  unfold clean. hb; [apply hk_get|]. ha; [destruct b; [apply hk_iter; intros kv _; apply in_w_kept, aux_reset_kept|now apply hk_ret]|].
  hb; [apply hk_modify; intros y []; constructor; try assumption; intros k i []|].
  ha; [destruct b; [|now apply hk_ret]; destruct (y_der a); [apply in_w_kept, aux_reset_kept|now apply hk_ret]|].
  hb; [apply hk_modify; intros y []; now constructor|].
  ha; [destruct b; [apply in_w_kept, reset_kept|now apply hk_ret]|]. hb; [apply alloc_kept|]. hb; [apply hk_modify; intros y []; now constructor|].
  ha; [destruct b; [apply in_w_kept, reset_kept|now apply hk_ret]|]. hb; [apply alloc_kept|]. hb; [apply hk_modify; intros y []; now constructor|].
  ha; [destruct b; [|now apply hk_ret]; destruct (y_ssel a); [apply in_w_kept, reset_kept|now apply hk_ret]|].
  apply hk_modify; intros y []; now constructor.
Qed.
Lemma put_aux_kept i a : keepable_sampler a -> hk (PW E) (@put_aux E i a) any.
Proof. intros Q w K. split; [|easy]. split; cbn; [|apply K]. intros s0 X. apply In_lset in X. destruct X as [->|X]; [exact Q|now apply K]. Qed.
Lemma set_secondary_kept i j : hk (PW E) (@set_secondary E i j) any.
Proof.
  unfold set_secondary. hb; [apply get_aux_kept|]. hb; [apply get_aux_kept|]. ha; [|hb; [apply get_aux_kept|]].
  - apply put_aux_kept. destruct H0. now constructor.
  - assert (N : plain_name (name_of a0)) by apply H0. apply put_aux_kept. destruct H2 as [A B C D]. constructor; try assumption. cbn. intros k x X. apply In_dset in X. destruct X as [(-> & _)|X]; eauto.
Qed.
Lemma set_selection_kept i j : hk (PW E) (@set_selection E i j) any.
Proof. unfold set_selection. hb; [apply get_aux_kept|]. apply put_aux_kept. destruct H. now constructor. Qed.
Lemma new_sampler_keepable nm ty k ob ud ul up sel : plain_name nm -> nm <> "FILL_VALUE" -> text ty -> (forall x d, dget (k_params k) x = Some d -> plain_name x) ->
  keepable_sampler (@new_sampler E nm ty k ob ud ul up sel).
Proof.
  intros N F T K. constructor; cbn; [|exact T| |intros x j []].
  - split; [exact N|]. split; [|exact F]. unfold name_of. cbn. apply N.
  - split; [apply plain_nil|]. split; [exact K|discriminate].
Qed.
End P.
