(** The survey theorems in terms of [draw_survey]. *)
From Verif Require Import Base BaseFacts Env ParamModel SelModel SelSpec SelProofs SimVarModel DistModel DistSpec DistProofs
  AuxModel AuxSpec AuxProofs AuxProps PopModel SynthModel SynthSpec Sim.
From Verif Require Keeps SynthFrame SynthInv SurveyProofs SurveyTree SurveyLoop SurveyKeep SurveyFinal SurveyEnd SurveyPop SurveySeed.
Open Scope nat_scope.

Section P.
Variable E : env.
Notation V := (V E).
Notation zero := (vofnat E 0).
Notation one := (vofnat E 1).
Notation synth := (synth E).
Notation population := (population E).
Variables (prog : bool) (fuel rl : nat) (fs : option V) (l10 : bool) (ns : option nat) (norm : bool) (y : synth) (p : population) (y' : synth).
Hypothesis H : draw_survey prog fuel rl fs l10 ns norm y = (Ok p, y').
Notation w := (y_w y).
Notation w' := (y_w y').

Lemma setup_up s s' : SurveyKeep.same_setup E s s' -> set_up s s'.
Proof. intros (A & _ & B). unfold SynthFrame.sel_static in A. injection A as A1 A2 A3 A4 A5 A6 A7. repeat (split; [easy|]). exact B. Qed.

(** ** C24 *)
Lemma selected_iff : distinct_names y -> selectors_apart y -> forall i, i < p_nobj p ->
  (nth_error (pa_sel (p_args p)) i = Some true <->
   (exists m, mask_at w' (y_flux y) m /\ accepts m i) /\
   (forall k, y_ssel y = Some k -> exists m, mask_at w' k m /\ accepts m i) /\
   (forall j b, part y j -> at_ w j b -> passes w' (a_sel (a_ln b)) i)).
Proof. destruct (SynthInv.survey_steps _ _ _ _ _ _ _ _ _ _ _ H) as (t & S). exact (SurveyFinal.selected_iff _ _ _ _ _ _ _ _ _ _ _ _ S). Qed.

Lemma flux_judged s : selectors_apart y -> nth_error (w_sels w) (y_flux y) = Some s -> s_sampled s = false ->
  exists s0 g0 s1 g1 m, set_up s s0 /\ d_oflux (s_data s0) = Some (sv_obs (p_flux p)) /\
    sel_draw prog (p_nobj p) (s0, g0) = (Ok tt, (s1, g1)) /\ s_mask s1 = Some m /\ mask_at w' (y_flux y) m.
Proof.
  intros (AS & AD1 & _) N SF. destruct (SynthInv.survey_steps _ _ _ _ _ _ _ _ _ _ _ H) as (t & S).
  destruct (SurveyFinal.flux_judged _ _ _ _ _ _ _ _ _ _ _ _ S s N SF) as (s0 & g0 & s1 & g1 & SU & OF & D & M).
  assert (NF := SynthInv.sp_sf _ _ _ _ _ _ _ _ _ _ _ _ S).
  assert (exists m, s_mask (SynthInv.tr_sf E t) = Some m) as (m & MM).
  { assert (X := SynthInv.sp_s2 _ _ _ _ _ _ _ _ _ _ _ _ S). apply SurveyFinal.sel_add_inv in X. destruct X as (m1 & m2 & m & M1 & M2 & _). eauto. }
  exists s0, g0, s1, g1, m. split; [now apply setup_up|]. split; [easy|]. split; [easy|]. split; [congruence|].
  exists (SynthInv.tr_sf E t). split; [|easy]. rewrite (SurveyFinal.sels_final _ _ _ _ _ _ _ _ _ _ _ _ S); [easy| |].
  - intros Q. now apply AS in Q.
  - auto.
Qed.

Lemma spatial_judged k s : selectors_apart y -> y_ssel y = Some k -> nth_error (w_sels w) k = Some s -> s_sampled s = false ->
  exists s0 g0 s1 g1 m, set_up s s0 /\ is_spatial (s_kind s) = true /\
    d_sp (s_data s0) = Some (SpVals E (sv_lat (p_dist p)) (sv_lat (p_theta p)) (sv_lat (p_phi p))) /\
    sel_draw prog (p_nobj p) (s0, g0) = (Ok tt, (s1, g1)) /\ s_mask s1 = Some m /\ mask_at w' k m.
Proof.
  intros (AS & _) YS N SF. destruct (AS k YS) as (A1 & A2 & A3). destruct (SynthInv.survey_steps _ _ _ _ _ _ _ _ _ _ _ H) as (t & S).
  destruct (SurveyFinal.auxd_kept _ _ _ _ _ _ _ _ _ _ _ _ S _ _ N) as (s0 & N0 & SU).
  destruct (SurveyFinal.fsel_inv _ _ _ _ _ _ _ _ _ _ _ _ S) as (_ & _ & _ & _ & _ & _ & _ & _ & F). 
  destruct (SurveyFinal.ssel_inv _ _ _ _ _ _ _ _ _ _ _ _ S) as (_ & _ & SS). rewrite YS in SS.
  destruct SS as (sp & s0' & s1 & s2 & g0 & g1 & SPV & N0' & SET & SEL & N2 & AD). rewrite F in N0' by auto. rewrite N0 in N0'. injection N0' as <-.
  unfold set_spatial_distribution in SET. destruct (is_spatial (s_kind s0)) eqn:IS; [|discriminate]. injection SET as <-.
  apply SurveyFinal.select_fresh in SEL; [|cbn; destruct SU as (_ & SU & _); congruence]. destruct SEL as (s3 & D & M).
  apply SurveyFinal.sel_add_inv in AD. destruct AD as (m1 & m2 & m & M1 & M2 & _).
  assert (SU' := setup_up _ _ SU). assert (SZ := SurveyProofs.all_sized _ _ _ _ _ _ _ _ _ _ _ _ S).
  exists (with_data s0 (SelData (d_oflux (s_data s0)) (d_oval (s_data s0)) (d_dist (s_data s0)) (d_lum (s_data s0)) (Some sp))), g0, s3, g1, m2.
  split; [|split; [|split; [|split; [|split]]]].
  - apply setup_up. eapply SurveyKeep.setup_trans; [exact SU|apply SurveyKeep.with_data_setup].
  - destruct SU' as (<- & _). exact IS.
  - cbn. f_equal. destruct (SurveyPop.end_positions _ _ _ _ _ _ _ _ _ _ _ _ S) as (E1 & E2 & E3 & _).
    destruct (SurveyProofs.steps_built _ _ _ _ _ _ _ _ _ _ _ _ S) as (ar & B & _).
    rewrite (proj1 (SurveyProofs.bu_dist _ _ _ B)), (proj1 (SurveyProofs.bu_theta _ _ _ B)), (proj1 (SurveyProofs.bu_phi _ _ _ B)).
    rewrite (SurveyProofs.bu_args _ _ _ B) in E1, E2, E3. cbn.
    destruct (SurveyPop.end_dists _ _ _ _ _ _ _ _ _ _ _ _ S) as (o & ED & _).
    destruct (SurveyPop.fsel_dists _ _ _ _ _ _ _ _ _ _ _ _ S) as (FD & _). rewrite <- FD in ED. rewrite ED in E1, E2, E3. cbn in E1, E2, E3.
    unfold spatial_values in SPV. rewrite E1, E2, E3 in SPV. now injection SPV as <-.
  - rewrite (sz_nobj SZ). exact D.
  - congruence.
  - exists s2. split; [|congruence]. destruct (SurveyFinal.final_inv _ _ _ _ _ _ _ _ _ _ _ _ S) as (_ & FI & _). rewrite FI by easy. exact N2.
Qed.

Lemma samplers_judged : acyclic w -> distinct_names y -> own_selectors w -> never_drawn w -> selectors_apart y -> flux_apart y ->
  forall j b, part y j -> at_ w j b -> exists b' s s0 g0 s1 g1,
    at_ w' j b' /\ filled (p_nobj p) b' /\
    nth_error (w_sels w) (a_sel (a_ln b)) = Some s /\ set_up s s0 /\ d_oval (s_data s0) = a_obs (a_dy b') /\
    sel_draw prog (p_nobj p) (s0, g0) = (Ok tt, (s1, g1)) /\ nth_error (w_sels w') (a_sel (a_ln b)) = Some s1.
Proof.
  intros AC DN O ND AP AF j b PJ BJ. destruct (SynthInv.survey_steps _ _ _ _ _ _ _ _ _ _ _ H) as (t & S).
  destruct (SurveyFinal.samplers_judged _ _ _ _ _ _ _ _ _ _ _ _ S AC DN O ND AP AF j PJ) as (b' & B' & FI & s0 & g0 & s1 & g1 & G1 & G2 & G3).
  assert (W := SurveyPop.wiring_last _ _ _ _ _ _ _ _ _ _ _ _ S).
  destruct (wiring_at _ _ _ _ _ W BJ) as (b0 & B0 & _ & LN). assert (b0 = b') by (eapply at_fun; eauto). subst b0. rewrite LN in G3.
  destruct AP as (AS & AD1 & AD2).
  assert (G4 : nth_error (w_sels (y_w (SynthInv.tr_auxd E t))) (a_sel (a_ln b)) = Some s1).
  { rewrite <- G3, (SurveyFinal.sels_final _ _ _ _ _ _ _ _ _ _ _ _ S).
    - destruct (SurveyFinal.fsel_inv _ _ _ _ _ _ _ _ _ _ _ _ S) as (_ & _ & _ & _ & _ & _ & _ & _ & F). symmetry. apply F. now apply (AF j b).
    - intros Q. apply AS in Q. destruct Q as (_ & _ & Q). now apply (Q j b).
    - now apply (AD2 j b). }
  assert (exists s, nth_error (w_sels w) (a_sel (a_ln b)) = Some s) as (s & NS).
  { destruct (nth_error (w_sels w) (a_sel (a_ln b))) as [s|] eqn:Q; [eauto|]. apply nth_error_None in Q.
    destruct (SurveyProofs.static_yframe _ _ _ _ _ _ _ _ _ _ _ _ S) as [[_ L] _]. apply (f_equal (@length _)) in L. rewrite !map_length in L.
    assert (X : nth_error (w_sels (y_w (SynthInv.tr_auxd E t))) (a_sel (a_ln b)) <> None) by congruence. apply nth_error_Some in X. lia. }
  exists b', s, s0, g0, s1, g1. split; [easy|]. split; [easy|]. split; [easy|]. split; [|easy].
  destruct (SurveyFinal.auxd_kept _ _ _ _ _ _ _ _ _ _ _ _ S _ _ NS) as (s2 & N2 & (SU1 & SU2 & SU3)). rewrite G4 in N2. injection N2 as <-.
  assert (K := SurveyKeep.sel_draw_kept E prog (p_nobj p) (s0, g0)). rewrite G2 in K. destruct K as (K1 & _ & K3). cbn in K1, K3.
  unfold SynthFrame.sel_static in *. rewrite SU1 in K1. injection K1 as A1 A2 A3 A4 A5 A6 A7. repeat (split; [congruence|]).
  intros k v. now rewrite SU3, K3.
Qed.

Lemma hard_flux s b : nth_error (w_sels w) (y_flux y) = Some s -> s_sampled s = false ->
  s_kind s = KLower E -> s_fflux s = true -> par_is s "boundary" b ->
  forall i f, nth_error (sv_obs (p_flux p)) i = Some f -> nth_error (pa_sel (p_args p)) i = Some true -> vle E b f = true.
Proof. destruct (SynthInv.survey_steps _ _ _ _ _ _ _ _ _ _ _ H) as (t & S). exact (SurveyFinal.hard_flux _ _ _ _ _ _ _ _ _ _ _ _ S s b). Qed.

Lemma all_sized : sized (p_nobj p) p /\ forall n, ns = Some n -> p_nobj p = n.
Proof.
  destruct (SynthInv.survey_steps _ _ _ _ _ _ _ _ _ _ _ H) as (t & S).
  assert (Z := SurveyProofs.all_sized _ _ _ _ _ _ _ _ _ _ _ _ S). split; [now rewrite (sz_nobj Z)|].
  intros n Q. rewrite (sz_nobj Z). exact (SurveyProofs.size_given _ _ _ _ _ _ _ _ _ _ _ _ S n Q).
Qed.

Lemma known_unknown : let a := p_args p in
  StronglySorted lt (pa_kidx a) /\ StronglySorted lt (pa_uidx a) /\
  (forall i, i < p_ndet p <-> In i (pa_kidx a) \/ In i (pa_uidx a)) /\
  (forall i, In i (pa_kidx a) -> ~ In i (pa_uidx a)) /\
  length (pa_known a) = length (pa_kidx a) /\
  (forall j d, nth_error (pa_known a) j = Some d -> exists i k,
     nth_error (pa_kidx a) j = Some i /\ ith_selected (pa_sel a) i k /\ nth_error (sv_obs (p_dist p)) k = Some d).
Proof. destruct (SynthInv.survey_steps _ _ _ _ _ _ _ _ _ _ _ H) as (t & S). exact (SurveyProofs.known_unknown _ _ _ _ _ _ _ _ _ _ _ _ S). Qed.

Lemma detection_needs_known : 0 < p_ndet p -> pa_known (p_args p) <> [].
Proof. destruct (SynthInv.survey_steps _ _ _ _ _ _ _ _ _ _ _ H) as (t & S). exact (SurveyProofs.detection_needs_known _ _ _ _ _ _ _ _ _ _ _ _ S). Qed.

Lemma latent_flux : forall i f, nth_error (sv_lat (p_flux p)) i = Some f ->
  exists l d, nth_error (sv_obs (p_lum p)) i = Some l /\ nth_error (sv_obs (p_dist p)) i = Some d /\
              f = sc_transform (sd_cls (y_sp y)) l d.
Proof. destruct (SynthInv.survey_steps _ _ _ _ _ _ _ _ _ _ _ H) as (t & S). exact (SurveyProofs.latent_flux _ _ _ _ _ _ _ _ _ _ _ _ S). Qed.

Lemma observed_flux s : nth_error (w_sels w) (y_flux y) = Some s ->
  match is_unity (s_kind s), fs with
  | false, Some sg => pa_sigma (p_args p) = sg /\
      exists es g g', rdraws (r_norm E zero sg) (p_nobj p) g = (es, g') /\
        forall i, nth_error (sv_obs (p_flux p)) i =
          match nth_error (sv_lat (p_flux p)) i, nth_error es i with
          | Some f, Some e => Some (noisy E l10 f e)
          | _, _ => None
          end
  | _, _ => pa_sigma (p_args p) = vsub E zero one /\ sv_obs (p_flux p) = sv_lat (p_flux p)
  end.
Proof. destruct (SynthInv.survey_steps _ _ _ _ _ _ _ _ _ _ _ H) as (t & S). exact (SurveyProofs.observed_flux _ _ _ _ _ _ _ _ _ _ _ _ S s). Qed.

Lemma spatial_kept : wf_par E (sc_params (sd_cls (y_sp y))) (sd_par (y_sp y)) ->
  (norm = true -> ns = None -> norm_value E (sd_par (y_sp y))) ->
  sd_cls (y_sp y') = sd_cls (y_sp y) /\
  same_reads E (sc_params (sd_cls (y_sp y))) (sd_par (y_sp y)) (sd_par (y_sp y')) /\
  exists rs ps g g', drawn (E := E) (sd_cls (y_sp y)) (sd_par (y_sp y)) prog fuel (p_nobj p) norm g g' rs ps /\ sd_prob (y_sp y') = Some ps /\
    (sc_sky (sd_cls (y_sp y)) = None -> sv_lat (p_dist p) = rs).
Proof. destruct (SynthInv.survey_steps _ _ _ _ _ _ _ _ _ _ _ H) as (t & S). exact (SurveyPop.spatial_kept _ _ _ _ _ _ _ _ _ _ _ _ S). Qed.

Lemma probability_factors : acyclic w -> distinct_names y -> well_drawn w ->
  exists dq lq js qs q, p_prob p = Some q /\ sd_prob (y_sp y') = Some dq /\
    match y_der y with
    | Some _ => lq = []
    | None => exists l vals x, y_lum y' = Some l /\ values E (lc_params (ld_cls l)) (ld_par l) (lc_preads (ld_cls l)) vals /\
        rmapM (lc_phi (ld_cls l) vals) (sv_lat (p_lum p)) = Ok x /\ lq = [x]
    end /\
    NoDup js /\
    (forall j, In j js <-> part y j /\ exists b s, at_ w j b /\ nth_error (w_sels w) (a_sel (a_ln b)) = Some s /\ is_unity (s_kind s) = false) /\
    Forall2 (fun j x => exists b, at_ w' j b /\ probability_of b = Some x) js qs /\
    forall i, i < p_nobj p -> nth_error (sv_lat q) i = product_at E (Some one) (dq :: lq ++ qs) i.
Proof. destruct (SynthInv.survey_steps _ _ _ _ _ _ _ _ _ _ _ H) as (t & S). exact (SurveyPop.probability_product _ _ _ _ _ _ _ _ _ _ _ _ S). Qed.

Lemma values_recorded : acyclic w -> distinct_names y -> well_drawn w ->
  (forall j b, part y j -> at_ w' j b -> exists tv ov, a_true (a_dy b) = Some tv /\ a_obs (a_dy b) = Some ov /\
     dget (p_aux p) (name_of b) = Some (SimVar ov tv (MB (pa_sel (p_args p))) DFloat)) /\
  (forall k v, In (k, v) (p_aux p) -> exists j b, part y j /\ at_ w' j b /\ name_of b = k).
Proof. destruct (SynthInv.survey_steps _ _ _ _ _ _ _ _ _ _ _ H) as (t & S). exact (SurveyPop.values_recorded _ _ _ _ _ _ _ _ _ _ _ _ S). Qed.

Lemma probability_product : acyclic w -> distinct_names y -> well_drawn w ->
  exists dq lq js qs q, p_prob p = Some q /\ sd_prob (y_sp y') = Some dq /\
    match y_der y with
    | Some _ => lq = []
    | None => exists l vals x, y_lum y' = Some l /\ values E (lc_params (ld_cls l)) (ld_par l) (lc_preads (ld_cls l)) vals /\
        rmapM (lc_phi (ld_cls l) vals) (sv_lat (p_lum p)) = Ok x /\ lq = [x]
    end /\
    NoDup js /\
    (forall j, In j js <-> part y j /\ exists b s, at_ w j b /\ nth_error (w_sels w) (a_sel (a_ln b)) = Some s /\ is_unity (s_kind s) = false) /\
    Forall2 (fun j x => exists b, at_ w' j b /\ match a_prob (a_dy b) with Some q => x = q | None => x = repeat one (p_nobj p) end) js qs /\
    forall i, i < p_nobj p -> nth_error (sv_lat q) i = product_at E (Some one) (dq :: lq ++ qs) i.
Proof.
  intros AC DN WD. destruct (probability_factors AC DN WD) as (dq & lq & js & qs & q & H1 & H2 & H3 & H4 & H5 & H6 & H7).
  destruct (values_recorded AC DN WD) as [VR _]. destruct all_sized as [SZ _].
  exists dq, lq, js, qs, q. split; [exact H1|]. split; [exact H2|]. split; [exact H3|]. split; [exact H4|]. split; [exact H5|]. split; [|exact H7].
  assert (PJ : forall j, In j js -> part y j) by (intros j J; now apply H5). clear - H6 PJ VR SZ.
  induction H6 as [|j x js qs (b & B & PB) F IH]; constructor; [|apply IH; intros; apply PJ; now right].
  exists b. split; [exact B|]. unfold probability_of in PB. destruct (a_prob (a_dy b)) as [z|]; [congruence|].
  destruct (VR j b (PJ j (or_introl eq_refl)) B) as (tv & ov & T & _ & G). rewrite T in PB. injection PB as <-.
  f_equal. exact (proj2 (sz_aux SZ _ _ (dget_In _ _ G))).
Qed.

Lemma truth_samplers : acyclic w -> distinct_names y -> well_drawn w ->
  forall j b, listed y j -> at_ w j b -> exists b', at_ w' j b' /\
    dget (pa_truth (p_args p)) (name_of b) = Some (truth (a_par (a_dy b'))) /\
    same_reads E (k_params (kind_of b)) (a_par (a_dy b)) (a_par (a_dy b')).
Proof. destruct (SynthInv.survey_steps _ _ _ _ _ _ _ _ _ _ _ H) as (t & S). exact (SurveyPop.truth_samplers _ _ _ _ _ _ _ _ _ _ _ _ S). Qed.

Lemma truth_lum l : acyclic w -> distinct_names y -> well_drawn w -> y_der y = None -> y_lum y = Some l ->
  (forall j b, part y j -> at_ w j b -> name_of b <> ld_name l) ->
  exists l', y_lum y' = Some l' /\ dget (pa_truth (p_args p)) (ld_name l) = Some (truth (ld_par l')) /\
    same_reads E (lc_params (ld_cls l)) (ld_par l) (ld_par l').
Proof. destruct (SynthInv.survey_steps _ _ _ _ _ _ _ _ _ _ _ H) as (t & S). exact (SurveyPop.truth_lum _ _ _ _ _ _ _ _ _ _ _ _ S l). Qed.

Lemma truth_spatial : acyclic w -> distinct_names y -> well_drawn w ->
  (forall j b, part y j -> at_ w j b -> name_of b <> sd_name (y_sp y)) ->
  (forall l, y_der y = None -> y_lum y = Some l -> ld_name l <> sd_name (y_sp y)) ->
  dget (pa_truth (p_args p)) (sd_name (y_sp y)) = Some (truth (sd_par (y_sp y))).
Proof. destruct (SynthInv.survey_steps _ _ _ _ _ _ _ _ _ _ _ H) as (t & S). exact (SurveyPop.truth_spatial _ _ _ _ _ _ _ _ _ _ _ _ S). Qed.

Lemma derived_luminosity i : acyclic w -> distinct_names y -> well_drawn w -> y_der y = Some i ->
  exists a f vals v, at_ w' i a /\ k_lum (kind_of a) = Some f /\
    values E (k_params (kind_of a)) (a_par (a_dy a)) (k_lreads (kind_of a)) vals /\
    f vals v = Ok (sv_lat (p_lum p)) /\
    vw_sp v = Some (SpVals E (sv_lat (p_dist p)) (sv_lat (p_theta p)) (sv_lat (p_phi p))) /\
    vw_true v = a_true (a_dy a) /\ vw_obs v = a_obs (a_dy a) /\
    vw_sec v = sec_values (w_auxs w') (a_sec (a_ln a)) /\ y_lum y' = y_lum y.
Proof. destruct (SynthInv.survey_steps _ _ _ _ _ _ _ _ _ _ _ H) as (t & S). exact (SurveyPop.derived_luminosity _ _ _ _ _ _ _ _ _ _ _ _ S i). Qed.
End P.

(** C31: without a luminosity source. *)
Section Source.
Variable E : env.
Notation synth := (synth E).
Definition R (l : ldist E) (a b : synth) : Prop := b = with_lumd a l /\ y_lum a = None /\ y_der a = None.
Lemma in_sp_R l A (m : DM E A) : sim (R l) eq (in_sp m) (in_sp m).
Proof.
  intros a b (-> & A1 & A2). unfold in_sp. cbn [y_sp y_w with_lumd]. destruct (m _) as [[r|e] [d g]]; (split; [easy|]); (split; [easy|]); auto.
Qed.
Lemma size_R l ns norm : sim (R l) eq (survey_size (E := E) ns norm) (survey_size ns norm).
Proof.
  unfold survey_size. apply sim_eq; [apply sim_modify; intros a b (-> & A1 & A2); now split|]. intros _. destruct ns; [now apply sim_ret|].
  apply sim_eq; [apply in_sp_R|]. intros r.
  intros a b (-> & A1 & A2). unfold in_g. cbn [y_w with_lumd]. destruct (r_poisson E r (w_g (y_w a))) as [[u|e] g]; (split; [easy|]); now split.
Qed.
Lemma sim_ok S S' A (Q : S -> S' -> Prop) (m : M S A) m' s s' r u : sim Q eq m m' -> Q s s' -> m' s' = (Ok r, u) ->
  exists v, m s = (Ok r, v) /\ Q v u.
Proof. intros H HQ X. specialize (H s s' HQ). rewrite X in H. destruct (m s) as [[a|e] v]; [|easy]. destruct H as [-> H]. eauto. Qed.

Lemma no_source prog fuel rl fs l10 ns norm (y : synth) l p y' : y_lum y = None -> y_der y = None ->
  draw_survey prog fuel rl fs l10 ns norm (with_lumd y l) = (Ok p, y') ->
  fst (draw_survey prog fuel rl fs l10 ns norm y) = Err RuntimeError.
Proof.
  intros YL YD H. destruct (SynthInv.survey_steps _ _ _ _ _ _ _ _ _ _ _ H) as (t & S).
  assert (Q0 : R l y (with_lumd y l)) by now split.
  destruct (sim_ok _ _ _ _ _ _ _ _ _ _ (size_R l ns norm) Q0 (SynthInv.sp_size _ _ _ _ _ _ _ _ _ _ _ _ S)) as (y1 & H1 & Q1).
  destruct (sim_ok _ _ _ _ _ _ _ _ _ _ (in_sp_R l _ _) Q1 (SynthInv.sp_dist _ _ _ _ _ _ _ _ _ _ _ _ S)) as (y2 & H2 & Q2).
  destruct (sim_ok _ _ _ _ _ _ _ _ _ _ (in_sp_R l _ _) Q2 (SynthInv.sp_sky _ _ _ _ _ _ _ _ _ _ _ _ S)) as (y3 & H3 & Q3).
  assert (P0 := SynthInv.sp_p0 _ _ _ _ _ _ _ _ _ _ _ _ S). assert (SP := SynthInv.sp_sp _ _ _ _ _ _ _ _ _ _ _ _ S).
  assert (E2 : y_sp (SynthInv.tr_dists E t) = y_sp y2) by now destruct Q2 as (-> & _).
  assert (E3 : y_sp (SynthInv.tr_sky E t) = y_sp y3) by now destruct Q3 as (-> & _).
  rewrite E2 in P0. rewrite E3 in SP. destruct Q3 as (_ & L3 & D3).
  destruct P0 as (q & P0 & P1).
  unfold draw_survey. rewrite SurveySeed.bind_get. rewrite (bind_ok _ _ _ H1), (bind_ok _ _ _ H2), SurveySeed.bind_get.
  unfold times at 1. rewrite P0. cbn [of_opt rbind]. rewrite P1. unfold bind at 1. cbn [lift]. rewrite (bind_ok _ _ _ H3).
  unfold get_sp. unfold bind at 1. rewrite SurveySeed.bind_get, SP. cbn [lift].
  unfold survey_lum. unfold bind at 1. rewrite SurveySeed.bind_get, L3, D3. reflexivity.
Qed.
End Source.
