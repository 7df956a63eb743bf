(** C22-C34, C60, C61: population synths and surveys. *)
From Verif Require Import Base BaseFacts Env ParamModel SelModel SelSpec SimVarModel DistModel DistSpec AuxModel AuxSpec PopModel
  SynthModel SynthSpec Toy AuxExamples SynthExamples.
From Verif Require SynthGraph SurveySeed SurveyClean SurveyTop SurveyMade.
Open Scope string_scope.
Open Scope list_scope.
Open Scope nat_scope.

(** ** C22: the dependency graph *)

(** The edges are the ones that were there plus those of [graph_edge]: every secondary
    at any depth to its parent, the spatial distribution to the distance-dependent
    direct secondaries, and so on.  Nothing else changes. *)
Theorem C22_graph_edges : forall E rl (y : synth E), keyed (y_w y) -> named y ->
  forall g y', read_graph rl y = (Ok g, y') ->
  y' = with_graph y g /\ forall e, In e (gr_edges g) <-> In e (gr_edges (y_graph y)) \/ graph_edge y e.
Proof. intros E rl y K N. now apply SynthGraph.graph_edges. Qed.
(** It can be read for every acyclic tree of samplers in which no secondary of a
    secondary depends on the distance.  [r] ranks samplers below the recursion limit. *)
Theorem C22_graph_succeeds : forall E rl (y : synth E), keyed (y_w y) -> named y ->
  forall r : nat -> nat, (forall i j, depends (y_w y) i j -> r j < r i) -> (forall i, r i < rl) -> closed (y_w y) ->
  (forall k i a, In (k, i) (y_aux y) -> at_ (y_w y) i a -> a_issec (a_ln a) = false) ->
  (forall i, y_der y = Some i -> exists a, at_ (y_w y) i a) ->
  has_source y -> shallow y -> exists g y', read_graph rl y = (Ok g, y').
Proof. intros E rl y K N. now apply SynthGraph.graph_succeeds. Qed.
(** These conditions are necessary. *)
Theorem C22_graph_needs : forall E rl (y : synth E), keyed (y_w y) -> named y ->
  forall g y', read_graph rl y = (Ok g, y') -> has_source y /\ shallow y /\
  (forall k i a, In (k, i) (y_aux y) -> at_ (y_w y) i a -> a_issec (a_ln a) = false).
Proof. intros E rl y K N. now apply SynthGraph.graph_needs. Qed.
Theorem C22_deep_distance_refuted : exists y : synth toy, y = plain_synth deep [0] /\ acyclic (y_w y) /\ closed (y_w y) /\ keyed (y_w y) /\
  named y /\ has_source y /\ fst (read_graph 10 y) = Err AttributeError.
Proof. exact deep_graph. Qed.
Theorem C22_derived_distance_edge_refuted : exists (y : synth toy) g y', y = plain_synth derived_far [0] /\ y_der y = Some 0 /\ depends (y_w y) 0 1 /\
  (exists b, at_ (y_w y) 1 b /\ a_usesd (a_st b) = true /\ name_of b = "z") /\
  read_graph 10 y = (Ok g, y') /\ ~ In ("space", "z") (gr_edges g).
Proof. exact derived_no_edge. Qed.

(** ** C23: registration *)
Theorem C23_registered : forall E (l : list registrable) (y : synth E), NoDup (dkeys (y_aux y)) ->
  let y' := register l y in
  y_w y' = y_w y /\ NoDup (dkeys (y_aux y')) /\
  (forall k i, In (k, i) (y_aux y) -> In (k, i) (y_aux y')) /\
  (forall k i, In (k, i) (y_aux y') -> In (k, i) (y_aux y) \/
     (In (IsSampler i) l /\ exists a, at_ (y_w y) i a /\ name_of a = k /\ a_issec (a_ln a) = false /\ k_lum (kind_of a) = None)).
Proof. exact SynthGraph.register_spec. Qed.
Theorem C23_each_call : forall E x (y : synth E), exists r y', add_quantity x y = (r, y') /\ y_w y' = y_w y /\
  ((r = Ok tt /\ exists i a, x = IsSampler i /\ at_ (y_w y) i a /\
     ((k_lum (kind_of a) <> None /\ y' = with_der y (Some i)) \/
      (k_lum (kind_of a) = None /\ a_issec (a_ln a) = false /\ dget (y_aux y) (name_of a) = None /\
       y' = with_aux y (dset (y_aux y) (name_of a) i)))) \/
   (r = Err RuntimeError /\ y' = y /\ (x = NotASampler \/ exists i a, x = IsSampler i /\ at_ (y_w y) i a /\ k_lum (kind_of a) = None /\
      (a_issec (a_ln a) = true \/ dget (y_aux y) (name_of a) <> None))) \/
   (r = Err Unmodelled /\ y' = y /\ exists i, x = IsSampler i /\ nth_error (w_auxs (y_w y)) i = None)).
Proof. exact SynthGraph.add_quantity_cases. Qed.
Theorem C23_derived_replaced : forall E (l : list registrable) (y : synth E) i a, at_ (y_w y) i a -> k_lum (kind_of a) <> None ->
  y_der (register (l ++ [IsSampler i]) y) = Some i /\ y_aux (register (l ++ [IsSampler i]) y) = y_aux (register l y).
Proof. exact SynthGraph.register_last_der. Qed.
Theorem C23_derived_secondary_accepted_refuted : exists (y y' : synth toy), y_w y = w_set_sels (w_sels (y_w y)) tied /\
  (exists a, at_ (y_w y) 1 a /\ a_issec (a_ln a) = true) /\ add_quantity (IsSampler 1) y = (Ok tt, y') /\ y_der y' = Some 1.
Proof. exact secondary_accepted. Qed.

(** ** C24: which objects are selected *)
Theorem C24_selected_iff : forall E prog fuel rl fs l10 ns norm (y : synth E) p y',
  draw_survey prog fuel rl fs l10 ns norm y = (Ok p, y') ->
  distinct_names y -> selectors_apart y -> forall i, i < p_nobj p ->
  (nth_error (pa_sel (p_args p)) i = Some true <->
   (exists m, mask_at (y_w y') (y_flux y) m /\ accepts m i) /\
   (forall k, y_ssel y = Some k -> exists m, mask_at (y_w y') k m /\ accepts m i) /\
   (forall j b, part y j -> at_ (y_w y) j b -> passes (y_w y') (a_sel (a_ln b)) i)).
Proof. exact SurveyTop.selected_iff. Qed.
(** Those masks are the selectors' decisions on this population's values. *)
Theorem C24_flux_judged : forall E prog fuel rl fs l10 ns norm (y : synth E) p y',
  draw_survey prog fuel rl fs l10 ns norm y = (Ok p, y') ->
  forall s, selectors_apart y -> nth_error (w_sels (y_w y)) (y_flux y) = Some s -> s_sampled s = false ->
  exists s0 g0 s1 g1 m, set_up s s0 /\ d_oflux (s_data s0) = Some (sv_obs (p_flux p)) /\
    sel_draw prog (p_nobj p) (s0, g0) = (Ok tt, (s1, g1)) /\ s_mask s1 = Some m /\ mask_at (y_w y') (y_flux y) m.
Proof. exact SurveyTop.flux_judged. Qed.
Theorem C24_spatial_judged : forall E prog fuel rl fs l10 ns norm (y : synth E) p y',
  draw_survey prog fuel rl fs l10 ns norm y = (Ok p, y') ->
  forall k s, selectors_apart y -> y_ssel y = Some k -> nth_error (w_sels (y_w y)) k = Some s -> s_sampled s = false ->
  exists s0 g0 s1 g1 m, set_up s s0 /\ is_spatial (s_kind s) = true /\
    d_sp (s_data s0) = Some (SpVals E (sv_lat (p_dist p)) (sv_lat (p_theta p)) (sv_lat (p_phi p))) /\
    sel_draw prog (p_nobj p) (s0, g0) = (Ok tt, (s1, g1)) /\ s_mask s1 = Some m /\ mask_at (y_w y') k m.
Proof. exact SurveyTop.spatial_judged. Qed.
Theorem C24_samplers_judged : forall E prog fuel rl fs l10 ns norm (y : synth E) p y',
  draw_survey prog fuel rl fs l10 ns norm y = (Ok p, y') ->
  acyclic (y_w y) -> distinct_names y -> own_selectors (y_w y) -> never_drawn (y_w y) -> selectors_apart y -> flux_apart y ->
  forall j b, part y j -> at_ (y_w y) j b -> exists b' s s0 g0 s1 g1,
    at_ (y_w y') j b' /\ filled (p_nobj p) b' /\
    nth_error (w_sels (y_w y)) (a_sel (a_ln b)) = Some s /\ set_up s s0 /\ d_oval (s_data s0) = a_obs (a_dy b') /\
    sel_draw prog (p_nobj p) (s0, g0) = (Ok tt, (s1, g1)) /\ nth_error (w_sels (y_w y')) (a_sel (a_ln b)) = Some s1.
Proof. exact SurveyTop.samplers_judged. Qed.
Theorem C24_same_name_ignored_refuted : exists (y y' : synth toy) p, y = plain_synth twins [0; 1] /\ survey None (Some 3) false y = (Ok p, y') /\
  pa_sel (p_args p) = [true; true; true] /\ part y 0 /\
  exists b s, at_ (y_w y) 0 b /\ nth_error (w_sels (y_w y')) (a_sel (a_ln b)) = Some s /\ s_mask s = Some [false; false; false].
Proof. exact twins_ignored. Qed.

(** ** C25: the hard flux limit, for a flux selector that was not used before *)
Theorem C25_hard_flux_limit : forall E prog fuel rl fs l10 ns norm (y : synth E) p y',
  draw_survey prog fuel rl fs l10 ns norm y = (Ok p, y') ->
  forall s b, nth_error (w_sels (y_w y)) (y_flux y) = Some s -> s_sampled s = false ->
  s_kind s = KLower E -> s_fflux s = true -> par_is s "boundary" b ->
  forall i f, nth_error (sv_obs (p_flux p)) i = Some f -> nth_error (pa_sel (p_args p)) i = Some true -> vle E b f = true.
Proof. exact SurveyTop.hard_flux. Qed.
Theorem C25_second_survey_refuted : exists (p1 p2 : population toy) y1 y2 i f,
  survey None (Some 6) false limited = (Ok p1, y1) /\ survey (Some 20%Z) (Some 6) false y1 = (Ok p2, y2) /\
  nth_error (sv_obs (p_flux p2)) i = Some f /\ nth_error (pa_sel (p_args p2)) i = Some true /\ (f < 20)%Z.
Proof. exact stale_flux. Qed.

(** ** C26: reproducibility *)
Theorem C26_generators_irrelevant : forall E prog fuel rl sg l10 ns nrm (y : synth E) g k g' k',
  (forall a, In a (w_auxs (y_w y)) -> numba_free (kind_of a)) ->
  fst (draw_survey prog fuel rl sg l10 ns nrm (set_gens g k y)) = fst (draw_survey prog fuel rl sg l10 ns nrm (set_gens g' k' y)).
Proof. exact SurveySeed.survey_generators. Qed.
Theorem C26_numpy_irrelevant : forall E prog fuel rl sg l10 ns nrm (y : synth E) g g' k,
  draw_survey prog fuel rl sg l10 ns nrm (set_gens g k y) = draw_survey prog fuel rl sg l10 ns nrm (set_gens g' k y).
Proof. exact SurveySeed.survey_numpy. Qed.
Theorem C26_numba_not_seeded_refuted : exists (y : synth toy) p1 y1 p2 y2, y = plain_synth numbed [0] /\
  survey None (Some 3) false (@set_gens toy 5%Z 0%Z y) = (Ok p1, y1) /\ survey None (Some 3) false (@set_gens toy 5%Z 4%Z y) = (Ok p2, y2) /\
  option_map (fun v => sv_obs v) (dget (p_aux p1) "x") <> option_map (fun v => sv_obs v) (dget (p_aux p2) "x").
Proof. exact unseeded. Qed.

(** ** C27, C28, C29 *)
Theorem C27_sizes : forall E prog fuel rl fs l10 ns norm (y : synth E) p y',
  draw_survey prog fuel rl fs l10 ns norm y = (Ok p, y') ->
  sized (p_nobj p) p /\ forall n, ns = Some n -> p_nobj p = n.
Proof. exact SurveyTop.all_sized. Qed.
Theorem C28_known_and_unknown : forall E prog fuel rl fs l10 ns norm (y : synth E) p y',
  draw_survey prog fuel rl fs l10 ns norm y = (Ok p, y') ->
  let a := p_args p in
  StronglySorted lt (pa_kidx a) /\ StronglySorted lt (pa_uidx a) /\
  (forall i, i < p_ndet p <-> In i (pa_kidx a) \/ In i (pa_uidx a)) /\
  (forall i, In i (pa_kidx a) -> ~ In i (pa_uidx a)) /\
  length (pa_known a) = length (pa_kidx a) /\
  (forall j d, nth_error (pa_known a) j = Some d -> exists i k,
     nth_error (pa_kidx a) j = Some i /\ ith_selected (pa_sel a) i k /\ nth_error (sv_obs (p_dist p)) k = Some d).
Proof. exact SurveyTop.known_unknown. Qed.
Theorem C29_detection_needs_known_distance_partial : forall E prog fuel rl fs l10 ns norm (y : synth E) p y',
  draw_survey prog fuel rl fs l10 ns norm y = (Ok p, y') -> 0 < p_ndet p -> pa_known (p_args p) <> [].
Proof. exact SurveyTop.detection_needs_known. Qed.
Theorem C29_no_known_distance_refuted : exists y', survey None (Some 4) false (unlucky 0) = (Err ValueError, y') /\
  exists p y2, survey None (Some 4) false (unlucky 1) = (Ok p, y2) /\ p_ndet p = 4.
Proof. exact nothing_known. Qed.

(** ** C30: the spatial distribution's parameters after a survey *)
Theorem C30_survey_keeps_parameters : forall E prog fuel rl fs l10 ns norm (y : synth E) p y',
  draw_survey prog fuel rl fs l10 ns norm y = (Ok p, y') ->
  wf_par E (sc_params (sd_cls (y_sp y))) (sd_par (y_sp y)) ->
  (norm = true -> ns = None -> norm_value E (sd_par (y_sp y))) ->
  sd_cls (y_sp y') = sd_cls (y_sp y) /\
  same_reads E (sc_params (sd_cls (y_sp y))) (sd_par (y_sp y)) (sd_par (y_sp y')) /\
  exists rs ps g g', drawn (E := E) (sd_cls (y_sp y)) (sd_par (y_sp y)) prog fuel (p_nobj p) norm g g' rs ps /\ sd_prob (y_sp y') = Some ps /\
    (sc_sky (sd_cls (y_sp y)) = None -> sv_lat (p_dist p) = rs).
Proof. exact SurveyTop.spatial_kept. Qed.
Theorem C30_unset_normalisation_refuted : exists p y', survey None None true unset = (Ok p, y') /\
  reading toy (sc_params radial) (sd_par (y_sp unset)) "Lambda" = Ok 5%Z /\
  reading toy (sc_params radial) (sd_par (y_sp y')) "Lambda" = Ok 1%Z.
Proof. exact norm_changed. Qed.

(** ** C31: the luminosities *)
Theorem C31_derived_luminosity : forall E prog fuel rl fs l10 ns norm (y : synth E) p y',
  draw_survey prog fuel rl fs l10 ns norm y = (Ok p, y') ->
  forall i, acyclic (y_w y) -> distinct_names y -> well_drawn (y_w y) -> y_der y = Some i ->
  exists a f vals v, at_ (y_w y') i a /\ k_lum (kind_of a) = Some f /\
    values E (k_params (kind_of a)) (a_par (a_dy a)) (k_lreads (kind_of a)) vals /\
    f vals v = Ok (sv_lat (p_lum p)) /\
    vw_sp v = Some (SpVals E (sv_lat (p_dist p)) (sv_lat (p_theta p)) (sv_lat (p_phi p))) /\
    vw_true v = a_true (a_dy a) /\ vw_obs v = a_obs (a_dy a) /\
    vw_sec v = sec_values (w_auxs (y_w y')) (a_sec (a_ln a)) /\ y_lum y' = y_lum y.
Proof. exact SurveyTop.derived_luminosity. Qed.
(** Without a derived luminosity they are one draw of the luminosity distribution, with the
    parameters it has, and they are observed as they are. *)
Theorem C31_drawn_luminosity : forall E prog fuel rl fs l10 ns norm (y : synth E) p y',
  draw_survey prog fuel rl fs l10 ns norm y = (Ok p, y') -> y_der y = None ->
  exists l vals g g', y_lum y = Some l /\ values E (lc_params (ld_cls l)) (ld_par l) (lc_dreads (ld_cls l)) vals /\
    lc_draw (ld_cls l) vals (p_nobj p) g = (Ok (sv_lat (p_lum p)), g') /\ sv_obs (p_lum p) = sv_lat (p_lum p).
Proof. exact SurveyMade.drawn_luminosity. Qed.
(** A synth that works once a luminosity distribution is added raises without one. *)
Theorem C31_no_source_raises : forall E prog fuel rl fs l10 ns norm (y : synth E) l p y', y_lum y = None -> y_der y = None ->
  draw_survey prog fuel rl fs l10 ns norm (with_lumd y l) = (Ok p, y') ->
  fst (draw_survey prog fuel rl fs l10 ns norm y) = Err RuntimeError.
Proof. exact SurveyTop.no_source. Qed.

(** ** C32: cleaning *)
Theorem C32_clean_leaves_nothing : forall E rl reset (y : synth E) u y', clean rl reset y = (Ok u, y') ->
  bare y' /\ kept_conf y y' /\ w_g (y_w y') = w_g (y_w y) /\ w_n (y_w y') = w_n (y_w y).
Proof. exact SurveyClean.clean_bare. Qed.
Theorem C32_cleaned_as_new : forall E prog fuel rl rl' reset sg l10 ns nrm (y : synth E) u y' w,
  clean rl' reset y = (Ok u, y') -> y_spaces y = nil -> y_nmodel y = 500 -> y_name y = synth_name (y_sp y) (y_lum y) ->
  let z := synth_new w (y_sp y) (y_spm y) (y_lum y) (y_lumm y) (y_seed y) in
  rmap (@graph_off E) (fst (draw_survey prog fuel rl sg l10 ns nrm y')) = rmap (@graph_off E) (fst (draw_survey prog fuel rl sg l10 ns nrm z)).
Proof. exact SurveyClean.cleaned_as_new. Qed.
Theorem C32_spaces_and_graph_kept_refuted : exists (y' : synth toy) p1 y1 p2 y2, spaced before = (Ok tt, y') /\
  survey None (Some 3) false y' = (Ok p1, y1) /\ survey None (Some 3) false before = (Ok p2, y2) /\
  option_map dkeys (pa_spaces (p_args p1)) = Some ["z"] /\ option_map dkeys (pa_spaces (p_args p2)) = Some [] /\
  In ("x", "x_obs") (gr_edges (pa_graph (p_args p1))) /\ ~ In ("x", "x_obs") (gr_edges (pa_graph (p_args p2))).
Proof. exact clean_leaves. Qed.

(** ** C33: fluxes *)
Theorem C33_latent_flux : forall E prog fuel rl fs l10 ns norm (y : synth E) p y',
  draw_survey prog fuel rl fs l10 ns norm y = (Ok p, y') ->
  forall i f, nth_error (sv_lat (p_flux p)) i = Some f ->
  exists l d, nth_error (sv_obs (p_lum p)) i = Some l /\ nth_error (sv_obs (p_dist p)) i = Some d /\
              f = sc_transform (sd_cls (y_sp y)) l d.
Proof. exact SurveyTop.latent_flux. Qed.
Theorem C33_observed_flux : forall E prog fuel rl fs l10 ns norm (y : synth E) p y',
  draw_survey prog fuel rl fs l10 ns norm y = (Ok p, y') ->
  forall s, nth_error (w_sels (y_w y)) (y_flux y) = Some s ->
  match is_unity (s_kind s), fs with
  | false, Some sg => pa_sigma (p_args p) = sg /\
      exists es g g', rdraws (r_norm E (vofnat E 0) sg) (p_nobj p) g = (es, g') /\
        forall i, nth_error (sv_obs (p_flux p)) i =
          match nth_error (sv_lat (p_flux p)) i, nth_error es i with
          | Some f, Some e => Some (noisy E l10 f e)
          | _, _ => None
          end
  | _, _ => pa_sigma (p_args p) = vsub E (vofnat E 0) (vofnat E 1) /\ sv_obs (p_flux p) = sv_lat (p_flux p)
  end.
Proof. exact SurveyTop.observed_flux. Qed.

(** ** C34: recorded truths *)
Theorem C34_truth_samplers : forall E prog fuel rl fs l10 ns norm (y : synth E) p y',
  draw_survey prog fuel rl fs l10 ns norm y = (Ok p, y') ->
  acyclic (y_w y) -> distinct_names y -> well_drawn (y_w y) ->
  forall j b, listed y j -> at_ (y_w y) j b -> exists b', at_ (y_w y') j b' /\
    dget (pa_truth (p_args p)) (name_of b) = Some (truth (a_par (a_dy b'))) /\
    same_reads E (k_params (kind_of b)) (a_par (a_dy b)) (a_par (a_dy b')).
Proof. exact SurveyTop.truth_samplers. Qed.
Theorem C34_truth_luminosity : forall E prog fuel rl fs l10 ns norm (y : synth E) p y',
  draw_survey prog fuel rl fs l10 ns norm y = (Ok p, y') ->
  forall l, acyclic (y_w y) -> distinct_names y -> well_drawn (y_w y) -> y_der y = None -> y_lum y = Some l ->
  (forall j b, part y j -> at_ (y_w y) j b -> name_of b <> ld_name l) ->
  exists l', y_lum y' = Some l' /\ dget (pa_truth (p_args p)) (ld_name l) = Some (truth (ld_par l')) /\
    same_reads E (lc_params (ld_cls l)) (ld_par l) (ld_par l').
Proof. exact SurveyTop.truth_lum. Qed.
Theorem C34_truth_spatial : forall E prog fuel rl fs l10 ns norm (y : synth E) p y',
  draw_survey prog fuel rl fs l10 ns norm y = (Ok p, y') ->
  acyclic (y_w y) -> distinct_names y -> well_drawn (y_w y) ->
  (forall j b, part y j -> at_ (y_w y) j b -> name_of b <> sd_name (y_sp y)) ->
  (forall l, y_der y = None -> y_lum y = Some l -> ld_name l <> sd_name (y_sp y)) ->
  dget (pa_truth (p_args p)) (sd_name (y_sp y)) = Some (truth (sd_par (y_sp y))).
Proof. exact SurveyTop.truth_spatial. Qed.
Theorem C34_deep_secondary_refuted : exists p y', survey (Some 2%Z) (Some 6) false (rich false) = (Ok p, y') /\ part (rich false) 3 /\
  (exists b, at_ (y_w (rich false)) 3 b /\ name_of b = "c") /\ dget (pa_truth (p_args p)) "c" = None.
Proof. exact truth_lacks. Qed.
Theorem C34_spatial_default_refuted : exists (y : synth toy) p y', y = @synth_new toy (@World toy 5%Z 0%Z [] [] []) (space None) m0 (Some lumd) m0 1234%Z /\
  survey None (Some 4) false y = (Ok p, y') /\ reading toy (sc_params radial) (sd_par (y_sp y)) "Lambda" = Ok 5%Z /\
  dget (pa_truth (p_args p)) "space" = Some [("r_max", 10%Z)].
Proof. exact truth_lacks_default. Qed.

(** ** C60: the probability, C61: the recorded values *)
Theorem C60_probability_product : forall E prog fuel rl fs l10 ns norm (y : synth E) p y',
  draw_survey prog fuel rl fs l10 ns norm y = (Ok p, y') ->
  acyclic (y_w y) -> distinct_names y -> well_drawn (y_w y) ->
  exists dq lq js qs q, p_prob p = Some q /\ sd_prob (y_sp y') = Some dq /\
    match y_der y with
    | Some _ => lq = []
    | None => exists l vals x, y_lum y' = Some l /\ values E (lc_params (ld_cls l)) (ld_par l) (lc_preads (ld_cls l)) vals /\
        rmapM (lc_phi (ld_cls l) vals) (sv_lat (p_lum p)) = Ok x /\ lq = [x]
    end /\
    NoDup js /\
    (forall j, In j js <-> part y j /\ exists b s, at_ (y_w y) j b /\ nth_error (w_sels (y_w y)) (a_sel (a_ln b)) = Some s /\ is_unity (s_kind s) = false) /\
    Forall2 (fun j x => exists b, at_ (y_w y') j b /\
      match a_prob (a_dy b) with Some q => x = q | None => x = repeat (vofnat E 1) (p_nobj p) end) js qs /\
    forall i, i < p_nobj p -> nth_error (sv_lat q) i = product_at E (Some (vofnat E 1)) (dq :: lq ++ qs) i.
Proof. exact SurveyTop.probability_product. Qed.
Theorem C60_density_left_out_refuted : exists p y' p2 y2 b,
  survey None (Some 3) false (plain_synth (dense (unity toy "s")) [0]) = (Ok p, y') /\ at_ (y_w y') 0 b /\ probability_of b = Some [3; 3; 3]%Z /\
  survey None (Some 3) false (plain_synth (dense (above 0)) [0]) = (Ok p2, y2) /\
  option_map (fun q => sv_lat q) (p_prob p) = Some [18; 2; 6]%Z /\ option_map (fun q => sv_lat q) (p_prob p2) = Some [54; 6; 18]%Z.
Proof. exact density_left_out. Qed.
Theorem C61_values_recorded : forall E prog fuel rl fs l10 ns norm (y : synth E) p y',
  draw_survey prog fuel rl fs l10 ns norm y = (Ok p, y') ->
  acyclic (y_w y) -> distinct_names y -> well_drawn (y_w y) ->
  (forall j b, part y j -> at_ (y_w y') j b -> exists tv ov, a_true (a_dy b) = Some tv /\ a_obs (a_dy b) = Some ov /\
     dget (p_aux p) (name_of b) = Some (SimVar ov tv (MB (pa_sel (p_args p))) DFloat)) /\
  (forall k v, In (k, v) (p_aux p) -> exists j b, part y j /\ at_ (y_w y') j b /\ name_of b = k).
Proof. exact SurveyTop.values_recorded. Qed.

Print Assumptions C22_graph_edges.
Print Assumptions C22_graph_succeeds.
Print Assumptions C22_graph_needs.
Print Assumptions C22_deep_distance_refuted.
Print Assumptions C22_derived_distance_edge_refuted.
Print Assumptions C23_registered.
Print Assumptions C23_each_call.
Print Assumptions C23_derived_replaced.
Print Assumptions C23_derived_secondary_accepted_refuted.
Print Assumptions C24_selected_iff.
Print Assumptions C24_flux_judged.
Print Assumptions C24_spatial_judged.
Print Assumptions C24_samplers_judged.
Print Assumptions C24_same_name_ignored_refuted.
Print Assumptions C25_hard_flux_limit.
Print Assumptions C25_second_survey_refuted.
Print Assumptions C26_generators_irrelevant.
Print Assumptions C26_numpy_irrelevant.
Print Assumptions C26_numba_not_seeded_refuted.
Print Assumptions C27_sizes.
Print Assumptions C28_known_and_unknown.
Print Assumptions C29_detection_needs_known_distance_partial.
Print Assumptions C29_no_known_distance_refuted.
Print Assumptions C30_survey_keeps_parameters.
Print Assumptions C30_unset_normalisation_refuted.
Print Assumptions C31_derived_luminosity.
Print Assumptions C31_drawn_luminosity.
Print Assumptions C31_no_source_raises.
Print Assumptions C32_clean_leaves_nothing.
Print Assumptions C32_cleaned_as_new.
Print Assumptions C32_spaces_and_graph_kept_refuted.
Print Assumptions C33_latent_flux.
Print Assumptions C33_observed_flux.
Print Assumptions C34_truth_samplers.
Print Assumptions C34_truth_luminosity.
Print Assumptions C34_truth_spatial.
Print Assumptions C34_deep_secondary_refuted.
Print Assumptions C34_spatial_default_refuted.
Print Assumptions C60_probability_product.
Print Assumptions C60_density_left_out_refuted.
Print Assumptions C61_values_recorded.
