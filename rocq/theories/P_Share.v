(** C75: a returned population stays as it was. *)
From Verif Require Import Base Env ParamModel SelModel SimVarModel DistModel DistSpec AuxModel PopModel SynthModel SynthSpec Toy SynthExamples ShareModel ShareSpec.
From Verif Require Share ShareExamples.
Open Scope string_scope.

(** [shows y p]: the population [p] as it is read while its synth is in state [y].  Right
    after [draw_survey] it is the population returned. *)
Theorem C75_returned_as_shown E prog fuel rl fs l10 ns norm (y : synth E) p y1 :
  draw_survey prog fuel rl fs l10 ns norm y = (Ok p, y1) -> shows y1 p = p.
Proof. exact (Share.returned_as_shown E prog fuel rl fs l10 ns norm y p y1). Qed.

(** Whatever surveys are drawn from the synth later, however often its graph is looked at
    and whichever selections are chosen, the population shows what it showed: the same
    objects, fluxes, mask and truths, the same model spaces, parameters that read the
    same, the same graph.  Missing: the other methods, see below. *)
Theorem C75_unchanged_by_surveys_partial E prog fuel rl fs l10 ns norm (y : synth E) p y1 z :
  draw_survey prog fuel rl fs l10 ns norm y = (Ok p, y1) -> wf_par E (sc_params (sd_cls (y_sp y))) (sd_par (y_sp y)) ->
  (norm = true -> ns = None -> norm_value E (sd_par (y_sp y))) -> later rl y1 z ->
  same_record (sc_params (sd_cls (y_sp y))) (option_map (fun l => lc_params (ld_cls l)) (y_lum y)) p (shows z p).
Proof. exact (Share.later_unchanged E rl prog fuel fs l10 ns norm y p y1 z). Qed.

(** A new value of a parameter of the spatial distribution becomes the parameter of the
    population drawn before; its truth and its distances are the old ones. *)
Theorem C75_spatial_parameters_follow E prog fuel rl fs l10 ns norm (y : synth E) p y1 k v y2 :
  draw_survey prog fuel rl fs l10 ns norm y = (Ok p, y1) -> set_spatial k v y1 = (Ok tt, y2) ->
  dget (pa_sppar (p_args (shows y2 p))) k = Some (Some v) /\ pa_truth (p_args (shows y2 p)) = pa_truth (p_args p) /\
  sv_lat (p_dist (shows y2 p)) = sv_lat (p_dist p).
Proof. exact (Share.spatial_follows E prog fuel rl fs l10 ns norm y p y1 k v y2). Qed.
(** So does one of the luminosity distribution. *)
Theorem C75_luminosity_parameters_follow E prog fuel rl fs l10 ns norm (y : synth E) p y1 k v y2 :
  draw_survey prog fuel rl fs l10 ns norm y = (Ok p, y1) -> set_luminosity k v y1 = (Ok tt, y2) ->
  (exists d, pa_lfpar (p_args (shows y2 p)) = Some d /\ dget d k = Some (Some v)) /\ pa_truth (p_args (shows y2 p)) = pa_truth (p_args p) /\
  sv_lat (p_lum (shows y2 p)) = sv_lat (p_lum p).
Proof. exact (Share.luminosity_follows E prog fuel rl fs l10 ns norm y p y1 k v y2). Qed.
(** A model space asked for after the survey is one of the population's. *)
Theorem C75_model_spaces_follow E prog fuel rl fs l10 ns norm (y : synth E) p y1 nm a b lg y2 :
  draw_survey prog fuel rl fs l10 ns norm y = (Ok p, y1) -> add_space nm a b lg y1 = (Ok tt, y2) ->
  exists sp l, pa_spaces (p_args (shows y2 p)) = Some sp /\ dget sp nm = Some l.
Proof. exact (Share.space_follows E prog fuel rl fs l10 ns norm y p y1 nm a b lg y2). Qed.

(** A population drawn with [Lambda] = 5 and [mu] = 2, before and after both parameters
    are set, a model space is asked for and a sampler is registered: the population shows
    the new values beside the old truths, its Stan data have the space and its graph has
    the sampler it never drew. *)
Theorem C75_later_configuration_refuted : exists p y1 y2, survey None (Some 3) false before = (Ok p, y1) /\ ShareExamples.changes y1 = (Ok tt, y2) /\
  ShareExamples.watched p = (Some (Some 5%Z), Some (Some (Some 2%Z)), ShareExamples.tr1, Some nil, [("space", "obs_flux"); ("lf", "obs_flux")]%list, false) /\
  ShareExamples.watched (shows y2 p) = (Some (Some 7%Z), Some (Some (Some 4%Z)), ShareExamples.tr1, Some ["z"]%list,
    [("space", "obs_flux"); ("lf", "obs_flux"); ("x", "x_obs")]%list, true).
Proof. exact ShareExamples.changed_afterwards. Qed.

(** Two surveys of the synth [rich], the second with other distances, and a look at the
    graph. *)
Example C75_applies : (exists p y1 q y2 g z, survey (Some 2%Z) (Some 6) false (rich false) = (Ok p, y1) /\
  survey None (Some 6) true y1 = (Ok q, y2) /\ read_graph 10 y2 = (Ok g, z) /\ sv_lat (p_dist q) <> sv_lat (p_dist p) /\ later 10 y1 z) /\
  wf_par toy (sc_params (sd_cls (y_sp (rich false)))) (sd_par (y_sp (rich false))) /\ norm_value toy (sd_par (y_sp (rich false))).
Proof. exact (conj ShareExamples.drawn_again (rich_wf false)). Qed.

Print Assumptions C75_returned_as_shown.
Print Assumptions C75_unchanged_by_surveys_partial.
Print Assumptions C75_spatial_parameters_follow.
Print Assumptions C75_luminosity_parameters_follow.
Print Assumptions C75_model_spaces_follow.
Print Assumptions C75_later_configuration_refuted.
