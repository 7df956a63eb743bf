(** C78: what the selections of a survey change. *)
From Verif Require Import Base Env ParamModel SelModel SelSpec SimVarModel DistModel AuxModel AuxSpec PopModel SynthModel SynthSpec Toy SynthExamples OtherSpec OtherExamples.
From Verif Require OtherProofs.
Open Scope string_scope.
Open Scope list_scope.

(** Surveys of synths that differ in their flux, spatial and distance selections only are
    surveys of the same objects. *)
Theorem C78_same_objects E prog fuel rl fs l10 ns norm (y y' z z' : synth E) p p' :
  draw_survey prog fuel rl fs l10 ns norm y = (Ok p, z) -> draw_survey prog fuel rl fs l10 ns norm y' = (Ok p', z') ->
  but_selections y y' -> same_objects p p'.
Proof. exact (OtherProofs.the_same_objects E prog fuel rl fs l10 ns norm y y' z z' p p'). Qed.

(** They are observed with the same fluxes, when no flux error is asked for, or when both
    have a flux selection, or neither has. *)
Theorem C78_same_observed_fluxes E prog fuel rl fs l10 ns norm (y y' z z' : synth E) p p' :
  draw_survey prog fuel rl fs l10 ns norm y = (Ok p, z) -> draw_survey prog fuel rl fs l10 ns norm y' = (Ok p', z') ->
  but_selections y y' ->
  (fs = None \/ forall s s', nth_error (w_sels (y_w y)) (y_flux y) = Some s -> nth_error (w_sels (y_w y')) (y_flux y') = Some s' ->
     is_unity (s_kind s) = is_unity (s_kind s')) ->
  sv_obs (p_flux p) = sv_obs (p_flux p').
Proof. exact (OtherProofs.the_same_fluxes E prog fuel rl fs l10 ns norm y y' z z' p p'). Qed.
(** Otherwise not: a synth without a flux selection ignores the flux error. *)
Theorem C78_observed_fluxes_without_selection_refuted : exists (y y' : synth toy) p p' z z',
  but_selections y y' /\ selectors_apart y /\ selectors_apart y' /\ same_spatial y y' /\ distinct_names y /\
  survey (Some 2%Z) (Some 6) false y = (Ok p, z) /\ survey (Some 2%Z) (Some 6) false y' = (Ok p', z') /\ sv_obs (p_flux p) <> sv_obs (p_flux p').
Proof. exact unlimited_fluxes. Qed.

(** A survey with a lower hard flux limit detects every object that the shallower survey
    detects, whatever the other selections, the samplers and their selections. *)
Theorem C78_deeper_detects_more E prog fuel rl fs l10 ns norm (y y' z z' : synth E) p p' s s' b b' :
  draw_survey prog fuel rl fs l10 ns norm y = (Ok p, z) -> draw_survey prog fuel rl fs l10 ns norm y' = (Ok p', z') ->
  but_selections y y' -> selectors_apart y -> selectors_apart y' -> distinct_names y -> same_spatial y y' ->
  nth_error (w_sels (y_w y)) (y_flux y) = Some s -> s_sampled s = false -> s_kind s = KLower E -> s_fflux s = true -> par_is s "boundary" b ->
  nth_error (w_sels (y_w y')) (y_flux y') = Some s' -> s_sampled s' = false -> s_kind s' = KLower E -> s_fflux s' = true -> par_is s' "boundary" b' ->
  (forall a, In a (w_auxs (y_w y)) -> a_sel (a_ln a) <> y_flux y /\ a_sel (a_ln a) <> y_flux y') ->
  (forall f, vle E b' f = true -> vle E b f = true) ->
  forall i, detected p' i -> detected p i.
Proof. intros H H' B A A' D S. exact (OtherProofs.deeper_detects_more E prog fuel rl fs l10 ns norm y y' z z' p p' H H' B A A' D S s s' b b'). Qed.

(** The distance selection decides nothing else than the known distances: the same
    objects are detected, with the same fluxes. *)
Theorem C78_distance_selection_only E prog fuel rl fs l10 ns norm (y y' z z' : synth E) p p' :
  draw_survey prog fuel rl fs l10 ns norm y = (Ok p, z) -> draw_survey prog fuel rl fs l10 ns norm y' = (Ok p', z') ->
  but_selections y y' -> selectors_apart y -> selectors_apart y' -> distinct_names y -> same_spatial y y' -> same_flux_selection y y' ->
  pa_sel (p_args p) = pa_sel (p_args p') /\ sv_obs (p_flux p) = sv_obs (p_flux p').
Proof. intros H H' B A A' D S. exact (OtherProofs.distance_selection_irrelevant E prog fuel rl fs l10 ns norm y y' z z' p p' H H' B A A' D S). Qed.

(** Two limits, 20 and 31, in a synth with six samplers, a spatial selection and samplers'
    selections: the deeper survey detects objects 0, 2, 4, 5, the other one 2 and 5. *)
Example C78_applies : exists p p' z z',
  survey (Some 2%Z) (Some 6) false (rich false) = (Ok p, z) /\ survey (Some 2%Z) (Some 6) false shallow_one = (Ok p', z') /\
  but_selections (rich false) shallow_one /\ selectors_apart (rich false) /\ selectors_apart shallow_one /\ distinct_names (rich false) /\ same_spatial (rich false) shallow_one /\
  nth_error (w_sels (y_w (rich false))) (y_flux (rich false)) = Some (hard 20) /\ nth_error (w_sels (y_w shallow_one)) (y_flux shallow_one) = Some (hard 31) /\
  (forall a, In a (w_auxs (y_w (rich false))) -> a_sel (a_ln a) <> y_flux (rich false) /\ a_sel (a_ln a) <> y_flux shallow_one) /\
  pa_sel (p_args p) = [true; false; true; false; true; true] /\ pa_sel (p_args p') = [false; false; true; false; false; true].
Proof.
  destruct deep_survey as (p & z & H & Q). destruct shallow_survey as (p' & z' & H' & Q'). exists p, p', z, z'.
  split; [exact H|]. split; [exact H'|]. split; [apply instead_but|]. split; [apply rich_apart|]. split; [apply instead_apart|]. split; [apply rich_names|]. split; [apply instead_spatial|].
  split; [reflexivity|]. split; [reflexivity|]. split.
  { intros a I. apply rich_six in I. change (a_sel (a_ln a) <> 6 /\ a_sel (a_ln a) <> 6). lia. }
  split; [exact (f_equal (fun v => fst (fst (fst v))) Q)|exact (f_equal (fun v => fst (fst (fst v))) Q')].
Qed.
(** The same synth with every distance known. *)
Example C78_applies_distances : exists p p' z z',
  survey (Some 2%Z) (Some 6) false (rich false) = (Ok p, z) /\ survey (Some 2%Z) (Some 6) false other_distances = (Ok p', z') /\
  but_selections (rich false) other_distances /\ selectors_apart other_distances /\ same_spatial (rich false) other_distances /\ same_flux_selection (rich false) other_distances /\
  pa_known (p_args p) = [9; 7]%Z /\ pa_known (p_args p') = [9; 3; 7; 9]%Z.
Proof.
  destruct deep_survey as (p & z & H & Q). destruct distances_survey as (p' & z' & H' & Q'). exists p, p', z, z'.
  split; [exact H|]. split; [exact H'|]. split; [apply instead_but|]. split; [apply instead_apart|]. split; [apply instead_spatial|]. split; [exact same_flux_example|].
  split; [exact (f_equal snd Q)|exact (f_equal snd Q')].
Qed.

Print Assumptions C78_same_objects.
Print Assumptions C78_same_observed_fluxes.
Print Assumptions C78_observed_fluxes_without_selection_refuted.
Print Assumptions C78_deeper_detects_more.
Print Assumptions C78_distance_selection_only.
