(** C65, C66, C68, C69: the predefined auxiliary samplers in a survey. *)
From Coq Require Import Reals ZArith List String Lra Lia.
From Verif Require Import Base Env ParamModel SelModel SimVarModel DistModel DistSpec AuxModel AuxSpec AuxRunSpec PopModel PopSpec SynthModel SynthSpec LibModel LibPopModel LibPopSpec
  RealModel RealSpec RealExamples AuxLibModel AuxLibSpec LumLibModel RunSpec FlatSpec FlatLibSpec RealRunSpec RunExamples FlatExamples.
From Verif Require FlatRuns FlatLib RealRuns SurveyLib.
Import ListNotations.
Open Scope R_scope.
Open Scope string_scope.

(** ** C68: populations with auxiliary quantities can be drawn *)

(** Whatever the numbers, the generator and the classes are: with independent auxiliary
    samplers and the default selections a survey of [n] objects returns once its
    distances, luminosities and auxiliary quantities can be drawn. *)
Theorem C68_population_with_quantities_can_be_drawn : forall E prog fuel rl fs l10 norm n (y : synth E) l d1 g1,
  flat y n -> (0 < rl)%nat -> y_lum y = Some l -> draws_luminosities l n ->
  wf_par E (sc_params (sd_cls (y_sp y))) (sd_par (y_sp y)) -> places (sd_cls (y_sp y)) n ->
  draw_distance prog fuel n norm (y_sp y, r_seed E (y_seed y)) = (Ok tt, (d1, g1)) ->
  exists p y', draw_survey prog fuel rl fs l10 (Some n) norm y = (Ok p, y') /\ p_nobj p = n /\ all_detected p.
Proof. exact FlatRuns.flat_returns. Qed.

(** ** C69: the predefined auxiliary samplers can be used in a survey *)

(** Every predefined population whose luminosity class is fixed, but the Milky Way one,
    together with any number of predefined samplers with valid parameters whose name is
    not an attribute of populations: a survey of any size returns. *)
Theorem C69_predefined_samplers_can_be_drawn_partial (m : machine) (tnorm : R -> R -> mc_st m -> R * mc_st m) (nunif : mc_nst m -> R * mc_nst m) (ppf : R)
    (ginv : R -> R -> R) (gam : R -> R) (sol rel Om h0 : R) (form : string -> string) sky (w : world (real_env m)) :
  (forall cls, cls <> "SpiralGalaxyDistribution" -> sky cls = None) ->
  quad_exact m -> fair m -> takes_probabilities m -> truncated m tnorm -> (0 < sol /\ 0 < Om < 1 /\ 0 < h0 /\ 0 <= rel < 1)%R ->
  forall c (arg : string -> R) seed rate prog rl fs l10 n norm (y0 y : synth (real_env m)) lum d,
  build (full_lib m ginv gam sol rel Om h0 sky form) w c arg seed lum rate = Ok y0 ->
  fst (documented c) <> milky_way -> snd (documented c) = Some d ->
  positive_density (fst (documented c)) arg -> drawable d arg ->
  y_sp y = y_sp y0 -> y_lum y = y_lum y0 -> with_predefined_samplers m tnorm nunif ppf y -> (0 < rl)%nat ->
  exists fuel p y', draw_survey prog fuel rl fs l10 (Some n) norm y = (Ok p, y') /\ p_nobj p = n /\ all_detected p.
Proof.
  intros SK Q F B T P c arg seed rate prog rl fs l10 n norm y0 y lum d H NM HD PD DR ES EL W RL.
  eapply (RealRuns.population_with_samplers m Q F B ginv gam sol rel Om h0 form sky SK P w); [exact H|exact NM|exact HD|exact PD|exact DR|exact ES|exact EL| |exact RL].
  now apply (FlatLib.predefined_flat m tnorm nunif ppf B T).
Qed.
(** The hypotheses hold: each of the twenty populations with four samplers of four
    classes, registered with [add_observed_quantity]. *)
Example C69_applies : quad_exact mach /\ fair mach /\ takes_probabilities mach /\ truncated mach tn0 /\
  forall c seed rate d, snd (documented c) = Some d -> fst (documented c) <> milky_way ->
  exists y0 y, build glib four c arg1 seed None rate = Ok y0 /\ positive_density (fst (documented c)) arg1 /\ drawable d arg1 /\
  register_all y0 = (Ok tt, y) /\ y_sp y = y_sp y0 /\ y_lum y = y_lum y0 /\ with_predefined_samplers mach tn0 nu0 (-4) y /\
  acyclic (y_w y) /\ distinct_names y /\ SynthSpec.never_drawn (y_w y) /\ (forall j, (j < 4)%nat -> part y j) /\ w_auxs (y_w y) = w_auxs four /\
  exists fuel p y', draw_survey true fuel 10 None true (Some 5%nat) false y = (Ok p, y') /\ p_nobj p = 5%nat /\ all_detected p.
Proof. split; [exact mach_exact|]. split; [exact mach_fair|]. split; [exact mach_bern|]. split; [exact tn0_between|]. exact four_drawable. Qed.

(** A survey with a sampler, registered or secondary, that has the name of an attribute
    of populations never returns. *)
Theorem C69_taken_name_refuted : forall E prog fuel rl fs l10 ns norm (y : synth E),
  acyclic (y_w y) -> distinct_names y -> SynthSpec.never_drawn (y_w y) ->
  forall j a, part y j -> at_ (y_w y) j a -> In (name_of a) taken ->
  forall p, fst (draw_survey prog fuel rl fs l10 ns norm y) <> Ok p.
Proof. exact SurveyLib.part_names. Qed.
(** These include the names which the right ascension and declination samplers always
    have. *)
Theorem C69_sky_samplers_refuted : forall m tnorm nunif ppf prog fuel rl fs l10 ns norm (y : synth (real_env m)),
  acyclic (y_w y) -> distinct_names y -> SynthSpec.never_drawn (y_w y) ->
  forall j a c nm observed sel, part y j -> at_ (y_w y) j a -> (c = RA \/ c = Dec) -> name_of a = name_of (new_aux m tnorm nunif ppf c nm observed sel) ->
  forall p, fst (draw_survey prog fuel rl fs l10 ns norm y) <> Ok p.
Proof.
  intros m tnorm nunif ppf prog fuel rl fs l10 ns norm y AC DN ND j a c nm ob sel PJ A C N. eapply SurveyLib.part_names; [exact AC|exact DN|exact ND|exact PJ|exact A|].
  rewrite N. assert (X : In "ra" taken /\ In "dec" taken) by (split; cbn; tauto). destruct C; subst c; apply X.
Qed.
Example C69_sky_case : forall c seed rate d, snd (documented c) = Some d -> fst (documented c) <> milky_way ->
  exists y0 y, build glib one_angle c arg1 seed None rate = Ok y0 /\ add_quantity (IsSampler 0) y0 = (Ok tt, y) /\
  acyclic (y_w y) /\ distinct_names y /\ SynthSpec.never_drawn (y_w y) /\ part y 0 /\ at_ (y_w y) 0 (new_aux mach tn0 nu0 (-4) RA "" false 0).
Proof. exact angle_registered. Qed.

(** ** C65, C66: values recorded in a population *)

(** C65.  The true values of a predefined sampler that end up in a population are one
    per object and in the documented range, wherever the sampler is used.  Case:
    [C69_applies], with the power law and viewing angle samplers. *)
Theorem C65_survey_values_in_range_partial : forall m tnorm nunif ppf prog fuel rl fs l10 ns norm (y : synth (real_env m)) p y',
  draw_survey prog fuel rl fs l10 ns norm y = (Ok p, y') ->
  acyclic (y_w y) -> distinct_names y -> SynthSpec.never_drawn (y_w y) -> unit_uniform m nunif ->
  forall c, c <> Dec -> forall j a q, part y j -> at_ (y_w y) j a -> kind_of a = aux_kind m tnorm nunif ppf c -> has_parameters m a q -> sensible c q ->
  exists x, dget (p_aux p) (name_of a) = Some x /\ length (sv_lat x) = p_nobj p /\ Forall (documented_range c q) (sv_lat x).
Proof.
  intros m tnorm nunif ppf prog fuel rl fs l10 ns norm y p y' H AC DN ND U c N j a q PJ A K HP SE.
  eapply (SurveyLib.survey_range m tnorm nunif ppf prog fuel rl fs l10 ns norm y p y' H AC DN ND U c N j a q PJ A K HP SE).
Qed.
(** C66.  The observed values in a population are the true ones plus [sigma] times one
    standard normal number each; of a sampler that is not observed, the true ones. *)
Theorem C66_survey_observed_values_partial : forall m tnorm nunif ppf prog fuel rl fs l10 ns norm (y : synth (real_env m)) p y',
  draw_survey prog fuel rl fs l10 ns norm y = (Ok p, y') ->
  acyclic (y_w y) -> distinct_names y -> SynthSpec.never_drawn (y_w y) ->
  forall c, angle_name c = None -> forall j a, part y j -> at_ (y_w y) j a -> kind_of a = aux_kind m tnorm nunif ppf c ->
  exists x, dget (p_aux p) (name_of a) = Some x /\ length (sv_lat x) = p_nobj p /\
    if a_observed (a_st a) then exists s, reads_as a "sigma" s /\ 0 <= s /\ measured_from m (sv_lat x) (sv_obs x) s /\ (s = 0 -> sv_obs x = sv_lat x)
    else sv_obs x = sv_lat x.
Proof.
  intros m tnorm nunif ppf prog fuel rl fs l10 ns norm y p y' H AC DN ND c N j a PJ A K.
  exact (SurveyLib.survey_observed m tnorm nunif ppf prog fuel rl fs l10 ns norm y p y' H AC DN ND c N j a PJ A K).
Qed.
(** What the first two samplers of [four] are. *)
Example C65_C66_survey_case : unit_uniform mach nu0 /\
  (exists a, nth_error (w_auxs four) 0 = Some a /\ name_of a = "x" /\ kind_of a = aux_kind mach tn0 nu0 (-4) Normal /\ a_observed (a_st a) = true /\ reads_as a "sigma" 1) /\
  (exists a, nth_error (w_auxs four) 1 = Some a /\ name_of a = "size" /\ kind_of a = aux_kind mach tn0 nu0 (-4) PowerLaw /\ sensible PowerLaw reading4 /\
     reads_as a "xmin" 1 /\ reads_as a "xmax" 2).
Proof.
  split; [exact unit0|]. split; eexists; (split; [reflexivity|]); (split; [reflexivity|]); (split; [reflexivity|]); split; try reflexivity.
  - unfold sensible, reading4. cbn. lra.
  - split; reflexivity.
Qed.

Print Assumptions C68_population_with_quantities_can_be_drawn.
Print Assumptions C69_predefined_samplers_can_be_drawn_partial.
Print Assumptions C69_taken_name_refuted.
Print Assumptions C69_sky_samplers_refuted.
Print Assumptions C65_survey_values_in_range_partial.
Print Assumptions C66_survey_observed_values_partial.
