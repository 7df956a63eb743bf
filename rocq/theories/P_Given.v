(** C68, C69, C77: the remaining predefined populations, which take a luminosity distribution
    from the user. *)
From Coq Require Import Reals ZArith List String Lra Lia.
From Verif Require Import Base Env ParamModel SelModel SimVarModel DistModel DistSpec AuxModel AuxSpec PopModel SynthModel SynthSpec LibModel LibPopModel LibPopSpec
  RealModel RealSpec RealExamples AuxLibModel AuxLibSpec LumLibModel RunSpec FlatSpec FlatLibSpec RealRunSpec RunExamples FlatExamples SkyModel SkySpec SkyExamples ChosenSpec ChosenExamples.
From Verif Require GivenLum GalaxySamplers FlatLib.
Import ListNotations.
Open Scope R_scope.
Open Scope string_scope.

Section Lib.
Variable m : machine.
Variables (ginv : R -> R -> R) (gam : R -> R) (sol rel Om h0 : R) (form : string -> string).
Variable sky : string -> option (list R -> nat -> mc_st m -> res (spvals (real_env m)) * mc_st m).
Variable w : world (real_env m).
Notation fo := (full_lib m ginv gam sol rel Om h0 sky form).

(** [SphericalPopulation], [ZPowerSphericalPopulation], [ZPowerCosmoPopulation] and
    [SFRPopulation] with any luminosity distribution that can be drawn: a survey of any size
    returns, without samplers and selections, *)
Theorem C68_given_luminosity_can_be_drawn : (forall cls, cls <> "SpiralGalaxyDistribution" -> sky cls = None) -> quad_exact m -> fair m -> 0 < sol /\ 0 < Om < 1 /\ 0 < h0 /\ 0 <= rel < 1 ->
  forall c (arg : string -> R) seed rate prog rl fs l10 n norm y l, build fo w c arg seed (Some l) rate = Ok y ->
  fst (documented c) <> milky_way -> snd (documented c) = None -> positive_density (fst (documented c)) arg -> (forall k, draws_luminosities (fst l) k) ->
  exists fuel p y', draw_survey prog fuel rl fs l10 (Some n) norm y = (Ok p, y') /\ p_nobj p = n /\ all_detected p.
Proof.
  intros SK Q F P c arg seed rate prog rl fs l10 n norm y l B NM HD PD GL.
  exact (GivenLum.given_drawn m Q F ginv gam sol rel Om h0 form sky SK P w c arg seed rate y l B NM HD PD GL prog rl fs l10 n norm).
Qed.
(** with any number of predefined samplers, *)
Theorem C69_given_luminosity_samplers_can_be_drawn (tnorm : R -> R -> mc_st m -> R * mc_st m) (nunif : mc_nst m -> R * mc_nst m) (ppf : R) :
  (forall cls, cls <> "SpiralGalaxyDistribution" -> sky cls = None) -> quad_exact m -> fair m -> takes_probabilities m -> truncated m tnorm -> 0 < sol /\ 0 < Om < 1 /\ 0 < h0 /\ 0 <= rel < 1 ->
  forall c (arg : string -> R) seed rate prog rl fs l10 n norm y0 y l, build fo w c arg seed (Some l) rate = Ok y0 ->
  fst (documented c) <> milky_way -> snd (documented c) = None -> positive_density (fst (documented c)) arg -> (forall k, draws_luminosities (fst l) k) ->
  y_sp y = y_sp y0 -> y_lum y = y_lum y0 -> with_predefined_samplers m tnorm nunif ppf y -> (0 < rl)%nat ->
  exists fuel p y', draw_survey prog fuel rl fs l10 (Some n) norm y = (Ok p, y') /\ p_nobj p = n /\ all_detected p.
Proof.
  intros SK Q F B T P c arg seed rate prog rl fs l10 n norm y0 y l H NM HD PD GL ES EL W RL.
  refine (GivenLum.given_with_samplers m Q F ginv gam sol rel Om h0 form sky SK P w c arg seed rate y0 l H NM HD PD GL y ES EL prog rl fs l10 n norm _ RL).
  now apply (FlatLib.predefined_flat m tnorm nunif ppf B T).
Qed.
(** and with selections on fluxes and places. *)
Theorem C77_given_luminosity_with_selections : (forall cls, cls <> "SpiralGalaxyDistribution" -> sky cls = None) -> quad_exact m -> fair m -> 0 < sol /\ 0 < Om < 1 /\ 0 < h0 /\ 0 <= rel < 1 ->
  forall c (arg : string -> R) seed rate prog rl (fs : option (V (real_env m))) l10 n norm y0 y l, build fo w c arg seed (Some l) rate = Ok y0 ->
  fst (documented c) <> milky_way -> snd (documented c) = None -> positive_density (fst (documented c)) arg -> (forall k, draws_luminosities (fst l) k) ->
  y_sp y = y_sp y0 -> y_lum y = y_lum y0 -> selective y n -> (forall sg : R, fs = Some sg -> 0 <= sg) -> (0 < rl)%nat ->
  exists fuel p y', draw_survey prog fuel rl fs l10 (Some n) norm y = (Ok p, y') /\ p_nobj p = n /\ length (pa_known (p_args p)) = p_ndet p.
Proof.
  intros SK Q F P c arg seed rate prog rl fs l10 n norm y0 y l H NM HD PD GL ES EL SE SG RL.
  exact (GivenLum.given_with_selections m Q F ginv gam sol rel Om h0 form sky SK P w c arg seed rate y0 l H NM HD PD GL y ES EL prog rl fs l10 n norm SE SG RL).
Qed.
End Lib.

(** The Milky Way with any number of predefined samplers. *)
Theorem C69_milky_way_samplers_can_be_drawn (m : machine) (tnorm : R -> R -> mc_st m -> R * mc_st m) (nunif : mc_nst m -> R * mc_nst m) (ppf : R) gs ginv gam sol rel Om h0 form (w : world (real_env m)) :
  quad_exact m -> fair m -> takes_probabilities m -> truncated m tnorm -> (forall g, (fst (gs_arm m gs g) < 4)%nat) ->
  forall (arg : string -> R) seed rate prog rl (fs : option (V (real_env m))) l10 n norm y0 y l, galaxy_density arg ->
  build (full_lib m ginv gam sol rel Om h0 (library_sky m gs) form) w P_MWRadialPopulation arg seed (Some l) rate = Ok y0 -> (forall k, draws_luminosities (fst l) k) ->
  y_sp y = y_sp y0 -> y_lum y = y_lum y0 -> with_predefined_samplers m tnorm nunif ppf y -> (0 < rl)%nat ->
  exists fuel p y', draw_survey prog fuel rl fs l10 (Some n) norm y = (Ok p, y') /\ p_nobj p = n /\ all_detected p.
Proof.
  intros Q F B T AR arg seed rate prog rl fs l10 n norm y0 y l G H GL ES EL W RL.
  refine (GalaxySamplers.galaxy_with_samplers m gs ginv gam sol rel Om h0 form w Q F AR arg seed rate prog rl fs l10 n norm y0 y l G H GL ES EL _ RL).
  now apply (FlatLib.predefined_flat m tnorm nunif ppf B T).
Qed.

(** A machine, a luminosity distribution, samplers and selections that meet the hypotheses. *)
Example C68_given_applies : quad_exact mach /\ fair mach /\ takes_probabilities mach /\ truncated mach tn0 /\ (forall n, draws_luminosities (fst bright) n) /\
  forall c seed rate, snd (documented c) = None -> fst (documented c) <> milky_way -> positive_density (fst (documented c)) arg1 /\
  (exists y, build slib nothing c arg1 seed (Some bright) rate = Ok y) /\
  (exists y0 y, build slib four c arg1 seed (Some bright) rate = Ok y0 /\ register_all y0 = (Ok tt, y) /\ y_sp y = y_sp y0 /\ y_lum y = y_lum y0 /\ with_predefined_samplers mach tn0 nu0 (-4) y /\
     forall j, (j < 4)%nat -> part y j) /\
  (exists y y1, build slib chosen c arg1 seed (Some bright) rate = Ok y /\ choose y = (Ok tt, y1) /\ y_sp y1 = y_sp y /\ y_lum y1 = y_lum y /\ selective y1 6).
Proof.
  split; [exact mach_exact|]. split; [exact mach_fair|]. split; [exact mach_bern|]. split; [exact tn0_between|]. split; [exact bright_drawn|].
  intros c seed rate HD NM. split; [apply GivenLum.arg1_positive|]. split; [apply GivenLum.given_built|]. split; [now apply GivenLum.given_four|now apply GivenLum.given_chosen].
Qed.
Example C69_milky_way_applies : galaxy_density wide /\ forall seed rate, exists y0 y, build slib four P_MWRadialPopulation wide seed (Some bright) rate = Ok y0 /\ register_all y0 = (Ok tt, y) /\
  y_sp y = y_sp y0 /\ y_lum y = y_lum y0 /\ with_predefined_samplers mach tn0 nu0 (-4) y /\ (forall j, (j < 4)%nat -> part y j).
Proof. split; [exact wide_dense|exact GalaxySamplers.wide_four]. Qed.

Print Assumptions C68_given_luminosity_can_be_drawn.
Print Assumptions C69_given_luminosity_samplers_can_be_drawn.
Print Assumptions C77_given_luminosity_with_selections.
Print Assumptions C69_milky_way_samplers_can_be_drawn.
