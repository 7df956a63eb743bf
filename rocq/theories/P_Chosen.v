(** C77: a survey with selections returns. *)
From Coq Require Import Reals List String.
From Verif Require Import Base Env ParamModel SelModel SelSpec SimVarModel DistModel DistSpec AuxModel AuxSpec PopModel SynthModel SynthSpec LibPopModel LibPopSpec LibModel RealModel LumLibModel RealSpec RealExamples
  RunSpec FlatSpec RealRunSpec RunExamples SkyModel SkySpec ChosenSpec SoftSpec.
From Verif Require ChosenRuns SoftProofs ChosenExamples GalaxyChosen SkyExamples.
Open Scope string_scope.
Open Scope nat_scope.

(** With flux errors that are possible, a flux selection and perhaps a spatial selection
    that decide about any objects, a survey whose distances can be drawn returns a
    population, of the number of objects asked for. *)
Theorem C77_survey_with_selections_returns E prog fuel rl fs l10 norm n (y : synth E) l d1 g1 :
  selective y n -> errors_possible E fs -> 0 < rl -> y_lum y = Some l -> draws_luminosities l n ->
  wf_par E (sc_params (sd_cls (y_sp y))) (sd_par (y_sp y)) -> places (sd_cls (y_sp y)) n ->
  draw_distance prog fuel n norm (y_sp y, r_seed E (y_seed y)) = (Ok tt, (d1, g1)) ->
  exists p y', draw_survey prog fuel rl fs l10 (Some n) norm y = (Ok p, y') /\ p_nobj p = n /\ length (pa_known (p_args p)) = p_ndet p.
Proof. exact (ChosenRuns.selective_returns E prog fuel rl fs l10 norm n y l d1 g1). Qed.

(** Over the reals, the selections of the library decide once their parameters are set. *)
Theorem C77_ready_flux_selections_decide m (s : selector (real_env m)) n : takes_probabilities m -> flux_ready m s -> decides s n.
Proof. exact (SoftProofs.ready_decides m s n). Qed.
Theorem C77_ready_spatial_selections_decide m (s : selector (real_env m)) n : place_ready m s -> decides_places s n.
Proof. exact (SoftProofs.ready_places m s n). Qed.

(** So every predefined population can be drawn with them, and with flux errors. *)
Theorem C77_predefined_populations_with_selections m ginv gam sol rel Om h0 form sky (w : world (real_env m)) :
  (forall cls, cls <> "SpiralGalaxyDistribution" -> sky cls = None) -> quad_exact m -> fair m -> takes_probabilities m ->
  (0 < sol /\ 0 < Om < 1 /\ 0 < h0 /\ 0 <= rel < 1)%R ->
  forall c (arg : string -> R) seed rate prog rl (fs : option (V (real_env m))) l10 n norm (y0 y : synth (real_env m)) lum d,
  build (full_lib m ginv gam sol rel Om h0 sky form) w c arg seed lum rate = Ok y0 -> fst (documented c) <> milky_way -> snd (documented c) = Some d ->
  positive_density (fst (documented c)) arg -> drawable d arg ->
  y_sp y = y_sp y0 -> y_lum y = y_lum y0 -> selective y n -> (forall sg : R, fs = Some sg -> (0 <= sg)%R) -> 0 < rl ->
  exists fuel p y', draw_survey prog fuel rl fs l10 (Some n) norm y = (Ok p, y') /\ p_nobj p = n /\ length (pa_known (p_args p)) = p_ndet p.
Proof. exact (SoftProofs.population_with_selections m ginv gam sol rel Om h0 form sky w). Qed.

(** The twenty populations with a soft flux selection, a distance selection and flux errors. *)
Example C77_applies c seed rate d : snd (documented c) = Some d -> fst (documented c) <> milky_way ->
  exists y y1 fuel p y2, build glib ChosenExamples.chosen c arg1 seed None rate = Ok y /\ ChosenExamples.choose y = (Ok tt, y1) /\ selective y1 6 /\
  draw_survey true fuel 10 (Some (1 / 10)%R : option (V (real_env mach))) true (Some 6) false y1 = (Ok p, y2).
Proof.
  intros HD NM. destruct (ChosenExamples.selected_surveys c seed rate d HD NM) as (y & y1 & fuel & p & y2 & B & CH & SE & _ & _ & _ & _ & H).
  exists y, y1, fuel, p, y2. repeat (split; [assumption|]). exact H.
Qed.
Example C77_ready : flux_ready mach ChosenExamples.soft /\ place_ready mach ChosenExamples.shell.
Proof. exact (conj ChosenExamples.soft_ready ChosenExamples.shell_ready). Qed.

(** And the Milky Way population, with a luminosity distribution that can be drawn. *)
Theorem C77_milky_way_with_selections m gs ginv gam sol rel Om h0 form (w : world (real_env m)) :
  quad_exact m -> fair m -> (forall g, fst (gs_arm m gs g) < 4) ->
  forall (arg : string -> R) seed rate prog rl (fs : option (V (real_env m))) l10 n norm (y0 y : synth (real_env m)) l, galaxy_density arg ->
  build (full_lib m ginv gam sol rel Om h0 (library_sky m gs) form) w P_MWRadialPopulation arg seed (Some l) rate = Ok y0 -> (forall n, draws_luminosities (fst l) n) ->
  y_sp y = y_sp y0 -> y_lum y = y_lum y0 -> selective y n -> (forall sg : R, fs = Some sg -> (0 <= sg)%R) -> 0 < rl ->
  exists fuel p y', draw_survey prog fuel rl fs l10 (Some n) norm y = (Ok p, y') /\ p_nobj p = n /\ length (pa_known (p_args p)) = p_ndet p.
Proof. exact (GalaxyChosen.galaxy_with_selections m gs ginv gam sol rel Om h0 form w). Qed.
Example C77_milky_way_applies seed rate : exists y y1 fuel p y2, build SkyExamples.slib ChosenExamples.chosen P_MWRadialPopulation SkyExamples.wide seed (Some SkyExamples.bright) rate = Ok y /\
  ChosenExamples.choose y = (Ok tt, y1) /\ selective y1 6 /\ draw_survey true fuel 10 (Some (1 / 10)%R : option (V (real_env mach))) true (Some 6) false y1 = (Ok p, y2).
Proof. exact (GalaxyChosen.wide_chosen seed rate). Qed.

Print Assumptions C77_survey_with_selections_returns.
Print Assumptions C77_ready_flux_selections_decide.
Print Assumptions C77_ready_spatial_selections_decide.
Print Assumptions C77_predefined_populations_with_selections.
Print Assumptions C77_milky_way_with_selections.
