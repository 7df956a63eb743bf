(** C68: populations that can be drawn. *)
From Coq Require Import Reals ZArith List String Lra.
From Verif Require Import Base Env ParamModel SelModel SimVarModel DistModel DistSpec AuxModel PopModel SynthModel LibPopModel LibPopSpec RealModel RealSpec RealExamples LumLibModel RunSpec RealRunSpec RunExamples.
From Verif Require SurveyRuns RealRuns.
Import ListNotations.
Open Scope string_scope.

(** Whatever the numbers, the generator and the classes are: without auxiliary
    quantities and with the default selections a survey of [n] objects returns once
    its distances and luminosities can be drawn.  Case: [C68_applies]. *)
Theorem C68_plain_population_can_be_drawn : forall E prog fuel rl fs l10 norm n (y : synth E) l d1 g1,
  plain y -> y_lum y = Some l -> draws_luminosities l n ->
  wf_par E (sc_params (sd_cls (y_sp y))) (sd_par (y_sp y)) -> places (sd_cls (y_sp y)) n ->
  draw_distance prog fuel n norm (y_sp y, r_seed E (y_seed y)) = (Ok tt, (d1, g1)) ->
  exists p y', draw_survey prog fuel rl fs l10 (Some n) norm y = (Ok p, y') /\ p_nobj p = n /\ all_detected p.
Proof. exact SurveyRuns.plain_returns. Qed.

(** Every predefined population with positive density, but the Milky Way one, whose
    luminosity class is fixed: a survey of any size returns. *)
Theorem C68_predefined_population_can_be_drawn (m : machine) (ginv : R -> R -> R) (gam : R -> R) (sol rel Om h0 : R) (form : string -> string) sky (w : world (real_env m)) :
  (forall cls, cls <> "SpiralGalaxyDistribution" -> sky cls = None) -> quad_exact m -> fair m -> takes_probabilities m -> (0 < sol /\ 0 < Om < 1 /\ 0 < h0 /\ 0 <= rel < 1)%R ->
  forall c (arg : string -> R) seed rate prog rl fs l10 n norm (y : synth (real_env m)) lum d,
  build (full_lib m ginv gam sol rel Om h0 sky form) w c arg seed lum rate = Ok y ->
  fst (documented c) <> milky_way -> snd (documented c) = Some d ->
  positive_density (fst (documented c)) arg -> drawable d arg ->
  exists fuel p y', draw_survey prog fuel rl fs l10 (Some n) norm y = (Ok p, y') /\ p_nobj p = n /\ all_detected p.
Proof. exact (fun S Q F B P => RealRuns.population_can_be_drawn m Q F B ginv gam sol rel Om h0 form sky S P w). Qed.
(** The hypotheses on the machine hold of one, and then each of the twenty classes
    can be drawn. *)
Example C68_applies : quad_exact mach /\ fair mach /\ takes_probabilities mach /\
  forall c seed rate d, snd (documented c) = Some d -> fst (documented c) <> milky_way ->
  exists y, build glib nothing c arg1 seed None rate = Ok y /\ positive_density (fst (documented c)) arg1 /\ drawable d arg1 /\
  exists fuel p y', draw_survey true fuel 10 None true (Some 5%nat) false y = (Ok p, y') /\ p_nobj p = 5%nat /\ all_detected p.
Proof. split; [exact mach_exact|]. split; [exact mach_fair|]. split; [exact mach_bern|]. exact all_drawable. Qed.

Print Assumptions C68_plain_population_can_be_drawn.
Print Assumptions C68_predefined_population_can_be_drawn.
