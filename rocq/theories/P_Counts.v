(** C86: source counts of standard candles in a sphere. *)
From Coq Require Import Reals ZArith List String Lra.
From Verif Require Import Base Env ParamModel SelModel SimVarModel DistModel SizeSpec AuxModel PopModel SynthModel SynthSpec LibModel LibPopModel LibPopSpec RealModel RealExamples LumLibModel LumLibSpec RunExamples FluxSpec LawSpec CountsSpec.
From Verif Require CountsProofs HorizonExamples.
Open Scope R_scope.
Open Scope string_scope.

(** Distances that fill a sphere evenly and fluxes that fall with the square of the
    distance: the number of sources above a flux falls with its power -3/2. *)
Theorem C86_inverse_square_counts : forall L l F H rm hi, 0 < L -> 0 < l -> 0 < rm -> follows (fun r => L * (4 * PI * r ^ 2)) F H rm ->
  exists N, euclidean N /\ source_counts (inverse_square l) F H rm (inverse_square l rm) hi N.
Proof. intros L l F H rm hi PL Pl PR FO. exact (CountsProofs.euclidean_counts L l F H rm PL Pl PR FO hi). Qed.

Section P.
Variable m : machine.
Notation E := (real_env m).
Variable ginv : R -> R -> R.
Variable gam : R -> R.
Variables (sol rel Om h0 : R) (form : string -> string) (w : world E).
Notation fo := (full_lib m ginv gam sol rel Om h0 (fun _ => None) form).
(** Contracts of [scipy.integrate.quad], [np.random.uniform] and [scipy.special.gammaincinv]. *)
Hypothesis Q : quad_exact m.
Hypothesis U : forall g, 0 <= fst (mc_unif m 0 1 g) < 1.
Hypothesis G : forall s x, 0 < s -> 0 < x <= 1 -> 0 <= ginv s x.

(** A survey of a predefined spherical population of standard candles, whatever is selected
    on: each object has the library's flux for its distance, and of what is drawn the part
    brighter than [S] is [((sqrt (l / (4 PI S)) - 1) / r_max)^3].  The other conditions are
    those of C70: draws that are normalised show their progress. *)
Theorem C86_source_counts : forall c (arg : string -> R) seed lum rate (y0 y : synth E) prog fuel rl fs l10 ns norm p y' (ld : ldist E) v,
  build fo w c arg seed lum rate = Ok y0 -> fst (documented c) = sphere -> 0 < arg "Lambda" -> 0 < arg "r_max" ->
  y_sp y = y_sp y0 -> draw_survey prog fuel rl fs l10 ns norm y = (Ok p, y') ->
  (norm = true -> prog = true) -> (norm = true -> ns = None -> norm_value E (sd_par (y_sp y))) ->
  y_der y = None -> y_lum y = Some ld -> ld_cls ld = ld_cls (fst (lum_object fo LDelta)) -> lum_parameters m ld v -> 0 < v "Lp" ->
  let l := v "Lp" in let rm := arg "r_max" in
  (forall i l' d f, object m p i l' d f -> f = library_flux l d) /\
  exists F h s s', sized_by ns norm (y_sp y) (mc_seed m (y_seed y)) (p_nobj p) s /\ each_below m F h rm s (sv_lat (p_dist p)) s' /\
    source_counts (library_flux l) F h rm (library_flux l rm) (library_flux l 0) (fun S => ((sqrt (l / (4 * PI * S)) - 1) / rm) ^ 3).
Proof.
  intros c arg seed lum rate y0 y prog fuel rl fs l10 ns norm p y' ld v B C HL HR SP H NP NV DE YL KC LP PL l rm. split.
  - exact (CountsProofs.candle_flux m U ginv G gam sol rel Om h0 form w c arg seed rate y0 lum B C prog fuel rl fs l10 ns norm y p y' SP H ld v DE YL KC LP).
  - destruct (CountsProofs.candles_counted m Q ginv gam sol rel Om h0 form w c arg seed rate y0 lum B C HL HR prog fuel rl fs l10 ns norm y p y' SP H NP NV) as (F & h & s & s' & A & _ & D & FO).
    exists F, h, s, s'. split; [exact A|]. split; [exact D|]. exact (CountsProofs.library_counts (arg "Lambda") l F h rm HL PL HR FO).
Qed.
(** So the counts are not Euclidean, although the density is. *)
Theorem C86_euclidean_counts_refuted : forall c (arg : string -> R) seed lum rate (y0 y : synth E) prog fuel rl fs l10 ns norm p y' (ld : ldist E) v,
  build fo w c arg seed lum rate = Ok y0 -> fst (documented c) = sphere -> 0 < arg "Lambda" -> 0 < arg "r_max" ->
  y_sp y = y_sp y0 -> draw_survey prog fuel rl fs l10 ns norm y = (Ok p, y') ->
  (norm = true -> prog = true) -> (norm = true -> ns = None -> norm_value E (sd_par (y_sp y))) ->
  y_der y = None -> y_lum y = Some ld -> ld_cls ld = ld_cls (fst (lum_object fo LDelta)) -> lum_parameters m ld v -> 0 < v "Lp" ->
  let l := v "Lp" in let rm := arg "r_max" in
  (forall i l' d f, object m p i l' d f -> f = library_flux l d) /\
  exists F h s s', sized_by ns norm (y_sp y) (mc_seed m (y_seed y)) (p_nobj p) s /\ each_below m F h rm s (sv_lat (p_dist p)) s' /\
    follows (fun r => arg "Lambda" * (4 * PI * r ^ 2)) F h rm /\
    forall N, euclidean N -> ~ source_counts (library_flux l) F h rm (library_flux l rm) (library_flux l 0) N.
Proof.
  intros c arg seed lum rate y0 y prog fuel rl fs l10 ns norm p y' ld v B C HL HR SP H NP NV DE YL KC LP PL l rm. split.
  - exact (CountsProofs.candle_flux m U ginv G gam sol rel Om h0 form w c arg seed rate y0 lum B C prog fuel rl fs l10 ns norm y p y' SP H ld v DE YL KC LP).
  - destruct (CountsProofs.candles_counted m Q ginv gam sol rel Om h0 form w c arg seed rate y0 lum B C HL HR prog fuel rl fs l10 ns norm y p y' SP H NP NV) as (F & h & s & s' & A & _ & D & FO).
    exists F, h, s, s'. split; [exact A|]. split; [exact D|]. split; [exact FO|]. exact (CountsProofs.not_euclidean (arg "Lambda") l F h rm HL PL HR FO).
Qed.
End P.

(** Cases: surveys of six standard candles of luminosity 1 in each predefined spherical
    population, and the even filling of a sphere. *)
Example C86_applies : quad_exact mach /\ forall c seed rate d, snd (documented c) = Some d -> fst (documented c) = sphere ->
  exists y y1 fuel p y2, build glib HorizonExamples.limited c arg1 seed None rate = Ok y /\ 0 < arg1 "Lambda" /\ 0 < arg1 "r_max" /\
  y_sp y1 = y_sp y /\ y_der y1 = None /\ y_lum y1 = Some HorizonExamples.candle /\ lum_parameters mach HorizonExamples.candle (fun _ => 1) /\
  draw_survey true fuel 10 None true (Some 6%nat) false y1 = (Ok p, y2).
Proof.
  split; [exact mach_exact|]. intros c seed rate d D S.
  destruct (HorizonExamples.candle_survey c seed rate d D) as (y & y1 & fuel & p & y2 & B & SP & _ & _ & _ & _ & DE & YL & LP & H); [rewrite S; discriminate|].
  exists y, y1, fuel, p, y2. split; [exact B|]. assert (X := arg1_pos "Lambda"). assert (X2 := arg1_pos "r_max"). split; [lra|]. split; [lra|]. auto.
Qed.
Print Assumptions C86_inverse_square_counts.
Print Assumptions C86_source_counts.
Print Assumptions C86_euclidean_counts_refuted.
