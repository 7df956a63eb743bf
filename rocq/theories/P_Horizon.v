(** C85: what a flux-limited survey detects. *)
From Coq Require Import Reals ZArith List String Lra.
From Verif Require Import Base Env ParamModel SelModel SimVarModel DistModel AuxModel PopModel SynthModel SynthSpec LibModel LibPopModel LibPopSpec RealModel RealExamples LumLibModel LumLibSpec RunExamples FluxSpec HorizonSpec.
From Verif Require HorizonProofs HorizonExamples.
Import ListNotations.
Open Scope string_scope.

(** With a hard flux limit and no other selection, an object is detected exactly if its
    observed flux is not below the limit: for all models and flux errors. *)
Theorem C85_detected_iff_bright E prog fuel rl fs l10 ns norm (y y' : synth E) p b :
  draw_survey prog fuel rl fs l10 ns norm y = (Ok p, y') -> flux_limit E y b -> only_the_flux E y -> distinct_names y -> selectors_apart y ->
  forall i f, nth_error (sv_obs (p_flux p)) i = Some f -> (detected E p i <-> vle E b f = true).
Proof. intros H FL. exact (HorizonProofs.bright E prog fuel rl fs l10 ns norm y y' p b H FL). Qed.

Section P.
Variable m : machine.
Notation E := (real_env m).
Variable ginv : R -> R -> R.
Variable gam : R -> R.
Variables (sol rel Om h0 : R) (sky : string -> option (list R -> nat -> mc_st m -> res (spvals E) * mc_st m)) (form : string -> string) (w : world E).
Notation fo := (full_lib m ginv gam sol rel Om h0 sky form).
Notation radius c := (fun d => if cosmological (fst (documented c)) then luminosity_distance sol Om h0 d else (d + 1)%R).
Open Scope R_scope.

(** Surveys without flux errors of predefined populations with a flux limit [b].  Whatever
    else is selected on, a detected object is within the horizon of its luminosity. *)
Theorem C85_detected_within_horizon : forall c (arg : string -> R) seed lum rate (y0 y : synth E) prog fuel rl l10 ns norm p y' b,
  0 < sol -> 0 < Om < 1 -> 0 < h0 -> 0 < b ->
  build fo w c arg seed lum rate = Ok y0 -> y_sp y = y_sp y0 -> draw_survey prog fuel rl None l10 ns norm y = (Ok p, y') -> flux_limit E y (b : R) ->
  forall i l d f, object m p i l d f -> 0 < d -> detected E p i -> within_horizon (radius c) b l d.
Proof.
  intros c arg seed lum rate y0 y prog fuel rl l10 ns norm p y' b HS HO HH HB B SP H FL.
  exact (HorizonProofs.horizon m ginv gam sol rel Om h0 sky form w c arg seed rate y0 lum B _ _ _ _ _ _ y p y' b SP H FL HS HO HH HB).
Qed.
(** With no other selection those are all: every object within its horizon is detected. *)
Theorem C85_complete_within_horizon : forall c (arg : string -> R) seed lum rate (y0 y : synth E) prog fuel rl l10 ns norm p y' b,
  0 < sol -> 0 < Om < 1 -> 0 < h0 -> 0 < b ->
  build fo w c arg seed lum rate = Ok y0 -> y_sp y = y_sp y0 -> draw_survey prog fuel rl None l10 ns norm y = (Ok p, y') -> flux_limit E y (b : R) ->
  only_the_flux E y -> distinct_names y -> selectors_apart y ->
  (forall i l d f, object m p i l d f -> 0 < d -> (detected E p i <-> within_horizon (radius c) b l d)) /\ near_and_bright_first m p.
Proof.
  intros c arg seed lum rate y0 y prog fuel rl l10 ns norm p y' b HS HO HH HB B SP H FL OF DN SA. split.
  - exact (HorizonProofs.complete m ginv gam sol rel Om h0 sky form w c arg seed rate y0 lum B _ _ _ _ _ _ y p y' b SP H FL HS HO HH HB OF DN SA).
  - exact (HorizonProofs.bright_first m ginv gam sol rel Om h0 sky form w c arg seed rate y0 lum B _ _ _ _ _ _ y p y' b SP H FL HS HO HH HB OF DN SA).
Qed.

(** Contracts of [np.random.uniform] and [scipy.special.gammaincinv]. *)
Hypothesis U : forall g, 0 <= fst (mc_unif m 0 1 g) < 1.
Hypothesis G : forall s x, 0 < s -> 0 < x <= 1 -> 0 <= ginv s x.
(** If the luminosities end at [Lmax], no detected object is beyond the horizon of [Lmax]. *)
Theorem C85_farthest_detected : forall c (arg : string -> R) seed lum rate (y0 y : synth E) prog fuel rl l10 ns norm p y' b (ld : ldist E) k v,
  0 < sol -> 0 < Om < 1 -> 0 < h0 -> 0 < b ->
  build fo w c arg seed lum rate = Ok y0 -> y_sp y = y_sp y0 -> draw_survey prog fuel rl None l10 ns norm y = (Ok p, y') -> flux_limit E y (b : R) ->
  y_der y = None -> y_lum y = Some ld -> ld_cls ld = ld_cls (fst (lum_object fo k)) -> lum_parameters m ld v -> lum_sensible k v -> k = LBPL \/ k = LLogUni ->
  forall i l d f, object m p i l d f -> 0 < d -> detected E p i -> within_horizon (radius c) b (v "Lmax") d.
Proof.
  intros c arg seed lum rate y0 y prog fuel rl l10 ns norm p y' b ld k v HS HO HH HB B SP H FL DE YL KC LP SE K i l d f.
  exact (HorizonProofs.bounded m ginv gam sol rel Om h0 sky form w c arg seed rate y0 lum B _ _ _ _ _ _ y p y' b SP H FL HS HO HH HB U G ld k v DE YL KC LP SE i l d f K).
Qed.
(** Of standard candles the nearest are detected. *)
Theorem C85_standard_candles : forall c (arg : string -> R) seed lum rate (y0 y : synth E) prog fuel rl l10 ns norm p y' b (ld : ldist E) v,
  0 < sol -> 0 < Om < 1 -> 0 < h0 -> 0 < b ->
  build fo w c arg seed lum rate = Ok y0 -> y_sp y = y_sp y0 -> draw_survey prog fuel rl None l10 ns norm y = (Ok p, y') -> flux_limit E y (b : R) ->
  only_the_flux E y -> distinct_names y -> selectors_apart y ->
  y_der y = None -> y_lum y = Some ld -> ld_cls ld = ld_cls (fst (lum_object fo LDelta)) -> lum_parameters m ld v -> 0 < v "Lp" -> nearest_first m p.
Proof.
  intros c arg seed lum rate y0 y prog fuel rl l10 ns norm p y' b ld v HS HO HH HB B SP H FL OF DN SA DE YL KC LP L.
  exact (HorizonProofs.candles m ginv gam sol rel Om h0 sky form w c arg seed rate y0 lum B _ _ _ _ _ _ y p y' b SP H FL HS HO HH HB U G ld LDelta v DE YL KC LP I OF DN SA eq_refl L).
Qed.
End P.

(** Cases: each predefined population but the Milky Way's with a flux limit of 1/100, with
    its own luminosities and with standard candles. *)
Example C85_applies : forall c seed rate d, snd (documented c) = Some d -> fst (documented c) <> milky_way ->
  exists y y1 fuel p y2, build glib HorizonExamples.limited c arg1 seed None rate = Ok y /\ set_flux (Some 0%nat) y = (Ok tt, y1) /\
  y_sp y1 = y_sp y /\ selectors_apart y1 /\ distinct_names y1 /\ only_the_flux (real_env mach) y1 /\ flux_limit (real_env mach) y1 (1 / 100)%R /\
  draw_survey true fuel 10 None true (Some 6%nat) false y1 = (Ok p, y2).
Proof. exact HorizonExamples.flux_limited. Qed.
Example C85_candles : forall c seed rate d, snd (documented c) = Some d -> fst (documented c) <> milky_way ->
  exists y y1 fuel p y2, build glib HorizonExamples.limited c arg1 seed None rate = Ok y /\
  y_sp y1 = y_sp y /\ selectors_apart y1 /\ distinct_names y1 /\ only_the_flux (real_env mach) y1 /\ flux_limit (real_env mach) y1 (1 / 100)%R /\
  y_der y1 = None /\ y_lum y1 = Some HorizonExamples.candle /\ lum_parameters mach HorizonExamples.candle (fun _ => 1%R) /\
  draw_survey true fuel 10 None true (Some 6%nat) false y1 = (Ok p, y2).
Proof. exact HorizonExamples.candle_survey. Qed.
Print Assumptions C85_detected_iff_bright.
Print Assumptions C85_detected_within_horizon.
Print Assumptions C85_complete_within_horizon.
Print Assumptions C85_farthest_detected.
Print Assumptions C85_standard_candles.
