(** C76: soft selections, over the reals. *)
From Coq Require Import Reals List String Lra.
From Verif Require Import Base Env ParamModel SelModel SelSpec SimVarModel DistModel AuxModel PopModel SynthModel SynthSpec LibPopModel LibPopSpec LibModel RealModel RealSpec RealExamples RunExamples
  RealRunSpec ChosenSpec SoftSpec.
From Verif Require SoftProofs ChosenExamples.
Open Scope R_scope.
Open Scope string_scope.

(** A soft selection makes one Bernoulli draw per object, with the object's
    [detection_probability]. *)
Theorem C76_soft_selector m (s : selector (real_env m)) prog n g fl k b :
  takes_probabilities m -> s_kind s = KSoft (real_env m) -> selects_on s (Some fl) -> par_is s "strength" k -> par_is s "boundary" b ->
  0 < b -> Forall (fun f => 0 < f) fl ->
  exists ps mk g', draws prog n s g mk g' /\ Forall2 (detection_probability k b) fl ps /\ bernoulli_draws m ps g mk g'.
Proof. exact (SoftProofs.soft_selector m s prog n g fl k b). Qed.

(** In a survey these are the probabilities of the observed fluxes, and with no other
    selections the objects selected are those drawn. *)
Theorem C76_soft_survey m prog fuel rl fs l10 ns norm (y : synth (real_env m)) p y' s k b :
  draw_survey prog fuel rl fs l10 ns norm y = (Ok p, y') ->
  takes_probabilities m -> selectors_apart y -> nth_error (w_sels (y_w y)) (y_flux y) = Some s -> s_sampled s = false ->
  s_kind s = KSoft (real_env m) -> s_fflux s = true -> par_is s "strength" k -> par_is s "boundary" b -> 0 < b ->
  (fs = None -> Forall (fun f => 0 < f) (sv_lat (p_flux p))) ->
  exists ps mk g g', Forall2 (detection_probability k b) (sv_obs (p_flux p)) ps /\ bernoulli_draws m ps g mk g' /\ mask_at (y_w y') (y_flux y) mk /\
    (y_ssel y = None -> y_aux y = nil -> y_der y = None ->
     forall i, (i < p_nobj p)%nat -> (nth_error (pa_sel (p_args p)) i = Some true <-> nth_error mk i = Some true)).
Proof. exact (SoftProofs.soft_survey m prog fuel rl fs l10 ns norm y p y' s k b). Qed.

(** There is one such probability; at the boundary it is one half. *)
Theorem C76_one_probability k b f p q : detection_probability k b f p -> detection_probability k b f q -> p = q.
Proof. exact (SoftProofs.probability_unique k b f p q). Qed.
Theorem C76_half_at_the_boundary k b p : 0 < b -> detection_probability k b b p -> p = 1 / 2.
Proof. exact (SoftProofs.probability_half k b p). Qed.
(** Brighter objects are more probable, and surer the larger the strength. *)
Theorem C76_brighter_more_probable k b f f' p p' :
  0 < k -> 0 < b -> 0 < f -> f < f' -> detection_probability k b f p -> detection_probability k b f' p' -> p < p'.
Proof. exact (SoftProofs.probability_brighter k b f f' p p'). Qed.
Theorem C76_stronger_sharper k k' b f p p' :
  k < k' -> 0 < b < f -> detection_probability k b f p -> detection_probability k' b f p' -> p < p'.
Proof. exact (SoftProofs.probability_sharper k k' b f p p'). Qed.
(** Far above the boundary they are almost certain. *)
Theorem C76_almost_certain_far_above k b e : 0 < k -> 0 < b -> 0 < e < 1 ->
  exists f0, 0 < f0 /\ forall f p, f0 < f -> detection_probability k b f p -> 1 - e < p.
Proof. exact (SoftProofs.probability_certain k b e). Qed.

(** All of this applies to the twenty predefined populations, drawn with flux errors. *)
Example C76_applies c seed rate d : snd (documented c) = Some d -> fst (documented c) <> milky_way ->
  exists y y1 fuel p y2 ps mk g g', build glib ChosenExamples.chosen c arg1 seed None rate = Ok y /\ ChosenExamples.choose y = (Ok tt, y1) /\
  draw_survey true fuel 10 (Some (1 / 10) : option (V (real_env mach))) true (Some 6%nat) false y1 = (Ok p, y2) /\
  Forall2 (detection_probability 2 (1 / 100)) (sv_obs (p_flux p)) ps /\ bernoulli_draws mach ps g mk g' /\ mask_at (y_w y2) (y_flux y1) mk.
Proof.
  intros HD NM. destruct (ChosenExamples.selected_surveys c seed rate d HD NM) as (y & y1 & fuel & p & y2 & B & CH & SE & SA & _ & _ & N & H).
  destruct (SoftProofs.soft_survey _ _ _ _ _ _ _ _ _ _ _ _ 2 (1 / 100) H mach_bern SA N) as (ps & mk & g & g' & A1 & A2 & A3 & _);
    [reflexivity|reflexivity|reflexivity|eexists; split; reflexivity|eexists; split; reflexivity|lra|discriminate|].
  exists y, y1, fuel, p, y2, ps, mk, g, g'. repeat (split; [assumption|]). exact A3.
Qed.
Example C76_a_probability : exists p, detection_probability 3 (1 / 100) (1 / 10) p.
Proof. eexists. apply SoftProofs.soft_probability; lra. Qed.

Print Assumptions C76_soft_selector.
Print Assumptions C76_soft_survey.
Print Assumptions C76_one_probability.
Print Assumptions C76_half_at_the_boundary.
Print Assumptions C76_brighter_more_probable.
Print Assumptions C76_stronger_sharper.
Print Assumptions C76_almost_certain_far_above.
