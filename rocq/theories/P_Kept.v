(** C79: surveys can be kept in files. *)
From Verif Require Import Base BaseFacts Env ParamModel SelModel SimVarModel DistModel AuxModel AuxSpec Tree PopModel SynthModel SynthSpec HdfModel HdfSpec LibPopModel KeptSpec Toy SynthExamples LibPopExamples KeptExamples.
From Verif Require HdfPop PopProofs KeptProofs KeptTop KeptLib ShareExamples.
Open Scope string_scope.

(** Whatever survey a keepable synth returns is written without an error, and what is
    read back has the same content, but for the documented losses of C42. *)
Theorem C79_survey_survives_the_file : forall E (utf8 : string -> bool) prog fuel rl fs l10 ns norm (y : synth E) p y',
  keepable y -> draw_survey prog fuel rl fs l10 ns norm y = (Ok p, y') ->
  exists file p', writeto p = (Ok tt, file) /\ load_pop utf8 file = Ok p' /\
    same_content utf8 (p_args p) (p_args p') /\ with_losses (p_args p) (p_args p') (y_name y).
Proof.
  intros E utf8 prog fuel rl fs l10 ns norm y p y' K H. destruct (KeptTop.survey_writable _ _ _ _ _ _ _ _ _ _ _ K H) as (_ & a & aux & conf & PN & _ & W & _).
  rewrite (proj1 (PopProofs.new_faithful _ _ _ PN)). exact (HdfPop.pop_round_trip E utf8 a p _ aux _ conf PN W).
Qed.
(** A synth stays keepable when it is used, so each of the surveys it draws can be
    kept. *)
Theorem C79_drawing_keeps_it_so : forall E prog fuel rl fs l10 ns norm (y : synth E) p y',
  keepable y -> draw_survey prog fuel rl fs l10 ns norm y = (Ok p, y') -> keepable y'.
Proof. intros E prog fuel rl fs l10 ns norm y p y' K H. apply (KeptTop.survey_writable _ _ _ _ _ _ _ _ _ _ _ K H). Qed.
(** Registering, selecting, wiring and cleaning keep it so too, whether they succeed or
    not; a model space must have a name that can be stored. *)
Theorem C79_configuring_keeps_it_so : forall E (y : synth E), keepable y ->
  (forall x, keepable (snd (add_quantity x y))) /\ (forall x, keepable (snd (set_flux x y))) /\ (forall x, keepable (snd (set_dist x y))) /\
  (forall x, keepable (snd (add_spatial x y))) /\ (forall rl b, keepable (snd (clean rl b y))) /\
  (forall nm a b log, plain_name nm -> keepable (snd (add_space nm a b log y))) /\
  (forall i j, keepable (snd (in_w (set_secondary i j) y))) /\ (forall i j, keepable (snd (in_w (set_selection i j) y))).
Proof.
  intros E y K. split; [intros; now apply KeptTop.add_quantity_kept|]. split; [intros; now apply KeptTop.set_flux_kept|]. split; [intros; now apply KeptTop.set_dist_kept|].
  split; [intros; now apply KeptTop.add_spatial_kept|]. split; [intros; now apply KeptTop.clean_kept|]. split; [intros; now apply KeptTop.add_space_kept|].
  split; intros i j.
  - exact (proj1 (KeptProofs.in_w_kept _ _ _ _ (KeptTop.set_secondary_kept _ i j) y K)).
  - exact (proj1 (KeptProofs.in_w_kept _ _ _ _ (KeptTop.set_selection_kept _ i j) y K)).
Qed.
(** The predefined populations are keepable, for all arguments they accept.  Case:
    [some_population]. *)
Theorem C79_predefined_populations : forall E (fo : formulas E) (w : world E) c arg seed lum is_rate y,
  (forall a, In a (w_auxs w) -> keepable_sampler a) -> (forall s, In s (w_sels w) -> keepable_selector s) ->
  (forall c, is_ascii c = true -> is_ascii (fo_form fo c) = true) -> fits64 seed ->
  (forall l, lum = Some l -> plain_name (ld_name (fst l)) /\ is_ascii (ld_name (fst l)) = true /\
     set_parameters (lc_params (ld_cls (fst l))) (ld_par (fst l)) /\ plain_name (m_type (snd l)) /\ is_ascii (m_form (snd l)) = true) ->
  build fo w c arg seed lum is_rate = Ok y -> keepable y.
Proof. intros E fo w c arg seed lum is_rate y WA WS FO SE L. now apply KeptLib.build_keepable. Qed.
(** The survey of a distribution with a rate flag can be kept once only: what is read
    back cannot be written. *)
Theorem C79_second_file_refuted : forall E (utf8 : string -> bool) prog fuel rl fs l10 ns norm (y : synth E) p y' b,
  keepable y -> m_rate (y_spm y) = Some b -> draw_survey prog fuel rl fs l10 ns norm y = (Ok p, y') ->
  exists file p', writeto p = (Ok tt, file) /\ load_pop utf8 file = Ok p' /\ fst (writeto p') <> Ok tt.
Proof.
  intros E utf8 prog fuel rl fs l10 ns norm y p y' b K M H. destruct (KeptTop.survey_writable _ _ _ _ _ _ _ _ _ _ _ K H) as (_ & a & aux & conf & PN & _ & W & HB).
  exact (HdfPop.write_once E utf8 a p _ aux _ conf PN W (HB b M)).
Qed.
Lemma survey_keeps a b c (y : synth toy) p y1 : keepable y -> survey a b c y = (Ok p, y1) -> keepable y1.
Proof. intros K H. unfold survey in H. exact (C79_drawing_keeps_it_so _ _ _ _ _ _ _ _ _ _ _ K H). Qed.
(** Cases: a synth with a tree of samplers and all selections, two surveys of it, and a
    predefined population. *)
Example C79_applies : (forall der, keepable (rich der)) /\
  (exists p y1 q y2, survey (Some 2%Z) (Some 6) false (rich false) = (Ok p, y1) /\ survey None (Some 6) true y1 = (Ok q, y2) /\ keepable y1 /\ keepable y2) /\
  exists y, build toy_formulas objects P_BPLSFRPopulation some_args 17 None false = Ok y /\ keepable y.
Proof.
  split; [exact rich_keepable|]. split; [|exact some_population].
  destruct ShareExamples.drawn_again as (p & y1 & q & y2 & _ & _ & H1 & H2 & _). exists p, y1, q, y2. split; [exact H1|]. split; [exact H2|].
  pose proof (survey_keeps _ _ _ _ _ _ (rich_keepable false) H1) as K1. split; [exact K1|]. exact (survey_keeps _ _ _ _ _ _ K1 H2).
Qed.
Print Assumptions C79_survey_survives_the_file.
Print Assumptions C79_drawing_keeps_it_so.
Print Assumptions C79_configuring_keeps_it_so.
Print Assumptions C79_predefined_populations.
Print Assumptions C79_second_file_refuted.
