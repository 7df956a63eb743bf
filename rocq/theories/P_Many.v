(** C80: one file for several populations. *)
From Verif Require Import Base BaseFacts Env Tree PopModel SynthModel SynthSpec HdfModel HdfSpec Toy SynthExamples KeptSpec KeptExamples ManySpec.
From Verif Require PopProofs HdfPop KeptTop ManyProofs ShareExamples P_Kept.
Open Scope string_scope.
Open Scope list_scope.

(** Populations that can be written can be put in one file, in groups apart from each
    other; each group then reads as if it were a file of its own, and the groups that
    were there before read as before. *)
Theorem C80_each_its_own : forall E (utf8 : string -> bool) (ps : list (string * population E)) f, room_for ps f ->
  (forall name p, In (name, p) ps -> exists g, writeto p = (Ok tt, g)) ->
  exists f', add_all ps f = (Ok tt, f') /\
    (forall name p g, In (name, p) ps -> writeto p = (Ok tt, g) -> from_group E utf8 name f' = load_pop utf8 g) /\
    (forall n, (forall name p, In (name, p) ps -> apart (comps n) (comps name)) -> from_group E utf8 n f' = from_group E utf8 n f).
Proof. intros E utf8 ps f. apply ManyProofs.add_all_ok. Qed.
(** The order in which they are put in does not matter to a reader. *)
Theorem C80_any_order : forall E (utf8 : string -> bool) (ps qs : list (string * population E)) f f1 f2, room_for ps f -> room_for qs f ->
  (forall x, In x ps <-> In x qs) -> (forall name p, In (name, p) ps -> exists g, writeto p = (Ok tt, g)) ->
  add_all ps f = (Ok tt, f1) -> add_all qs f = (Ok tt, f2) ->
  forall n, (exists p, In (n, p) ps) \/ (forall name p, In (name, p) ps -> apart (comps n) (comps name)) ->
  from_group E utf8 n f1 = from_group E utf8 n f2.
Proof.
  intros E utf8 ps qs f f1 f2 R1 R2 S W A1 A2 n N.
  destruct (ManyProofs.add_all_ok E utf8 ps f R1 W) as (g1 & B1 & C1 & D1). rewrite A1 in B1. injection B1 as <-.
  destruct (ManyProofs.add_all_ok E utf8 qs f R2) as (g2 & B2 & C2 & D2); [intros name p I; apply (W name p); now apply S|]. rewrite A2 in B2. injection B2 as <-.
  destruct N as [[p I]|N].
  - destruct (W n p I) as [g G]. rewrite (C1 n p g I G). symmetry. apply (C2 n p g); [now apply S|exact G].
  - rewrite D1 by exact N. rewrite D2; [reflexivity|]. intros name p I. apply (N name p). now apply S.
Qed.
(** Adding a population does nothing to the other groups of the file, whether it
    succeeds or not. *)
Theorem C80_others_untouched : forall E (utf8 : string -> bool) (p : population E) name f r f' n,
  addto p name f = (r, f') -> apart (comps n) (comps name) -> from_group E utf8 n f' = from_group E utf8 n f.
Proof. intros E utf8 p name f r f' n. apply ManyProofs.from_other. Qed.
(** A failed attempt is not undone: the group stays, and no population can be put there
    any more. *)
Theorem C80_failed_add_refuted : forall E (p q : population E) name f e f', no_nul name -> vacant (comps name) f ->
  addto p name f = (Err e, f') -> exists f'', addto q name f' = (Err ValueError, f'').
Proof. exact ManyProofs.failed_add. Qed.
(** This is met by every attempt to store a part of a population. *)
Theorem C80_sub_population_blocks_name_refuted : forall E b (p q r : population E) name f, sub_population b p = Ok q -> no_nul name -> vacant (comps name) f ->
  exists e f', addto q name f = (Err e, f') /\ exists f'', addto r name f' = (Err ValueError, f'').
Proof.
  intros E b p q r name f S N VA. destruct (ManyProofs.failed_write E q name f (HdfPop.sub_not_writable _ _ _ _ S)) as (e & f' & A).
  exists e, f'. split; [exact A|]. exact (ManyProofs.failed_add E q r name f e f' N VA A).
Qed.
(** The surveys of ordinary synths (C79) can be kept in one file. *)
Theorem C80_surveys_in_one_file : forall E (utf8 : string -> bool) (ps : list (string * population E)) f, room_for ps f ->
  (forall name p, In (name, p) ps -> exists prog fuel rl fs l10 ns norm y y', keepable y /\ draw_survey prog fuel rl fs l10 ns norm y = (Ok p, y')) ->
  exists f', add_all ps f = (Ok tt, f') /\ forall name p, In (name, p) ps -> exists nm p', from_group E utf8 name f' = Ok p' /\
    same_content utf8 (p_args p) (p_args p') /\ with_losses (p_args p) (p_args p') nm.
Proof.
  intros E utf8 ps f R K.
  assert (W : forall name p, In (name, p) ps -> exists g p' nm, writeto p = (Ok tt, g) /\ load_pop utf8 g = Ok p' /\ same_content utf8 (p_args p) (p_args p') /\ with_losses (p_args p) (p_args p') nm).
  { intros name p I. destruct (K name p I) as (prog & fuel & rl & fs & l10 & ns & norm & y & y' & KE & D).
    destruct (P_Kept.C79_survey_survives_the_file E utf8 _ _ _ _ _ _ _ _ _ _ KE D) as (g & p' & X). exists g, p', (y_name y). exact X. }
  destruct (ManyProofs.add_all_ok E utf8 ps f R) as (f' & A & B & _).
  - intros name p I. destruct (W name p I) as (g & _ & _ & G & _). eauto.
  - exists f'. split; [exact A|]. intros name p I. destruct (W name p I) as (g & p' & nm & G & L & S). exists nm, p'. rewrite (B name p g I G). split; [exact L|exact S].
Qed.
(** Case: two surveys of one synth in two groups of one group, in an empty file. *)
Lemma room_case (p q : population toy) : room_for [("night/one", p); ("night/two", q)] nil.
Proof.
  split.
  - intros name r [I|[I|[]]]; injection I as <- <-; (split; [unfold no_nul; cbn; intuition discriminate|exact I + (cbn; exact Logic.I)]).
  - repeat constructor; intros r; cbn; discriminate.
Qed.
Lemma survey_case a b c (y : synth toy) p y1 : keepable y -> survey a b c y = (Ok p, y1) ->
  exists prog fuel rl fs l10 ns norm y y', keepable y /\ draw_survey prog fuel rl fs l10 ns norm y = (Ok p, y').
Proof. intros K H. unfold survey in H. do 9 eexists. split; [exact K|exact H]. Qed.
Example C80_applies : exists p q f', add_all [("night/one", p); ("night/two", q)] nil = (Ok tt, f') /\
  exists p' q', from_group toy (fun _ => true) "night/one" f' = Ok p' /\ from_group toy (fun _ => true) "night/two" f' = Ok q' /\
  pa_lum (p_args p') = pa_lum (p_args p) /\ pa_lum (p_args q') = pa_lum (p_args q).
Proof.
  destruct ShareExamples.drawn_again as (p & y1 & q & y2 & _ & _ & H1 & H2 & _). assert (K1 := P_Kept.survey_keeps _ _ _ _ _ _ (rich_keepable false) H1).
  exists p, q. destruct (C80_surveys_in_one_file toy (fun _ => true) [("night/one", p); ("night/two", q)] nil (room_case p q)) as (f' & A & B).
  - intros name r I. destruct I as [I|[I|[]]]; injection I as <- <-; [exact (survey_case _ _ _ _ _ _ (rich_keepable false) H1)|exact (survey_case _ _ _ _ _ _ K1 H2)].
  - exists f'. split; [exact A|]. destruct (B "night/one" p (or_introl eq_refl)) as (n1 & p' & F1 & S1 & _). destruct (B "night/two" q (or_intror (or_introl eq_refl))) as (n2 & q' & F2 & S2 & _).
    exists p', q'. split; [exact F1|]. split; [exact F2|]. split; [exact (sc_lum S1)|exact (sc_lum S2)].
Qed.
Print Assumptions C80_each_its_own.
Print Assumptions C80_any_order.
Print Assumptions C80_others_untouched.
Print Assumptions C80_failed_add_refuted.
Print Assumptions C80_sub_population_blocks_name_refuted.
Print Assumptions C80_surveys_in_one_file.
