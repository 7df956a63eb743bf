(** Theorems C64: a synth that was saved and loaded draws the same surveys. *)
From Verif Require Import Base Env ParamModel SelModel SimVarModel DistModel AuxModel Tree PopModel SynthModel SynthSpec ConfModel ConfSpec ReloadSpec.
From Verif Require ConfYaml Reload Loaded Toy ConfExamples ReloadExamples.
Open Scope string_scope.

(** A synth made from a configuration has not been drawn from: everything in it is
    new, and no selector serves two purposes. *)
Theorem C64_loaded_is_new : forall E (rg : registry E) w inp y inp', makes_new rg -> from_dict rg w inp = (Ok y, inp') -> undrawn y.
Proof. intros E rg w inp y inp' MN H. exact (proj1 (Loaded.loaded_undrawn E rg w inp y inp' MN H)). Qed.

(** Two synths that are the same, neither drawn from, give the same population or
    fail with the same exception, whatever numpy's generator was used for before. *)
Theorem C64_same_synths_draw_the_same : forall E prog fuel rl sg l10 ns nrm (y y' : synth E),
  same_synth eq y y' -> dkeys (y_aux y') = dkeys (y_aux y) -> NoDup (dkeys (y_aux y)) -> undrawn y -> undrawn y' ->
  w_n (y_w y) = w_n (y_w y') \/ (forall a, In a (w_auxs (y_w y)) -> numba_free (kind_of a)) ->
  fst (draw_survey prog fuel rl sg l10 ns nrm y) = fst (draw_survey prog fuel rl sg l10 ns nrm y').
Proof.
  intros E prog fuel rl sg l10 ns nrm y y' S K N U U' [H|H].
  - now apply Reload.same_draw.
  - now apply Reload.same_draw_free.
Qed.

(** So a synth that can be saved and was not drawn from comes back from [to_dict] as
    one that draws the same surveys.  [w] holds the objects that exist when it is
    loaded. *)
Theorem C64_reloaded_draws_the_same_partial : forall E (rg : registry E) rl w (y : synth E) t,
  makes_new rg -> savable rg y -> undrawn y -> to_dict rl y = Ok t ->
  w_n w = w_n (y_w y) \/ (forall a, In a (w_auxs (y_w y)) -> numba_free (kind_of a)) ->
  exists inp y', t = TDict inp /\ fst (from_dict rg w inp) = Ok y' /\
    forall prog fuel rl' sg l10 ns nrm, fst (draw_survey prog fuel rl' sg l10 ns nrm y) = fst (draw_survey prog fuel rl' sg l10 ns nrm y').
Proof.
  intros E rg rl w y t MN Hy U Ht N. destruct (ConfYaml.dict_round_trip E rg rl w y t Hy Ht) as (inp & y' & H1 & H2 & H3 & H4).
  exists inp, y'. split; [exact H1|]. split; [exact H2|]. destruct (from_dict rg w inp) as [r inp'] eqn:L. cbn in H2. subst r.
  destruct (Loaded.loaded_undrawn E rg w inp y' inp' MN L) as [U' N'].
  intros. apply C64_same_synths_draw_the_same; auto; [exact (sv_nodup Hy)|]. destruct N as [N|N]; [left; congruence|now right].
Qed.

(** ** Of the code as it is *)
Section Counterexamples.
Import Toy ConfExamples ReloadExamples.

(** Through a file the samplers change places, and with them the numbers they draw. *)
Theorem C64_file_refuted : exists (rg : registry toy) w y y', makes_new rg /\ savable rg y /\ undrawn y /\ through_file rg 10 w y = Ok y' /\
  shows y "solo" [9; 10; 11; 12]%Z /\ shows y' "solo" [7; 8; 9; 10]%Z.
Proof.
  destruct file_draws as (y' & F & D). exists toy_rg, empty, kept, y'. split; [exact toy_makes_new|]. split; [exact kept_savable|]. split; [exact kept_undrawn|]. now split.
Qed.
(** Model spaces are not saved. *)
Theorem C64_model_spaces_refuted : exists (rg : registry toy) w y inp y', to_dict 10 y = Ok (TDict inp) /\ fst (from_dict rg w inp) = Ok y' /\
  space_test y ["z"] /\ space_test y' [].
Proof. exists toy_rg, empty, spaced. exact spaced_draws. Qed.
(** Two samplers sharing one selector are both judged by the last one drawn; loaded,
    each has its own. *)
Theorem C64_shared_selector_refuted : exists (rg : registry toy) w y inp y', to_dict 10 y = Ok (TDict inp) /\ fst (from_dict rg w inp) = Ok y' /\
  chosen y [true; true; true; true] /\ chosen y' [true; true; false; false].
Proof. exists toy_rg, empty, pair. exact pair_draws. Qed.
End Counterexamples.

(** Non-vacuity. *)
Example C64_applies : exists y t, makes_new ConfExamples.toy_rg /\ savable ConfExamples.toy_rg y /\ undrawn y /\ to_dict 10 y = Ok t /\
  w_n ConfExamples.empty = w_n (y_w y) /\ length (w_auxs (y_w y)) = 7 /\ ReloadExamples.shows y "solo" [9; 10; 11; 12]%Z.
Proof.
  destruct ConfExamples.kept_saves as (t & H). exists ConfExamples.kept, t. split; [exact ReloadExamples.toy_makes_new|]. split; [exact ConfExamples.kept_savable|].
  split; [exact ReloadExamples.kept_undrawn|]. split; [exact H|]. split; [reflexivity|]. split; [reflexivity|]. destruct ReloadExamples.file_draws as (y' & _ & D & _). exact D.
Qed.

Print Assumptions C64_loaded_is_new.
Print Assumptions C64_same_synths_draw_the_same.
Print Assumptions C64_reloaded_draws_the_same_partial.
Print Assumptions C64_file_refuted.
Print Assumptions C64_model_spaces_refuted.
Print Assumptions C64_shared_selector_refuted.
