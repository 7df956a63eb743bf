(** Surveys that are kept (C79). *)
From Verif Require Import Base BaseFacts Env ParamModel SelModel SimVarModel DistModel AuxModel Tree PopModel SynthModel Toy AuxExamples SynthExamples
  LibPopModel LibPopExamples HdfModel HdfSpec KeptSpec KeptProofs KeptTop KeptLib.
Open Scope string_scope.

Ltac pl := unfold plain_name, no_nul; cbn; intuition discriminate.
Ltac nps := intros k d D; apply dget_In in D; cbn in D; repeat (destruct D as [D|D]; [injection D as <- <-; pl|]); destruct D.
Lemma objects_kept : PW toy objects.
Proof.
  split; cbn.
  - intros a A. repeat (destruct A as [<-|A]; [apply new_sampler_keepable; [pl|discriminate|split; [pl|discriminate]|nps]|]). destruct A.
  - intros s A. repeat (destruct A as [<-|A]; [constructor; [pl|split; [split; [repeat constructor; cbn; intuition discriminate|cbn; intros k K; repeat (destruct K as [<-|K]; [pl|]); destruct K]|split; [nps|discriminate]]]|]). destruct A.
Qed.
Lemma wired_kept : PW toy wired.
Proof.
  assert (H : hk (PW toy) (set_secondary 0 1 ;; set_secondary 0 2 ;; set_secondary 1 3 ;; set_secondary 2 3) any).
  { hb; [apply set_secondary_kept|]. hb; [apply set_secondary_kept|]. hb; apply set_secondary_kept. }
  exact (proj1 (H _ objects_kept)).
Qed.
Lemma rich_keepable der : keepable (rich der).
Proof.
  assert (H : hk (@keepable toy) (setup der) any).
  { unfold setup. hb; [apply add_quantity_kept|]. hb; [apply add_quantity_kept|]. ha; [destruct der; [apply add_quantity_kept|now apply hk_ret]|].
    hb; [apply set_flux_kept|]. hb; [apply add_spatial_kept|apply set_dist_kept]. }
  apply H. apply new_keepable; [apply wired_kept|apply wired_kept|reflexivity|now split|now split|..].
  - split; [pl|]. split; [split; [|split]|split].
    + split; [repeat constructor; cbn; intuition discriminate|]. cbn. intros k K. repeat (destruct K as [<-|K]; [pl|]). destruct K.
    + nps.
    + cbn. intros k K. injection K as <-. pl.
    + cbn. intros k K. intuition discriminate.
    + intros k d D. apply dget_In in D. cbn in D. destruct D as [D|[D|[]]]; injection D as <- <-; [discriminate|]. eexists. reflexivity.
  - split; [pl|]. split; [discriminate|]. intros _. pl.
  - intros l L. injection L as <-. split; [pl|]. split; [split; [apply plain_nil|split; [nps|discriminate]]|]. split; [intros k []|]. intros k d D. apply dget_In in D. cbn in D. destruct D as [D|[]]. injection D as <- <-. discriminate.
Qed.
(** A predefined population. *)
Lemma some_population : exists y, build toy_formulas objects P_BPLSFRPopulation some_args 17 None false = Ok y /\ keepable y.
Proof.
  destruct (build toy_formulas objects P_BPLSFRPopulation some_args 17 None false) as [y|] eqn:Q; [|discriminate Q]. exists y. split; [reflexivity|].
  eapply build_keepable; [exact (proj1 objects_kept)|exact (proj2 objects_kept)| | | |exact Q].
  - intros c H. cbn. first [exact H|reflexivity|now rewrite ?is_ascii_app, H].
  - split; reflexivity + easy.
  - discriminate.
Qed.
