(** Concrete synths for the nodes of the dependency graph. *)
From Verif Require Import Base BaseFacts Env ParamModel SelModel SimVarModel DistModel AuxModel AuxSpec PopModel SynthModel SynthSpec
  Toy AuxExamples SynthExamples GraphSpec GraphProofs.
Open Scope nat_scope.

(** "x" is registered and observed, has the observed secondary "y", which has the
    observed secondary "z". *)
Definition seen : world toy := snd ((set_secondary 0 1 ;; set_secondary 1 2)
  (@World toy 5%Z 0%Z [unity toy "s0"; unity toy "s1"; unity toy "s2"]
    [@new_sampler toy "x" "D" doublek true false false false 0; @new_sampler toy "y" "D" doublek true false false false 1;
     @new_sampler toy "z" "D" doublek true false false false 2] [])).
Notation seen_synth := (plain_synth seen [0]).

Lemma seen_meets : keyed (y_w seen_synth) /\ named seen_synth /\ well_formed (y_graph seen_synth).
Proof.
  assert (T : map (fun a => (name_of a, a_sec (a_ln a))) (w_auxs (y_w seen_synth)) = [("x", [("y", 1)]); ("y", [("z", 2)]); ("z", [])]) by reflexivity.
  assert (AT : forall j b, at_ (y_w seen_synth) j b -> nth_error [("x", [("y", 1)]); ("y", [("z", 2)]); ("z", [])] j = Some (name_of b, a_sec (a_ln b))).
  { intros j b B. rewrite <- T. unfold at_ in B. now rewrite nth_error_map, B. }
  split; [|split].
  - intros i a k j A I. apply AT in A. destruct i as [|[|[|i]]]; cbn in A; try (destruct i; discriminate); injection A as _ A; rewrite <- A in I; cbn in I;
      intuition; match goal with X : (_, _) = _ |- _ => injection X as <- <- end; eexists; split; reflexivity.
  - intros k i I. cbn in I. intuition. injection H as <- <-. eexists. split; reflexivity.
  - constructor; [repeat constructor; intros []|constructor|intros u v []].
Qed.

Lemma seen_graph : exists g y', read_graph 10 seen_synth = (Ok g, y') /\
  gr_nodes g = [("space", None); ("obs_flux", Some true); ("lf", None); ("x", Some false); ("x_obs", Some false);
                ("y", Some false); ("y_obs", Some true); ("z", Some false); ("z_obs", Some false)].
Proof. apply (survey_run (read_graph 10 seen_synth) _ (fun g _ => gr_nodes g)). vm_compute. reflexivity. Qed.

(** The luminosity is computed from the observed secondary "z". *)
Definition unseen : world toy := snd (set_secondary 0 1
  (@World toy 5%Z 0%Z [unity toy "s0"; unity toy "s1"]
    [@new_sampler toy "L" "X" derk false false false false 0; @new_sampler toy "z" "D" doublek true false false false 1] [])).
Lemma unseen_graph : exists g y', read_graph 10 (plain_synth unseen [0]) = (Ok g, y') /\
  gr_nodes g = [("space", None); ("obs_flux", Some true); ("L", None); ("z", None)].
Proof. apply (survey_run (read_graph 10 (plain_synth unseen [0])) _ (fun g _ => gr_nodes g)). vm_compute. reflexivity. Qed.
