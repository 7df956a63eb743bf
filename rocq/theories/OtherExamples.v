(** Synths over the integers that differ in their selections (C78). *)
From Verif Require Import Base BaseFacts Env ParamModel SelModel SelSpec SimVarModel DistModel DistSpec AuxModel AuxSpec PopModel SynthModel SynthSpec Toy AuxExamples SynthExamples OtherSpec.
From Verif Require OtherProofs.
Open Scope string_scope.
Open Scope list_scope.

(** The synth of [rich] with another flux selection and another distance selection. *)
Definition instead (f d : selector toy) (y : synth toy) : synth toy :=
  with_w y (w_set_sels (firstn 6 (w_sels (y_w y)) ++ [f; far 2 9; d]) (y_w y)).
Definition shallow_one : synth toy := instead (hard 31) (coin 1) (rich false).
Definition no_limit : synth toy := instead (unity toy "all") (coin 1) (rich false).
Definition other_distances : synth toy := instead (hard 20) (unity toy "all") (rich false).

Lemma rich_six a : In a (w_auxs (y_w (rich false))) -> a_sel (a_ln a) < 6.
Proof. intros I. apply In_nth_error in I. destruct I as (j & B). rows B. six j; injection B as _ B _ _ _; lia. Qed.
Lemma instead_but f d : but_selections (rich false) (instead f d (rich false)).
Proof.
  constructor; try reflexivity. intros a I. apply rich_six in I. set (q := a_sel (a_ln a)) in *. clearbody q.
  do 6 (destruct q as [|q]; [reflexivity|]). lia.
Qed.
Lemma apart_any f d (y : synth toy) : y_ssel y = Some 7 -> y_dsel y = 8 -> y_flux y = 6 -> (forall a, In a (w_auxs (y_w y)) -> a_sel (a_ln a) < 6) -> selectors_apart (instead f d y).
Proof.
  intros Q1 Q2 Q3 T0. destruct y as [w0 ? ? ? ? ? ? ? ? ? ? ? ? ? ? ? ?]. unfold selectors_apart, instead in *. cbn in Q1, Q2, Q3. subst. cbn.
  assert (T : forall j b, at_ w0 j b -> a_sel (a_ln b) < 6).
  { intros j b B. apply T0. apply nth_error_In with j. exact B. }
  split; [|split; [easy|]].
  - intros k K. injection K as <-. split; [easy|]. split; [easy|]. intros j b _ B. apply T in B. lia.
  - intros j b _ B. apply T in B. lia.
Qed.
Lemma instead_apart f d : selectors_apart (instead f d (rich false)).
Proof. apply apart_any; [reflexivity..|exact rich_six]. Qed.
Lemma instead_spatial f d : same_spatial (rich false) (instead f d (rich false)).
Proof. split; [reflexivity|]. intros k K. injection K as <-. reflexivity. Qed.

Definition seen (p : population toy) (_ : synth toy) := (pa_sel (p_args p), sv_lat (p_flux p), sv_obs (p_flux p), pa_known (p_args p)).
Lemma one_seen (y : synth toy) b : (match survey (Some 2%Z) (Some 6) false y with (Ok p, z) => Some (seen p z) | _ => None end) = Some b ->
  exists p z, survey (Some 2%Z) (Some 6) false y = (Ok p, z) /\ seen p z = b.
Proof. apply survey_run. Qed.
Example deep_survey : exists p z, survey (Some 2%Z) (Some 6) false (rich false) = (Ok p, z) /\
  seen p z = ([true; false; true; false; true; true], [31; 49; 57; 15; 23; 31], [29; 49; 59; 13; 23; 33], [9; 7])%Z.
Proof. apply one_seen. vm_compute. reflexivity. Qed.
Example shallow_survey : exists p z, survey (Some 2%Z) (Some 6) false shallow_one = (Ok p, z) /\
  seen p z = ([false; false; true; false; false; true], [31; 49; 57; 15; 23; 31], [29; 49; 59; 13; 23; 33], [3])%Z.
Proof. apply one_seen. vm_compute. reflexivity. Qed.
Example unlimited_survey : exists p z, survey (Some 2%Z) (Some 6) false no_limit = (Ok p, z) /\
  seen p z = ([true; false; true; true; true; true], [31; 49; 57; 15; 23; 31], [31; 49; 57; 15; 23; 31], [9; 5; 9])%Z.
Proof. apply one_seen. vm_compute. reflexivity. Qed.
Example distances_survey : exists p z, survey (Some 2%Z) (Some 6) false other_distances = (Ok p, z) /\
  seen p z = ([true; false; true; false; true; true], [31; 49; 57; 15; 23; 31], [29; 49; 59; 13; 23; 33], [9; 3; 7; 9])%Z.
Proof. apply one_seen. vm_compute. reflexivity. Qed.
Lemma same_flux_example : same_flux_selection (rich false) other_distances.
Proof. split; reflexivity. Qed.

(** Without a flux selection the flux errors are not applied. *)
Lemma unlimited_fluxes : exists (y y' : synth toy) p p' z z', but_selections y y' /\ selectors_apart y /\ selectors_apart y' /\ same_spatial y y' /\ distinct_names y /\
  survey (Some 2%Z) (Some 6) false y = (Ok p, z) /\ survey (Some 2%Z) (Some 6) false y' = (Ok p', z') /\ sv_obs (p_flux p) <> sv_obs (p_flux p').
Proof.
  destruct deep_survey as (p & z & H & Q). destruct unlimited_survey as (p' & z' & H' & Q').
  exists (rich false), no_limit, p, p', z, z'. split; [apply instead_but|]. split; [apply rich_apart|]. split; [apply instead_apart|]. split; [apply instead_spatial|]. split; [apply rich_names|].
  split; [exact H|]. split; [exact H'|]. assert (X := f_equal (fun v => snd (fst v)) Q). assert (X' := f_equal (fun v => snd (fst v)) Q'). cbn [seen fst snd] in X, X'.
  unfold seen in X, X'. cbn [fst snd] in X, X'. rewrite X, X'. discriminate.
Qed.
