(** C91: the attributes of a population. *)
From Coq Require Import List String.
From Verif Require Import Base Env SimVarModel SimVarSpec AuxModel PopModel HdfExamples Toy ReadModel ReadSpec.
From Verif Require ReadProofs.
Import ListNotations.
Open Scope string_scope.

(** The quantities of the objects are those the population was built from, observed and
    latent, with its selection; right ascension and declination are in degrees. *)
Theorem C91_quantities : forall E (a : popargs E) p, pop_new a = Ok p -> let m := pa_sel a in
  let dec := map (fun t => vsub E (vofnat E 90) (vrad2deg E t)) (pa_theta a) in let ra := map (vrad2deg E) (pa_phi a) in
  is_quantity p "luminosities" (pa_lum a) (pa_lum a) m /\ is_quantity p "distances" (pa_dist a) (pa_dist a) m /\
  is_quantity p "theta" (pa_theta a) (pa_theta a) m /\ is_quantity p "phi" (pa_phi a) (pa_phi a) m /\
  is_quantity p "fluxes" (pa_fobs a) (pa_flux a) m /\ is_quantity p "fluxes_observed" (pa_fobs a) (pa_flux a) m /\
  is_quantity p "ra" ra ra m /\ is_quantity p "dec" dec dec m /\
  match pa_prob a with Some q => is_quantity p "probability" q q m | None => getattr "probability" p = Ok ANone end.
Proof. exact ReadProofs.quantities. Qed.
(** So are the auxiliary quantities, under their names. *)
Theorem C91_auxiliary_quantities : forall E (a : popargs E) p, pop_new a = Ok p -> forall x, pa_aux a = Some x -> NoDup (dkeys x) ->
  forall k t o, In (k, (t, o)) x -> is_quantity p k o t (pa_sel a).
Proof. exact ReadProofs.auxiliary. Qed.
(** Selected and hidden values are those of the detected and of the other objects. *)
Theorem C91_selected_and_hidden : forall E (a : popargs E) p, pop_new a = Ok p -> let m := pa_sel a in
  is_variable p "selected_fluxes_observed" (keep true (pa_fobs a) m) (keep true (pa_flux a) m) /\
  is_variable p "selected_distances" (keep true (pa_dist a) m) (keep true (pa_dist a) m) /\
  is_variable p "hidden_fluxes_observed" (keep false (pa_fobs a) m) (keep false (pa_flux a) m) /\
  is_variable p "hidden_distances" (keep false (pa_dist a) m) (keep false (pa_dist a) m) /\
  is_array p "selected_fluxes_latent" (keep true (pa_flux a) m) /\ is_array p "hidden_fluxes_latent" (keep false (pa_flux a) m) /\
  is_array p "luminosities_latent" (pa_lum a) /\ is_array p "fluxes_latent" (pa_flux a) /\ is_array p "known_distances" (pa_known a).
Proof. exact ReadProofs.parts. Qed.
(** Everything else that can be read: what was given, and the numbers of objects. *)
Theorem C91_counts_and_records : forall E (a : popargs E) p, pop_new a = Ok p -> let m := pa_sel a in
  getattr "graph" p = Ok (AGraph (pa_graph a)) /\ getattr "truth" p = Ok (ATruth (pa_truth a)) /\ getattr "flux_sigma" p = Ok (ANum (pa_sigma a)) /\
  getattr "pop_synth" p = Ok (match pa_popsynth a with Some t => ASynth t | None => ANone end) /\
  getattr "luminosity_parameters" p = Ok (match pa_lfpar a with Some d => APars d | None => ANone end) /\
  getattr "spatial_parameters" p = Ok (APars (pa_sppar a)) /\ getattr "selection" p = Ok (AMask m) /\
  getattr "n_objects" p = Ok (ANat (length m)) /\ getattr "n_detections" p = Ok (ANat (length (filter (fun b => b) m))) /\
  getattr "n_non_detections" p = Ok (ANat (length (filter negb m))) /\ getattr "has_detections" p = Ok (ABool (existsb (fun b => b) m)).
Proof. exact ReadProofs.the_rest. Qed.

(** The text of a population shows the numbers of objects. *)
Theorem C91_text : forall E (a : popargs E) p, pop_new a = Ok p -> let m := pa_sel a in exists s1 s2 s3,
  repr p = "total number of objects: " ++ s1 ++ newline ++ " number of detections: " ++ s2 ++ newline ++ " number of non-detections: " ++ s3 /\
  reads s1 (length m) /\ reads s2 (length (filter (fun b => b) m)) /\ reads s3 (length (filter negb m)).
Proof. exact ReadProofs.text. Qed.

(** Two properties of the class can never be read. *)
Theorem C91_unreadable_refuted : forall E (p : population E),
  getattr "hard_cut" p = Err AttributeError /\ getattr "distance_probability" p = Err AttributeError.
Proof. intros E p. split; reflexivity. Qed.

(** All others can. *)
Theorem C91_the_others_can_be_read : forall E (a : popargs E) p, pop_new a = Ok p ->
  forall k, In k readonly -> ~ In k ["hard_cut"; "distance_probability"; "__weakref__"] -> exists v, getattr k p = Ok v.
Proof. exact ReadProofs.readable. Qed.

(** The hypotheses hold: four objects, three of them detected, with auxiliary quantities. *)
Example C91_applies : exists p x, pop_new full = Ok p /\ pa_aux full = Some x /\ x <> [] /\ NoDup (dkeys x) /\
  getattr "n_detections" p = Ok (ANat 3) /\ getattr "hidden_fluxes_latent" p <> Ok (AArr []) /\ getattr "has_detections" p = Ok (ABool true).
Proof.
  destruct full_new as (p & H & N). eexists p, _. split; [exact H|]. split; [reflexivity|]. split; [discriminate|]. split; [cbn; repeat (constructor; [cbn; intuition discriminate|]); constructor|].
  destruct (ReadProofs.parts _ _ _ H) as (_ & _ & _ & _ & _ & P & _). destruct (ReadProofs.the_rest _ _ _ H) as (_ & _ & _ & _ & _ & _ & _ & _ & R1 & _ & R2).
  split; [exact R1|]. split; [|exact R2]. unfold is_array in P. rewrite P. discriminate.
Qed.

Print Assumptions C91_quantities.
Print Assumptions C91_auxiliary_quantities.
Print Assumptions C91_selected_and_hidden.
Print Assumptions C91_counts_and_records.
Print Assumptions C91_unreadable_refuted.
Print Assumptions C91_the_others_can_be_read.
Print Assumptions C91_text.
