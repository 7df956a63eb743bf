(** C18, C65, C66: what the predefined auxiliary samplers draw. *)
From Coq Require Import Reals List String Lra Lia.
From Verif Require Import Base Env ParamModel SelModel DistModel DistSpec AuxModel AuxSpec AuxProofs AuxRunSpec AuxRuns LibModel RealModel
  AuxLibModel AuxLibSpec AuxLibProofs AuxLibExamples.
Open Scope R_scope.
Open Scope string_scope.

(** C18.  A draw on unsampled samplers runs the methods of each sampler's class once,
    observation directly after truth, and stores what they return. *)
Theorem C18_draw_runs_the_methods : forall E prog fuel i size (w w' : world E),
  acyclic w -> (forall j, reaches w i j -> ~ sampled w j) -> aux_draw prog fuel i size w = (Ok tt, w') ->
  forall j a, reaches w i j -> at_ w' j a -> a_sampled (a_dy a) = true /\ filled size a /\ made_by_methods size w' a.
Proof. exact fresh_made. Qed.

(** C65.  Every predefined sampler except the declination one draws [size] true values
    in its documented range, whatever the other samplers do. *)
Theorem C65_values_in_range_partial : forall m tnorm nunif ppf, unit_uniform m nunif -> forall prog fuel i size w w' c, c <> Dec ->
  acyclic w -> (forall j, reaches w i j -> ~ sampled w j) -> aux_draw prog fuel i size w = (Ok tt, w') ->
  forall j a p, reaches w i j -> at_ w' j a -> kind_of a = aux_kind m tnorm nunif ppf c -> has_parameters m a p -> sensible c p ->
  true_values_are m (documented_range c p) size a.
Proof. exact library_range. Qed.

(** C65.  The declination sampler draws a polar angle: [arccos (1 - 2 u)], from 0 to
    pi ... *)
Theorem C65_declination_drawn : forall m tnorm nunif ppf, unit_uniform m nunif -> forall prog fuel i size w w',
  acyclic w -> (forall j, reaches w i j -> ~ sampled w j) -> aux_draw prog fuel i size w = (Ok tt, w') ->
  forall j a, reaches w i j -> at_ w' j a -> kind_of a = aux_kind m tnorm nunif ppf Dec ->
  true_values_are m (fun y => 0 <= y <= PI /\ exists u, 0 <= u < 1 /\ y = acos (1 - 2 * u)) size a.
Proof.
  intros m tn nu pp U prog fuel i size w w' AC N H j a R A K.
  destruct (declination_drawn m tn nu pp (fun u => 0 <= u < 1) prog fuel i size w w' (proj1 U) AC N H j a R A K) as (t & T & L & F).
  exists t. split; [exact T|]. split; [exact L|]. eapply Forall_impl; [|exact F]. cbn. intros y (u & B & ->). split; [apply acos_bound|eauto].
Qed.
(** ... not a declination: every value drawn may lie beyond the pole. *)
Theorem C65_declination_refuted : exists (m : machine) tnorm nunif ppf (w w' : world (real_env m)) i j a,
  unit_uniform m nunif /\ acyclic w /\ (forall j, ~ sampled w j) /\ aux_draw false 10 i 2 w = (Ok tt, w') /\ reaches w i j /\ at_ w' j a /\
  kind_of a = aux_kind m tnorm nunif ppf Dec /\ true_values_are m (fun x => ~ documented_range Dec (fun _ => 0) x) 2 a.
Proof.
  destruct linked_declination as (w' & a & D & A & K & t & T & L & F).
  exists mach34, tn34, nu34, (-4), linked, w', 0%nat, 3%nat, a. split; [exact units34|]. split; [exact linked_acyclic|]. split; [exact linked_fresh|].
  split; [exact D|]. split; [apply linked_reaches; lia|]. split; [exact A|]. split; [exact K|]. exists t. split; [exact T|]. split; [exact L|].
  eapply Forall_impl; [|exact F]. cbn. intros x P [_ Q]. lra.
Qed.

(** C66.  Observed values are the true ones plus [sigma] times one standard normal
    number each; of a sampler that is not observed, the true ones. *)
Theorem C66_observed_values_partial : forall m tnorm nunif ppf prog fuel i size w w' c, angle_name c = None ->
  acyclic w -> (forall j, reaches w i j -> ~ sampled w j) -> aux_draw prog fuel i size w = (Ok tt, w') ->
  forall j a, reaches w i j -> at_ w' j a -> kind_of a = aux_kind m tnorm nunif ppf c ->
  exists t o, a_true (a_dy a) = Some t /\ a_obs (a_dy a) = Some o /\ length t = size /\
    if a_observed (a_st a) then exists s, reads_as a "sigma" s /\ 0 <= s /\ measured_from m t o s /\ (s = 0 -> o = t) else o = t.
Proof. exact library_observed. Qed.
(** C66.  An observed broken power law sampler, which is what its constructor makes
    unless told otherwise, cannot be drawn: the class has no parameter [sigma]. *)
Theorem C66_broken_power_law_refuted : forall m tnorm nunif ppf prog fuel i size w a,
  acyclic w -> (forall j, reaches w i j -> ~ sampled w j) -> at_ w i a ->
  kind_of a = aux_kind m tnorm nunif ppf BrokenPowerLaw -> a_observed (a_st a) = true ->
  fst (aux_draw prog fuel i size w) <> Ok tt.
Proof. exact broken_power_law_fails. Qed.

(** Concrete cases: four samplers of four classes; an observed sampler. *)
Example C65_case : unit_uniform mach34 nu34 /\ acyclic linked /\ (forall j, reaches linked 0 j -> ~ sampled linked j) /\
  (exists w', aux_draw false 10 0 2 linked = (Ok tt, w')) /\ (forall j, (j < 4)%nat -> reaches linked 0 j) /\
  (exists a, at_ linked 1 a /\ kind_of a = aux_kind mach34 tn34 nu34 (-4) PowerLaw /\ reads_as a "xmin" 1 /\ reads_as a "xmax" 2).
Proof.
  split; [exact units34|]. split; [exact linked_acyclic|]. split; [intros j _; apply linked_fresh|]. split; [exact linked_draws|].
  split; [exact linked_reaches|]. eexists. split; [reflexivity|]. split; [reflexivity|]. split; reflexivity.
Qed.
Example C66_case : acyclic lone /\ (forall j, reaches lone 0 j -> ~ sampled lone j) /\ (exists w', aux_draw false 10 0 2 lone = (Ok tt, w')) /\
  exists a, at_ lone 0 a /\ kind_of a = aux_kind mach34 tn34 nu34 (-4) Delta /\ a_observed (a_st a) = true /\ reads_as a "sigma" 1.
Proof.
  split; [exact lone_acyclic|]. split; [intros j _; apply lone_fresh|]. split; [exact lone_draws|].
  eexists. split; [reflexivity|]. split; [reflexivity|]. split; reflexivity.
Qed.
Print Assumptions C18_draw_runs_the_methods.
Print Assumptions C65_values_in_range_partial.
Print Assumptions C65_declination_drawn.
Print Assumptions C65_declination_refuted.
Print Assumptions C66_observed_values_partial.
Print Assumptions C66_broken_power_law_refuted.
