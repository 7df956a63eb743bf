(** C71: the laws of the values of the predefined auxiliary samplers and luminosity
    distributions. *)
From Coq Require Import Reals ZArith List String Lra Lia.
From Verif Require Import Base Env ParamModel SelModel SimVarModel DistModel DistSpec AuxModel AuxSpec AuxRunSpec PopModel SynthModel SynthSpec LibModel LibSpec LibPopModel LibPopSpec
  RealModel RealExamples AuxLibModel AuxLibSpec AuxLibExamples LumLibModel LumLibSpec RunExamples FlatExamples AuxLawSpec AuxLawExamples.
From Verif Require AuxLaw.
Import ListNotations.
Open Scope R_scope.
Open Scope string_scope.

(** ** Auxiliary samplers *)

(** What any draw makes of a predefined sampler, wherever it is in the tree of
    secondaries: [size] values following the law of the class. *)
Theorem C71_drawn_values : forall m tnorm nunif ppf, unit_uniform m nunif -> forall prog fuel i size w w' c,
  acyclic w -> (forall j, reaches w i j -> ~ sampled w j) -> aux_draw prog fuel i size w = (Ok tt, w') ->
  forall j a p, reaches w i j -> at_ w' j a -> kind_of a = aux_kind m tnorm nunif ppf c -> has_parameters m a p -> proper c p ->
  exists t, a_true (a_dy a) = Some t /\ length t = size /\ actual_law m tnorm nunif ppf c p t.
Proof. intros m tn nu pp [U1 U2]. exact (AuxLaw.library_law m U1 tn nu pp U2). Qed.
(** The values a population holds. *)
Theorem C71_survey_values : forall m tnorm nunif ppf, unit_uniform m nunif -> forall prog fuel rl fs l10 ns norm (y : synth (real_env m)) p y',
  draw_survey prog fuel rl fs l10 ns norm y = (Ok p, y') ->
  acyclic (y_w y) -> distinct_names y -> SynthSpec.never_drawn (y_w y) ->
  forall c j a q, part y j -> at_ (y_w y) j a -> kind_of a = aux_kind m tnorm nunif ppf c -> has_parameters m a q -> proper c q ->
  exists x, dget (p_aux p) (name_of a) = Some x /\ length (sv_lat x) = p_nobj p /\ actual_law m tnorm nunif ppf c q (sv_lat x).
Proof. intros m tn nu pp [U1 U2]. exact (AuxLaw.survey_law m U1 tn nu pp U2). Qed.
(** For eleven of the thirteen classes this is the documented law. *)
Theorem C71_documented_law_partial : forall m tnorm nunif ppf, unit_uniform m nunif -> forall prog fuel rl fs l10 ns norm (y : synth (real_env m)) p y',
  draw_survey prog fuel rl fs l10 ns norm y = (Ok p, y') ->
  acyclic (y_w y) -> distinct_names y -> SynthSpec.never_drawn (y_w y) ->
  forall c j a q, c <> Dec -> c <> TruncLog10Normal ->
  part y j -> at_ (y_w y) j a -> kind_of a = aux_kind m tnorm nunif ppf c -> has_parameters m a q -> proper c q ->
  exists x, dget (p_aux p) (name_of a) = Some x /\ length (sv_lat x) = p_nobj p /\ documented_law m tnorm nunif ppf c q (sv_lat x).
Proof.
  intros m tn nu pp [U1 U2] prog fuel rl fs l10 ns norm y p y' H AC DN ND c j a q N1 N2 PJ A K HP SE.
  destruct (AuxLaw.survey_law m U1 tn nu pp U2 _ _ _ _ _ _ _ _ _ _ H AC DN ND c j a q PJ A K HP SE) as (x & X & L & W). exists x. split; [exact X|]. split; [exact L|].
  apply AuxLaw.correct_law; [now split|exact W].
Qed.
(** Cases: [C69_applies], whose samplers are the following. *)
Example C71_applies : unit_uniform mach nu0 /\
  forall j a, nth_error (w_auxs four) j = Some a -> exists c, In c [Normal; PowerLaw; ViewingAngle; Delta] /\ kind_of a = aux_kind mach tn0 nu0 (-4) c /\ has_parameters mach a reading4 /\ proper c reading4.
Proof.
  split; [exact unit0|]. assert (P : forall c nm ob j, In c [Normal; PowerLaw; ViewingAngle; Delta] -> has_parameters mach (new_aux mach tn0 nu0 (-4) c nm ob j) reading4).
  { intros c nm ob j I k v. cbn in I. unfold reads_as, reading, pread. destruct I as [<-|[<-|[<-|[<-|[]]]]]; cbn;
      repeat match goal with |- context [String.eqb k ?x] => destruct (String.eqb_spec k x); [subst k; cbn; now intros [= <-]|] end; discriminate. }
  intros [|[|[|[|j]]]] a; cbn [four w_auxs nth_error]; [intros [= <-]..|destruct j; discriminate];
    [exists Normal|exists PowerLaw|exists ViewingAngle|exists Delta]; (split; [cbn; tauto|]); (split; [reflexivity|]); (split; [apply P; cbn; tauto|]); unfold proper, reading4; cbn; lra || exact I.
Qed.
(** Not the documented law: the truncated log10-normal sampler takes the natural
    logarithm of its lower limit. *)
Theorem C71_truncated_log10_normal_refuted : exists (m : machine) tnorm nunif ppf (y : synth (real_env m)) fuel p y' a q x,
  unit_uniform m nunif /\ draw_survey true fuel 10 None true (Some 5%nat) false y = (Ok p, y') /\
  acyclic (y_w y) /\ distinct_names y /\ SynthSpec.never_drawn (y_w y) /\ part y 0 /\ at_ (y_w y) 0 a /\
  kind_of a = aux_kind m tnorm nunif ppf TruncLog10Normal /\ has_parameters m a q /\ proper TruncLog10Normal q /\
  dget (p_aux p) (name_of a) = Some x /\ ~ documented_law m tnorm nunif ppf TruncLog10Normal q (sv_lat x).
Proof.
  destruct (cut_drawable P_ParetoHomogeneousSphericalPopulation 0 false _ eq_refl ltac:(discriminate)) as (y0 & y & _ & _ & AC & DN & ND & PJ & A & fuel & p & y' & H & N).
  assert (PR : proper TruncLog10Normal limits) by (unfold proper, limits; cbn; left; apply exp_pos).
  destruct (C71_survey_values mach tn0 nu0 (-4) unit0 _ _ _ _ _ _ _ _ _ _ H AC DN ND TruncLog10Normal 0%nat cut_sampler limits PJ A eq_refl cut_params PR) as (x & X & L & W).
  exists mach, tn0, nu0, (-4), y, fuel, p, y', cut_sampler, limits, x. split; [exact unit0|]. split; [exact H|]. split; [exact AC|]. split; [exact DN|]. split; [exact ND|].
  split; [exact PJ|]. split; [exact A|]. split; [reflexivity|]. split; [exact cut_params|]. split; [exact PR|]. split; [exact X|]. apply cut_wrong; [exact (eq_trans L N)|exact W].
Qed.
(** Nor do the values of the declination sampler. *)
Theorem C71_declination_refuted : exists (m : machine) tnorm nunif ppf (w w' : world (real_env m)) i j a t,
  unit_uniform m nunif /\ acyclic w /\ (forall j, ~ sampled w j) /\ aux_draw false 10 i 2 w = (Ok tt, w') /\ reaches w i j /\ at_ w' j a /\
  kind_of a = aux_kind m tnorm nunif ppf Dec /\ a_true (a_dy a) = Some t /\ ~ documented_law m tnorm nunif ppf Dec (fun _ => 0) t.
Proof.
  destruct linked_declination as (w' & a & D & A & K & t & T & L & F).
  exists mach34, tn34, nu34, (-4), linked, w', 0%nat, 3%nat, a, t. split; [exact units34|]. split; [exact linked_acyclic|]. split; [exact linked_fresh|].
  split; [exact D|]. split; [apply linked_reaches; lia|]. split; [exact A|]. split; [exact K|]. split; [exact T|].
  intros (g & l & g' & _ & F2). destruct t as [|x t]; [discriminate|]. inversion F2 as [|u x' l1 t1 [B _]]; subst. inversion F as [|? ? B2 _]; subst. clear - B B2. lra.
Qed.

(** ** Luminosities *)

(** The luminosities of a population whose luminosity distribution is an instance of a
    predefined class follow the law of the class. *)
Theorem C71_luminosities : forall m (ginv : R -> R -> R) (gam : R -> R) (inc : R -> R -> R) sol rel Om h0 sky form,
  (forall g, 0 <= fst (mc_unif m 0 1 g) < 1) ->
  forall prog fuel rl fs l10 ns norm (y : synth (real_env m)) pop y' c l p,
  draw_survey prog fuel rl fs l10 ns norm y = (Ok pop, y') -> y_der y = None -> y_lum y = Some l ->
  ld_cls l = ld_cls (fst (lum_object (full_lib m ginv gam sol rel Om h0 sky form) c)) -> lum_parameters m l p ->
  gamma_known ginv gam inc c p -> lum_proper c p ->
  luminosity_law m inc c p (sv_lat (p_lum pop)).
Proof. intros m ginv gam inc sol rel Om h0 sky form U. exact (AuxLaw.survey_lum m U ginv gam inc sol rel Om h0 sky form). Qed.
(** In particular for the predefined populations, with the arguments of their
    constructors. *)
Theorem C71_population_luminosities : forall m (ginv : R -> R -> R) (gam : R -> R) (inc : R -> R -> R) sol rel Om h0 sky form w,
  (forall g, 0 <= fst (mc_unif m 0 1 g) < 1) ->
  forall c (arg : string -> R) seed lum rate (y0 y : synth (real_env m)) d k prog fuel rl fs l10 ns norm pop y',
  build (full_lib m ginv gam sol rel Om h0 sky form) w c arg seed lum rate = Ok y0 -> snd (documented c) = Some d -> lm_type d = LumLibSpec.class_name k ->
  gamma_known ginv gam inc k arg -> lum_proper k arg -> y_lum y = y_lum y0 -> y_der y = None ->
  draw_survey prog fuel rl fs l10 ns norm y = (Ok pop, y') -> luminosity_law m inc k arg (sv_lat (p_lum pop)).
Proof. intros m ginv gam inc sol rel Om h0 sky form w U. exact (AuxLaw.population_lum m U ginv gam inc sol rel Om h0 sky form w). Qed.
(** Cases: [C67_applies], and a Schechter population. *)
Example C71_schechter_case : forall seed rate, exists y, build glib nothing P_SchechterHomogeneousSphericalPopulation arg0 seed None rate = Ok y /\ y_der y = None /\
  gamma_known ginv1 (fun _ => 1) (fun _ y => 1 - exp (- y)) LSchechter arg0 /\ lum_proper LSchechter arg0 /\
  exists fuel p y', draw_survey true fuel 10 None true (Some 5%nat) false y = (Ok p, y') /\ p_nobj p = 5%nat.
Proof. exact schechter_drawable. Qed.
Example C71_luminosity_case : forall k, k <> LSchechter -> lum_proper k arg1 /\ gamma_known ginv1 (fun _ => 1) (fun _ y => 1 - exp (- y)) k arg1.
Proof. intros k N. split; [|intros Q; contradiction]. destruct k; unfold lum_proper, arg1; cbn; try exact I; try contradiction; lra. Qed.

Print Assumptions C71_drawn_values.
Print Assumptions C71_survey_values.
Print Assumptions C71_documented_law_partial.
Print Assumptions C71_truncated_log10_normal_refuted.
Print Assumptions C71_declination_refuted.
Print Assumptions C71_luminosities.
Print Assumptions C71_population_luminosities.
