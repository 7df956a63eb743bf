(** Milky Way populations with auxiliary samplers (C69). *)
From Coq Require Import Reals ZArith List String Lra Lia.
From Verif Require Import Base BaseFacts Env ParamModel SelModel SimVarModel DistModel DistSpec AuxModel AuxSpec PopModel SynthModel SynthSpec LibModel LibPopModel LibPopSpec
  RealModel RealSpec RealExamples LumLibModel RunSpec FlatSpec FlatLibSpec RealRunSpec RunExamples SkyModel SkySpec SkyExamples FlatExamples.
From Verif Require RealRuns FlatRuns FlatLib MilkyWay LibPopProofs RealSize.
Import ListNotations.
Open Scope R_scope.
Open Scope string_scope.
Open Scope list_scope.

Section P.
Variable m : machine.
Notation E := (real_env m).
Variable gs : galaxy_sources m.
Variable ginv : R -> R -> R.
Variable gam : R -> R.
Variables (sol rel Om h0 : R) (form : string -> string).
Theorem galaxy_with_samplers (w : world E) :
  quad_exact m -> fair m -> (forall g, (fst (gs_arm m gs g) < 4)%nat) ->
  forall (arg : string -> R) seed rate prog rl (fs : option (V E)) l10 n norm (y0 y : synth E) l, galaxy_density arg ->
  build (full_lib m ginv gam sol rel Om h0 (library_sky m gs) form) w P_MWRadialPopulation arg seed (Some l) rate = Ok y0 -> (forall n, draws_luminosities (fst l) n) ->
  y_sp y = y_sp y0 -> y_lum y = y_lum y0 -> flat y n -> (0 < rl)%nat ->
  exists fuel p y', draw_survey prog fuel rl fs l10 (Some n) norm y = (Ok p, y') /\ p_nobj p = n /\ all_detected p.
Proof.
  intros Q F AR arg seed rate prog rl fs l10 n norm y0 y l (H1 & H2 & H3 & H4) B GL ES EL FL RL.
  destruct (MilkyWay.galaxy_parts m gs ginv gam sol rel Om h0 form w arg seed rate (Some l) y0 B) as (sp & A & ->).
  destruct (MilkyWay.galaxy_good m Q gs ginv gam sol rel Om h0 form _ _ _ _ _ _ H1 H2 H3 H4 sp A F AR) as (W & SK & D).
  destruct (D prog n norm (r_seed E (y_seed y))) as (fuel & d' & s' & HD'). exists fuel.
  change (y_sp (population_synth w sp (Some l) seed)) with (fst sp) in ES.
  change (y_lum (population_synth w sp (Some l) seed)) with (Some (fst l)) in EL.
  eapply FlatRuns.flat_returns; [exact FL|exact RL|exact EL|apply GL| | |rewrite ES; exact HD']; rewrite ES; [exact W|exact (SK n)].
Qed.
End P.

(** The Milky Way of SkyExamples.v with the four samplers of FlatExamples.v. *)
Example wide_four seed rate : exists y0 y, build slib four P_MWRadialPopulation wide seed (Some bright) rate = Ok y0 /\ register_all y0 = (Ok tt, y) /\
  y_sp y = y_sp y0 /\ y_lum y = y_lum y0 /\ with_predefined_samplers mach tn0 nu0 (-4) y /\ (forall j, (j < 4)%nat -> part y j).
Proof.
  destruct (LibPopProofs.build_spec (real_env mach) slib four P_MWRadialPopulation wide seed (Some bright) rate) as [B _]. destruct B as (y0 & B & _).
  { apply LibPopProofs.accepted_in. intros k _. apply (proj2 (RealSize.leb_iff 0 (wide k))). unfold wide. destruct (String.eqb k "r_max"); lra. }
  destruct (MilkyWay.galaxy_parts mach mgs ginv1 (fun _ => 1) 1 0 (3 / 10) 1 (fun c => c) four wide seed rate (Some bright) y0 B) as (sp & _ & Q).
  exists y0, (with_aux y0 [("x", 0); ("size", 1); ("va", 2); ("d", 3)]%nat). split; [exact B|]. split; [apply registered; now rewrite Q|]. split; [reflexivity|]. split; [reflexivity|]. split.
  - rewrite Q. apply four_predefined; try reflexivity.
    + split; cbn; lia.
    + intros i L. destruct i as [|[|[|[|i]]]]; try reflexivity. lia.
    + split; [reflexivity|]. split; [discriminate|]. intros i [->| ->]; eexists; (split; [reflexivity|]); split; reflexivity.
  - intros j L. now apply four_part.
Qed.
