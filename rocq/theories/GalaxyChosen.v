(** Milky Way populations with selections (C77). *)
From Coq Require Import Reals ZArith List String Lra Lia.
From Verif Require Import Base BaseFacts Env ParamModel SelModel SelSpec SimVarModel DistModel DistSpec AuxModel AuxSpec PopModel SynthModel SynthSpec LibModel LibPopModel LibPopSpec
  RealModel RealSpec RealExamples LumLibModel RunSpec FlatSpec RealRunSpec RunExamples SkyModel SkySpec ChosenSpec SoftSpec SoftProofs SkyExamples ChosenExamples.
From Verif Require RealRuns MilkyWay ChosenRuns LibPopProofs RealSize.
Import ListNotations.
Open Scope R_scope.
Open Scope string_scope.
Open Scope list_scope.

Section P.
Variable m : machine.
Notation E := (real_env m).
Variable gs : galaxy_sources m.
Variable ginv : R -> R -> R.
Variable gam : R -> R.
Variables (sol rel Om h0 : R) (form : string -> string).
Theorem galaxy_with_selections (w : world E) :
  quad_exact m -> fair m -> (forall g, (fst (gs_arm m gs g) < 4)%nat) ->
  forall (arg : string -> R) seed rate prog rl (fs : option (V E)) l10 n norm (y0 y : synth E) l, galaxy_density arg ->
  build (full_lib m ginv gam sol rel Om h0 (library_sky m gs) form) w P_MWRadialPopulation arg seed (Some l) rate = Ok y0 -> (forall n, draws_luminosities (fst l) n) ->
  y_sp y = y_sp y0 -> y_lum y = y_lum y0 -> selective y n -> (forall sg : R, fs = Some sg -> 0 <= sg) -> (0 < rl)%nat ->
  exists fuel p y', draw_survey prog fuel rl fs l10 (Some n) norm y = (Ok p, y') /\ p_nobj p = n /\ length (pa_known (p_args p)) = p_ndet p.
Proof.
  intros Q F AR arg seed rate prog rl fs l10 n norm y0 y l (H1 & H2 & H3 & H4) B GL ES EL SE SG RL.
  destruct (MilkyWay.galaxy_parts m gs ginv gam sol rel Om h0 form w arg seed rate (Some l) y0 B) as (sp & A & ->).
  destruct (MilkyWay.galaxy_good m Q gs ginv gam sol rel Om h0 form _ _ _ _ _ _ H1 H2 H3 H4 sp A F AR) as (W & SK & D).
  destruct (D prog n norm (r_seed E (y_seed y))) as (fuel & d' & s' & HD'). exists fuel.
  change (y_sp (population_synth w sp (Some l) seed)) with (fst sp) in ES.
  change (y_lum (population_synth w sp (Some l) seed)) with (Some (fst l)) in EL.
  eapply ChosenRuns.selective_returns; [exact SE| |exact RL|exact EL|apply GL| | |rewrite ES; exact HD']; [|rewrite ES; exact W|rewrite ES; exact (SK n)].
  intros sg ->. split; [|reflexivity]. specialize (SG sg eq_refl). cbn. unfold ltb. destruct (Rlt_dec sg 0); [lra|reflexivity].
Qed.
End P.

(** The Milky Way of SkyExamples.v with the selections of ChosenExamples.v. *)
Example wide_chosen seed rate : exists y y1 fuel p y2, build slib chosen P_MWRadialPopulation wide seed (Some bright) rate = Ok y /\ choose y = (Ok tt, y1) /\ selective y1 6 /\
  draw_survey true fuel 10 (Some (1 / 10) : option (V (real_env mach))) true (Some 6%nat) false y1 = (Ok p, y2).
Proof.
  destruct (LibPopProofs.build_spec (real_env mach) slib chosen P_MWRadialPopulation wide seed (Some bright) rate) as [B _]. destruct B as (y & B & _).
  { apply LibPopProofs.accepted_in. intros k _. apply (proj2 (RealSize.leb_iff 0 (wide k))). unfold wide. destruct (String.eqb k "r_max"); lra. }
  destruct (MilkyWay.galaxy_parts mach mgs ginv1 (fun _ => 1) 1 0 (3 / 10) 1 (fun c => c) chosen wide seed rate (Some bright) y B) as (sp & _ & Y).
  assert (CH : exists y1, choose y = (Ok tt, y1) /\ y1 = with_ssel (with_flux y 0%nat true) (Some 1%nat)) by (eexists; split; reflexivity).
  destruct CH as (y1 & CH & Q1).
  assert (SE : selective y1 6).
  { rewrite Q1, Y. split; [intros k i []|]. split; [constructor|]. split; [reflexivity|]. split; [constructor|]. split; [discriminate|].
    split; [exists soft; split; [reflexivity|]; apply ready_decides; [exact mach_bern|exact soft_ready]|].
    split; [eexists; split; [reflexivity|]; split; reflexivity|]. intros k K. injection K as <-. split; [discriminate|]. split; [discriminate|].
    exists shell. split; [reflexivity|]. apply ready_places. exact shell_ready. }
  assert (ES : y_sp y1 = y_sp y /\ y_lum y1 = y_lum y) by (rewrite Q1; split; reflexivity).
  destruct (galaxy_with_selections mach mgs ginv1 (fun _ => 1) 1 0 (3 / 10) 1 (fun c => c) chosen mach_exact mach_fair mgs_arm
     wide seed rate true 10%nat (Some (1 / 10) : option (V (real_env mach))) true 6%nat false y y1 bright wide_dense B bright_drawn (proj1 ES) (proj2 ES) SE) as (fuel & p & y2 & H & _).
  { intros sg X. injection X as <-. lra. }
  { lia. }
  exists y, y1, fuel, p, y2. split; [exact B|]. split; [exact CH|]. split; [exact SE|]. exact H.
Qed.
