(** Predefined populations with a luminosity distribution given by the user (C68, C69, C77). *)
From Coq Require Import Reals ZArith List String Lra Lia.
From Verif Require Import Base BaseFacts Env ParamModel SelModel SimVarModel DistModel DistSpec AuxModel AuxSpec PopModel SynthModel SynthSpec LibModel LibPopModel LibPopSpec
  RealModel RealSpec RealExamples LumLibModel RunSpec FlatSpec FlatLibSpec RealRunSpec RunExamples SkyModel SkySpec ChosenSpec SkyExamples FlatExamples ChosenExamples.
From Verif Require RealRuns FlatRuns ChosenRuns LibPopProofs RealSize SoftProofs.
Import ListNotations.
Open Scope R_scope.
Open Scope string_scope.
Open Scope list_scope.

Section P.
Variable m : machine.
Notation E := (real_env m).
Hypothesis Q : quad_exact m.
Hypothesis F : fair m.
Variable ginv : R -> R -> R.
Variable gam : R -> R.
Variables (sol rel Om h0 : R) (form : string -> string).
Variable sky : string -> option (list R -> nat -> mc_st m -> res (spvals E) * mc_st m).
Hypothesis usual_sky : forall cls, cls <> "SpiralGalaxyDistribution" -> sky cls = None.
Hypothesis physical : 0 < sol /\ 0 < Om < 1 /\ 0 < h0 /\ 0 <= rel < 1.
Notation fo := (full_lib m ginv gam sol rel Om h0 sky form).
Variable w : world E.
Section One.
Variables (c : popclass) (arg : string -> R) (seed : Z) (rate : bool) (y0 : synth E) (l : lumobj E).
Hypothesis B : build fo w c arg seed (Some l) rate = Ok y0.
Hypothesis NM : fst (documented c) <> milky_way.
Hypothesis HD : snd (documented c) = None.
Hypothesis PD : positive_density (fst (documented c)) arg.
Hypothesis GL : forall n, draws_luminosities (fst l) n.
Lemma given_parts : exists sp, y0 = population_synth w sp (Some l) seed /\ RealRuns.good_space m (fst sp).
Proof.
  revert B NM HD PD. intros H NM' HD' PD'.
  destruct c; cbn in NM'; try congruence; cbn in HD'; try discriminate HD'; cbn [build] in H;
    unfold SphericalPopulation, ZPowerSphericalPopulation, ZPowerCosmoPopulation, SFRPopulation in H;
    match type of H with rbind ?a _ = _ => destruct a as [sp|] eqn:AS; [|discriminate H] end; cbn [rbind] in H; injection H as <-;
    exists sp; (split; [reflexivity|]); destruct PD' as [R0 PD']; cbn in PD'.
  - eapply RealRuns.sphere_good; [..|exact AS]; first [assumption|tauto].
  - eapply RealRuns.zpow_sphere_good; [..|exact AS]; first [assumption|tauto].
  - eapply RealRuns.zpow_cosmo_good; [..|exact AS]; first [assumption|tauto].
  - eapply RealRuns.sfr_good; [..|exact AS]; first [assumption|tauto].
Qed.
Theorem given_drawn prog rl fs l10 n norm : exists fuel p y', draw_survey prog fuel rl fs l10 (Some n) norm y0 = (Ok p, y') /\ p_nobj p = n /\ all_detected p.
Proof. destruct given_parts as (sp & -> & G). now apply RealRuns.population_drawn. Qed.
Variable y : synth E.
Hypothesis ES : y_sp y = y_sp y0.
Hypothesis EL : y_lum y = y_lum y0.
Theorem given_with_samplers prog rl fs l10 n norm : flat y n -> (0 < rl)%nat ->
  exists fuel p y', draw_survey prog fuel rl fs l10 (Some n) norm y = (Ok p, y') /\ p_nobj p = n /\ all_detected p.
Proof.
  intros FL RL. destruct given_parts as (sp & Y & W & SK & D). destruct (D prog n norm (r_seed E (y_seed y))) as (fuel & d' & s' & HD'). exists fuel.
  assert (E1 : y_sp y = fst sp) by (rewrite ES, Y; reflexivity). assert (E2 : y_lum y = Some (fst l)) by (rewrite EL, Y; reflexivity).
  eapply FlatRuns.flat_returns; [exact FL|exact RL|exact E2|apply GL| | |rewrite E1; exact HD']; rewrite E1; [exact W|exact (SK n)].
Qed.
Theorem given_with_selections prog rl (fs : option (V E)) l10 n norm : selective y n -> (forall sg : R, fs = Some sg -> 0 <= sg) -> (0 < rl)%nat ->
  exists fuel p y', draw_survey prog fuel rl fs l10 (Some n) norm y = (Ok p, y') /\ p_nobj p = n /\ length (pa_known (p_args p)) = p_ndet p.
Proof.
  intros SE SG RL. destruct given_parts as (sp & Y & W & SK & D). destruct (D prog n norm (r_seed E (y_seed y))) as (fuel & d' & s' & HD'). exists fuel.
  assert (E1 : y_sp y = fst sp) by (rewrite ES, Y; reflexivity). assert (E2 : y_lum y = Some (fst l)) by (rewrite EL, Y; reflexivity).
  eapply ChosenRuns.selective_returns; [exact SE| |exact RL|exact E2|apply GL| | |rewrite E1; exact HD']; [|rewrite E1; exact W|rewrite E1; exact (SK n)].
  intros sg ->. split; [|reflexivity]. specialize (SG sg eq_refl). cbn. unfold ltb. destruct (Rlt_dec sg 0); [lra|reflexivity].
Qed.
End One.
End P.

(** The populations of SkyExamples.v that are not the Milky Way, with its luminosities. *)
Example slib_sky : forall cls, cls <> "SpiralGalaxyDistribution" -> library_sky mach mgs cls = None.
Proof. intros cls N. unfold library_sky. now apply String.eqb_neq in N as ->. Qed.
Example arg1_positive c : positive_density (fst (documented c)) arg1.
Proof.
  assert (X := arg1_pos). split; [specialize (X "r_max"); lra|]. destruct (String.eqb _ _).
  - assert (X1 := X "r0"). assert (X2 := X "a"). assert (X3 := X "rise"). assert (X4 := X "decay"). assert (X5 := X "peak"). repeat split; lra.
  - specialize (X "Lambda"). lra.
Qed.
Example given_built (w : world (real_env mach)) c seed rate : exists y, build slib w c arg1 seed (Some bright) rate = Ok y.
Proof.
  destruct (LibPopProofs.build_spec (real_env mach) slib w c arg1 seed (Some bright) rate) as [B _]. destruct B as (y & B & _); [|eauto].
  apply LibPopProofs.accepted_in. intros k _. apply (proj2 (RealSize.leb_iff 0 (arg1 k))). assert (X := arg1_pos k). lra.
Qed.
Example given_four c seed rate : snd (documented c) = None -> fst (documented c) <> milky_way ->
  exists y0 y, build slib four c arg1 seed (Some bright) rate = Ok y0 /\ register_all y0 = (Ok tt, y) /\
  y_sp y = y_sp y0 /\ y_lum y = y_lum y0 /\ with_predefined_samplers mach tn0 nu0 (-4) y /\ (forall j, (j < 4)%nat -> part y j).
Proof.
  intros HD NM. destruct (given_built four c seed rate) as (y0 & B).
  edestruct (given_parts mach mach_exact mach_fair ginv1 (fun _ => 1) 1 0 (3 / 10) 1 (fun c => c) (library_sky mach mgs) slib_sky) as (sp & Q & _); [lra|exact B|exact NM|exact HD|apply arg1_positive|].
  exists y0, (with_aux y0 [("x", 0); ("size", 1); ("va", 2); ("d", 3)]%nat). split; [exact B|]. split; [apply registered; now rewrite Q|]. split; [reflexivity|]. split; [reflexivity|]. split.
  - rewrite Q. apply four_predefined; try reflexivity.
    + split; cbn; lia.
    + intros i L. destruct i as [|[|[|[|i]]]]; try reflexivity. lia.
    + split; [reflexivity|]. split; [discriminate|]. intros i [->| ->]; eexists; (split; [reflexivity|]); split; reflexivity.
  - intros j L. now apply four_part.
Qed.
Example given_chosen c seed rate : snd (documented c) = None -> fst (documented c) <> milky_way ->
  exists y y1, build slib chosen c arg1 seed (Some bright) rate = Ok y /\ choose y = (Ok tt, y1) /\ y_sp y1 = y_sp y /\ y_lum y1 = y_lum y /\ selective y1 6.
Proof.
  intros HD NM. destruct (given_built chosen c seed rate) as (y & B).
  edestruct (given_parts mach mach_exact mach_fair ginv1 (fun _ => 1) 1 0 (3 / 10) 1 (fun c => c) (library_sky mach mgs) slib_sky) as (sp & Y & _); [lra|exact B|exact NM|exact HD|apply arg1_positive|].
  assert (CH : exists y1, choose y = (Ok tt, y1) /\ y1 = with_ssel (with_flux y 0%nat true) (Some 1%nat)) by (eexists; split; reflexivity).
  destruct CH as (y1 & CH & Q1). exists y, y1. split; [exact B|]. split; [exact CH|]. split; [rewrite Q1; reflexivity|]. split; [rewrite Q1; reflexivity|].
  rewrite Q1, Y. split; [intros k i []|]. split; [constructor|]. split; [reflexivity|]. split; [constructor|]. split; [discriminate|].
  split; [exists soft; split; [reflexivity|]; apply SoftProofs.ready_decides; [exact mach_bern|exact soft_ready]|].
  split; [eexists; split; [reflexivity|]; split; reflexivity|]. intros k K. injection K as <-. split; [discriminate|]. split; [discriminate|].
  exists shell. split; [reflexivity|]. apply SoftProofs.ready_places. exact shell_ready.
Qed.
