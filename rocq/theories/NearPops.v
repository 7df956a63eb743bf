(** The law of the distances of the predefined cosmological populations (C70). *)
From Coq Require Import Reals ZArith List String Lra Lia.
From Coquelicot Require Import Coquelicot.
From Verif Require Import Base BaseFacts Env ParamModel DistModel SimVarModel DistSpec SizeSpec AuxModel PopModel SynthModel SynthSpec RealModel RealSpec LibModel LibPopModel LibPopSpec LumLibModel LawSpec NearSpec.
From Verif Require RealRuns NearLaw.
Import ListNotations.
Open Scope R_scope.
Open Scope string_scope.

Section Pops.
Variable m : machine.
Notation E := (real_env m).
Hypothesis Q : quad_exact m.
Variable ginv : R -> R -> R.
Variable gam : R -> R.
Variables (sol rel Om h0 : R) (form : string -> string) (w : world E).
Hypotheses (HS : 0 < sol) (HO : 0 < Om < 1) (HH : 0 < h0) (HR : 0 <= rel < 1).
Notation fo := (full_lib m ginv gam sol rel Om h0 (fun _ => None) form).

Ltac wf N := split; [|split]; clear - m;
  [ intros k1 k2 d1 d2; cbn [dget]; intros H1 H2 N1 N2; cbn in H1, H2;
    repeat match type of H1 with context [String.eqb k1 ?s] => destruct (String.eqb_spec k1 s); [injection H1 as <-; try discriminate N1|] end; try discriminate;
    repeat match type of H2 with context [String.eqb k2 ?s] => destruct (String.eqb_spec k2 s); [injection H2 as <-; try discriminate N2|] end; try discriminate; congruence
  | intros k Hk; cbn in Hk; injection Hk as <-; eexists; split; reflexivity
  | let e := fresh in let HH := fresh in intros e HH; cbn in HH; injection HH as <-; reflexivity ].
Lemma zpow_made rate L delta rm d : 0 <= L -> 0 < rm -> assign_sp (ZPowerCosmoDistribution fo (Some rate)) [("Lambda", L); ("r_max", rm); ("delta", delta)] = Ok d ->
  instance m (sd_cls (fst (ZPowerCosmoDistribution fo (Some rate)))) rm (fst d) /\ reads m (fst d) "Lambda" L /\ reads m (fst d) "delta" delta /\ sc_sky (sd_cls (fst d)) = None.
Proof.
  intros HL HR0. unfold assign_sp. cbn. rewrite !RealRuns.le0' by lra. cbn. intros [= <-]. split; [|split; [reflexivity|split; reflexivity]].
  split; [reflexivity|]. split; [wf tt|]. split; [exact HR0|reflexivity].
Qed.
Lemma sfr_made rate r0 a rise decay peak rm d : 0 <= r0 -> 0 <= a -> 0 <= peak -> 0 < rm ->
  assign_sp (SFRDistribution fo (Some rate)) [("r0", r0); ("a", a); ("rise", rise); ("decay", decay); ("peak", peak); ("r_max", rm)] = Ok d ->
  instance m (sd_cls (fst (SFRDistribution fo (Some rate)))) rm (fst d) /\ reads m (fst d) "r0" r0 /\ reads m (fst d) "a" a /\ reads m (fst d) "rise" rise /\
  reads m (fst d) "decay" decay /\ reads m (fst d) "peak" peak /\ sc_sky (sd_cls (fst d)) = None.
Proof.
  intros H0 H1 H2 HR0. unfold assign_sp. cbn. rewrite !RealRuns.le0' by lra. cbn. intros [= <-]. split; [|repeat split; reflexivity].
  split; [reflexivity|]. split; [wf tt|]. split; [exact HR0|reflexivity].
Qed.
Ltac opened H := cbn [build] in H;
  unfold ParetoZPowerCosmoPopulation, BPLZPowerCosmoPopulation, LogNormalZPowerCosmoPopulation, Log10NormalZPowerCosmoPopulation, SchechterZPowerCosmoPopulation,
    ParetoSFRPopulation, BPLSFRPopulation, LogNormalSFRPopulation, Log10NormalSFRPopulation, SchechterSFRPopulation, ZPowerCosmoPopulation, SFRPopulation in H;
  repeat (match type of H with rbind ?a _ = _ => let x := fresh "x" in let X := fresh "X" in destruct a as [x|] eqn:X; [|discriminate H] end; cbn [rbind] in H); injection H as <-.
Lemma zpow_part c arg seed rate (y : synth E) lum : build fo w c arg seed lum rate = Ok y -> fst (documented c) = zpow_cosmo ->
  exists sp, y_sp y = fst sp /\ assign_sp (ZPowerCosmoDistribution fo (Some rate)) [("Lambda", arg "Lambda"); ("r_max", arg "r_max"); ("delta", arg "delta")] = Ok sp.
Proof. intros H D. destruct c; try discriminate D; opened H; eexists; split; reflexivity. Qed.
Lemma sfr_part c arg seed rate (y : synth E) lum : build fo w c arg seed lum rate = Ok y -> fst (documented c) = sfr ->
  exists sp, y_sp y = fst sp /\ assign_sp (SFRDistribution fo (Some rate)) [("r0", arg "r0"); ("a", arg "a"); ("rise", arg "rise"); ("decay", arg "decay"); ("peak", arg "peak"); ("r_max", arg "r_max")] = Ok sp.
Proof. intros H D. destruct c; try discriminate D; opened H; eexists; split; reflexivity. Qed.

Theorem zpow_populations c arg seed rate (y : synth E) lum : build fo w c arg seed lum rate = Ok y -> fst (documented c) = zpow_cosmo ->
  0 <= arg "Lambda" -> 0 < arg "r_max" -> forall eps,
  let f := dens_zpow_cosmo sol rel Om h0 (Some rate) (arg "Lambda") (arg "delta") in varies_by eps f (arg "r_max") ->
  sc_sky (sd_cls (y_sp y)) = None /\ draws_nearly_follow m eps (y_sp y) f (arg "r_max") /\ surveys_nearly_follow m eps (y_sp y) f (arg "r_max").
Proof.
  intros H D HL HR0 eps f V. destruct (zpow_part _ _ _ _ _ _ H D) as (sp & -> & A). destruct (zpow_made _ _ _ _ _ HL HR0 A) as (I & RL & RD & SK). split; [exact SK|].
  exact (NearLaw.zpow_cosmo_near m Q sol rel Om h0 _ _ _ form HS HO HH HR (Some rate) _ _ _ _ I RL RD HL eps V).
Qed.
Theorem sfr_populations c arg seed rate (y : synth E) lum : build fo w c arg seed lum rate = Ok y -> fst (documented c) = sfr ->
  0 <= arg "r0" -> 0 <= arg "a" -> 0 <= arg "rise" -> 0 < arg "a" + arg "rise" -> 0 < arg "decay" -> 0 < arg "peak" -> 0 < arg "r_max" -> forall eps,
  let f := dens_sfr sol rel Om h0 (Some rate) (arg "r0") (arg "a") (arg "rise") (arg "decay") (arg "peak") in varies_by eps f (arg "r_max") ->
  sc_sky (sd_cls (y_sp y)) = None /\ draws_nearly_follow m eps (y_sp y) f (arg "r_max") /\ surveys_nearly_follow m eps (y_sp y) f (arg "r_max").
Proof.
  intros H D H0 H1 H2 H3 H4 H5 HR0 eps f V. destruct (sfr_part _ _ _ _ _ _ H D) as (sp & -> & A).
  destruct (sfr_made _ _ _ _ _ _ _ _ H0 H1 (Rlt_le _ _ H5) HR0 A) as (I & R1 & R2 & R3 & R4 & R5 & SK). split; [exact SK|].
  exact (NearLaw.sfr_near m Q sol rel Om h0 _ _ _ form HS HO HH HR (Some rate) _ _ _ _ _ _ _ I R1 R2 R3 R4 R5 H0 H1 H2 H3 H4 H5 eps V).
Qed.
End Pops.
