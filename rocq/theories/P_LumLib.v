(** C67: the luminosities of the predefined distributions; C51 for Schechter's. *)
From Coq Require Import Reals ZArith List String Lra.
From Coquelicot Require Import Coquelicot.
From Verif Require Import Base Env ParamModel SelModel SimVarModel DistModel DistSpec AuxModel PopModel SynthModel LibPopModel LibPopSpec LibModel LibSpec RealModel RealExamples AuxLibModel LumLibModel LumLibSpec RunExamples.
From Verif Require LumLibProofs LumPop LumSchechter LibPopProofs.
Import ListNotations.
Open Scope R_scope.
Open Scope string_scope.

Section P.
Variable m : machine.
Notation E := (real_env m).
Variable ginv : R -> R -> R.
Variable gam : R -> R.
Variables (sol rel Om h0 : R) (sky : string -> option (list R -> nat -> mc_st m -> res (spvals E) * mc_st m)) (form : string -> string).
Notation fo := (full_lib m ginv gam sol rel Om h0 sky form).
(** Contracts of [np.random.uniform] and [scipy.special.gammaincinv]. *)
Hypothesis U : forall g, 0 <= fst (mc_unif m 0 1 g) < 1.
Hypothesis G : forall s x, 0 < s -> 0 < x <= 1 -> 0 <= ginv s x.

(** A population whose luminosities are drawn from an instance of a predefined class
    has one luminosity per object, all in the range of the class. *)
Theorem C67_luminosities_in_range : forall prog fuel rl fs l10 ns norm (y : synth E) pop y' c l p,
  draw_survey prog fuel rl fs l10 ns norm y = (Ok pop, y') -> y_der y = None -> y_lum y = Some l ->
  ld_cls l = ld_cls (fst (lum_object fo c)) -> lum_parameters m l p -> lum_sensible c p ->
  Forall (lum_range c p) (sv_lat (p_lum pop)) /\ length (sv_lat (p_lum pop)) = p_nobj pop /\ sv_obs (p_lum pop) = sv_lat (p_lum pop).
Proof. exact (LumLibProofs.survey_luminosities m ginv gam sol rel Om h0 sky form U G). Qed.
(** In particular the predefined populations, whatever selections and auxiliary
    quantities were added. *)
Theorem C67_predefined_populations w : forall c (arg : string -> R) seed lum rate (y0 y : synth E) d k prog fuel rl fs l10 ns norm pop y',
  build fo w c arg seed lum rate = Ok y0 -> snd (documented c) = Some d -> lm_type d = class_name k -> lum_sensible k arg ->
  y_lum y = y_lum y0 -> y_der y = None ->
  draw_survey prog fuel rl fs l10 ns norm y = (Ok pop, y') ->
  Forall (lum_range k arg) (sv_lat (p_lum pop)) /\ length (sv_lat (p_lum pop)) = p_nobj pop /\ sv_obs (p_lum pop) = sv_lat (p_lum pop).
Proof. exact (LumPop.population_luminosities m ginv gam sol rel Om h0 sky form w U G). Qed.

(** The documented minimum of Schechter luminosities is not one: below it is any
    interval, with positive probability. *)
Theorem C67_schechter_minimum_refuted : forall Lmin alpha inc a b, 0 < a < b -> b < Lmin ->
  incomplete_gamma (1 + alpha) (gam (1 + alpha)) inc (ginv (1 + alpha)) ->
  (forall size g, lc_draw (ld_cls (fst (lum_object fo LSchechter))) [Lmin; alpha] size g =
     (let (u, g') := rdraws (mc_unif m 0 1) size g in (Ok (map (schechter_draw ginv Lmin alpha) u), g'))) /\
  exists p, 0 < p /\ open_uniform_prob (schechter_draw ginv Lmin alpha) a b p.
Proof.
  intros Lmin alpha inc a b HA HB IG. split; [reflexivity|].
  destruct (LumSchechter.schechter_law Lmin alpha gam ginv inc a b) as (p & I & O); [lra|lra|exact IG|]. exists p. split; [|exact O].
  destruct O as (u1 & u2 & _ & _ & <- & _). apply (is_RInt_unique (V := R_CompleteNormedModule)) in I. rewrite <- I.
  exact (LumSchechter.schechter_positive Lmin alpha gam a b ltac:(lra) ltac:(lra) (ig_gam _ _ _ _ IG)).
Qed.
End P.

(** C51.  Schechter luminosities have the density [phi]. *)
Theorem C51_schechter : forall Lmin alpha gam ginv inc a b, 0 < Lmin -> 0 < a <= b ->
  incomplete_gamma (1 + alpha) (gam (1 + alpha)) inc (ginv (1 + alpha)) ->
  exists p, is_RInt (schechter_phi gam Lmin alpha) a b p /\ open_uniform_prob (schechter_draw ginv Lmin alpha) a b p.
Proof. exact LumSchechter.schechter_law. Qed.
Example C51_schechter_applies : incomplete_gamma (1 + 0) 1 (fun y => 1 - exp (- y)) (ginv1 (1 + 0)).
Proof. rewrite Rplus_0_r. exact gamma_one. Qed.
(** Populations meeting the hypotheses of C67, for each of the twenty classes with a
    given luminosity class. *)
Example C67_applies : (forall g, 0 <= fst (mc_unif mach 0 1 g) < 1) /\ (forall s x, 0 < s -> 0 < x <= 1 -> 0 <= ginv1 s x) /\
  forall c seed rate d k, snd (documented c) = Some d -> fst (documented c) <> milky_way -> lm_type d = class_name k ->
  lum_sensible k arg1 /\ exists y, build glib nothing c arg1 seed None rate = Ok y /\ y_der y = None /\
  exists fuel p y', draw_survey true fuel 10 None true (Some 5%nat) false y = (Ok p, y') /\ p_nobj p = 5%nat.
Proof.
  split; [exact mach_unit|]. split; [exact ginv1_nonneg|]. intros c seed rate d k HD NM HK.
  destruct (all_drawable c seed rate d HD NM) as (y & B & _ & _ & fuel & p & y' & H & N & _). split.
  - assert (X := arg1_pos). destruct k; cbn; try easy; [specialize (X "Lmin"); lra|unfold arg1; cbn; repeat split; lra|assert (X1 := X "Lmin"); assert (X2 := X "alpha"); lra].
  - exists y. split; [exact B|]. split; [|exists fuel, p, y'; auto].
    destruct (LibPopProofs.build_spec (real_env mach) glib nothing c arg1 seed None rate) as [BS BF]. rewrite B in BS, BF.
    match type of BS with ?b = true -> _ => destruct b; [|discriminate (BF eq_refl)] end.
    destruct (BS eq_refl) as (y1 & Y1 & AD). injection Y1 as <-. apply AD.
Qed.

Print Assumptions C67_luminosities_in_range.
Print Assumptions C67_predefined_populations.
Print Assumptions C67_schechter_minimum_refuted.
Print Assumptions C51_schechter.
