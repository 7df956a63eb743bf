(** The fluxes of the objects of predefined populations (C72). *)
From Coq Require Import Reals ZArith List String Lra Lia.
From Coquelicot Require Import Coquelicot.
From Verif Require Import Base BaseFacts Env ParamModel SelModel SimVarModel DistModel AuxModel PopModel SynthModel LibModel LibGeo LibPopModel LibPopSpec RealModel LumLibModel FluxSpec.
From Verif Require SurveyTop SynthInv SurveyProofs.
Import ListNotations.
Open Scope R_scope.
Open Scope string_scope.

Lemma below (f l d : R) : 0 < d -> f * (4 * PI * (d * d)) < l -> f < l / (4 * PI * (d * d)).
Proof.
  intros D. assert (P := PI_RGT_0). assert (Q : 0 < 4 * PI * (d * d)) by (apply Rmult_lt_0_compat; [lra|now apply Rmult_lt_0_compat]).
  revert Q. generalize (4 * PI * (d * d)). intros K Q X. apply (Rmult_lt_reg_r K); [exact Q|]. replace (l / K * K) with l by (field; lra). exact X.
Qed.

Section P.
Variable m : machine.
Notation E := (real_env m).
Variable ginv : R -> R -> R.
Variable gam : R -> R.
Variables (sol rel Om h0 : R) (sky : string -> option (list R -> nat -> mc_st m -> res (spvals E) * mc_st m)) (form : string -> string) (w : world E).
Notation fo := (full_lib m ginv gam sol rel Om h0 sky form).

Lemma build_flux c arg seed rate (y : synth E) lum : build fo w c arg seed lum rate = Ok y ->
  forall l d, sc_transform (sd_cls (y_sp y)) l d = if cosmological (fst (documented c)) then cosmo_flux sol Om h0 l d else spherical_flux l d.
Proof.
  intros H l d. destruct c; cbn [build] in H;
    unfold ParetoHomogeneousSphericalPopulation, ParetoZPowerSphericalPopulation, ParetoZPowerCosmoPopulation, ParetoSFRPopulation,
      BPLHomogeneousSphericalPopulation, BPLZPowerSphericalPopulation, BPLZPowerCosmoPopulation, BPLSFRPopulation,
      LogNormalHomogeneousSphericalPopulation, LogNormalZPowerSphericalPopulation, LogNormalZPowerCosmoPopulation, LogNormalSFRPopulation,
      Log10NormalHomogeneousSphericalPopulation, Log10NormalZPowerSphericalPopulation, Log10NormalZPowerCosmoPopulation, Log10NormalSFRPopulation,
      SchechterHomogeneousSphericalPopulation, SchechterZPowerSphericalPopulation, SchechterZPowerCosmoPopulation, SchechterSFRPopulation,
      SphericalPopulation, ZPowerSphericalPopulation, ZPowerCosmoPopulation, SFRPopulation, MWRadialPopulation, assign_sp in H;
    repeat (match type of H with rbind ?a _ = _ => let x := fresh "x" in let X := fresh "X" in destruct a as [x|] eqn:X; [|discriminate H] end; cbn [rbind] in H); injection H as <-;
    try reflexivity;
    match goal with X : rbind ?a _ = Ok _ |- _ => destruct a; [|discriminate X]; cbn [rbind] in X; injection X as <- end; reflexivity.
Qed.

Section Y.
Variables (c : popclass) (arg : string -> R) (seed : Z) (rate : bool) (y0 : synth E) (lum : option (lumobj E)).
Hypothesis B : build fo w c arg seed lum rate = Ok y0.
Variables (prog : bool) (fuel rl : nat) (fs : option (V E)) (l10 : bool) (ns : option nat) (norm : bool) (y : synth E) (p : population E) (y' : synth E).
Hypothesis SP : y_sp y = y_sp y0.
Hypothesis H : draw_survey prog fuel rl fs l10 ns norm y = (Ok p, y').
Lemma plain_records : sv_obs (p_lum p) = sv_lat (p_lum p) /\ sv_obs (p_dist p) = sv_lat (p_dist p) /\
  length (sv_lat (p_lum p)) = p_nobj p /\ length (sv_lat (p_dist p)) = p_nobj p /\ length (sv_lat (p_flux p)) = p_nobj p.
Proof.
  destruct (SynthInv.survey_steps _ _ _ _ _ _ _ _ _ _ _ H) as (t & S).
  destruct (SurveyProofs.steps_built _ _ _ _ _ _ _ _ _ _ _ _ S) as (a & BU & _).
  destruct (SurveyProofs.bu_lum _ _ _ BU) as [L1 L2]. destruct (SurveyProofs.bu_dist _ _ _ BU) as [D1 D2]. destruct (SurveyProofs.bu_flux _ _ _ BU) as (F1 & F2 & F3).
  destruct (SurveyProofs.bu_counts _ _ _ BU) as (N & _). rewrite L1, D1, F1. cbn [sv_obs sv_lat].
  split; [reflexivity|]. split; [reflexivity|]. split; [exact (eq_trans L2 (eq_sym N))|]. split; [exact (eq_trans D2 (eq_sym N))|exact (eq_trans F3 (eq_sym N))].
Qed.
Lemma every_object i : (i < p_nobj p)%nat -> exists l d f, object m p i l d f.
Proof.
  destruct plain_records as (_ & _ & L & D & F). intros I.
  assert (X : forall T (x : list T), length x = p_nobj p -> exists v, nth_error x i = Some v).
  { intros T x Q. destruct (nth_error x i) eqn:N; [eauto|]. apply nth_error_None in N. rewrite Q in N. exfalso. now apply (Nat.lt_irrefl i), (Nat.lt_le_trans _ _ _ I). }
  destruct (X _ _ L) as (l & ?). destruct (X _ _ D) as (d & ?). destruct (X _ _ F) as (f & ?). exists l, d, f. now split.
Qed.
Lemma object_flux i l d f : object m p i l d f ->
  f = if cosmological (fst (documented c)) then cosmo_flux sol Om h0 l d else spherical_flux l d.
Proof.
  destruct plain_records as (QL & QD & _).
  intros (L & D & F). destruct (SurveyTop.latent_flux _ _ _ _ _ _ _ _ _ _ _ H i f F) as (l' & d' & L' & D' & ->).
  rewrite QL in L'. rewrite QD in D'. assert (l' = l) by congruence. assert (d' = d) by congruence. subst. rewrite SP. apply (build_flux _ _ _ _ _ _ B).
Qed.

Theorem flux_spread : spread_over m (fun d => if cosmological (fst (documented c)) then luminosity_distance sol Om h0 d else d + 1) p.
Proof.
  intros i l d f O. rewrite (object_flux _ _ _ _ O). destruct (cosmological _).
  - unfold cosmo_flux. f_equal. ring.
  - unfold spherical_flux. cbv zeta. f_equal. ring.
Qed.
Theorem flux_proportional : proportional m p.
Proof.
  intros i j l1 l2 d f1 f2 O1 O2. rewrite (flux_spread _ _ _ _ O1), (flux_spread _ _ _ _ O2). unfold Rdiv. ring.
Qed.
Theorem flux_dims : 0 < sol -> 0 < Om < 1 -> 0 < h0 -> dims_with_distance m p.
Proof.
  intros HS HO HH i j l1 l2 d1 d2 f1 f2 O1 O2 HL HD. rewrite (object_flux _ _ _ _ O1), (object_flux _ _ _ _ O2). destruct (cosmological _).
  - clear - HS HO HH HL HD. assert (C2 : 0 < cosmo_flux sol Om h0 l2 d2) by (apply cf_pos; lra). split; [exact C2|].
    apply Rle_lt_trans with (cosmo_flux sol Om h0 l1 d2); [|apply cf_decreasing; lra].
    assert (C1 : 0 < cosmo_flux sol Om h0 1 d2) by (apply cf_pos; lra). assert (L : forall l, cosmo_flux sol Om h0 l d2 = l * cosmo_flux sol Om h0 1 d2) by (intros l; unfold cosmo_flux; unfold Rdiv; ring).
    rewrite (L l1), (L l2). apply Rmult_le_compat_r; lra.
  - clear - HL HD. assert (C2 : 0 < spherical_flux l2 d2) by (apply sf_pos; lra). split; [exact C2|].
    apply Rle_lt_trans with (spherical_flux l1 d2); [|apply sf_decreasing; lra].
    assert (C1 : 0 < spherical_flux 1 d2) by (apply sf_pos; lra). assert (L : forall l, spherical_flux l d2 = l * spherical_flux 1 d2) by (intros l; unfold spherical_flux; cbv zeta; unfold Rdiv; ring).
    rewrite (L l1), (L l2). apply Rmult_le_compat_r; lra.
Qed.
Theorem flux_small : cosmological (fst (documented c)) = false -> forall i l d f, object m p i l d f -> 0 < l -> 0 <= d -> f * (4 * PI * (d * d)) < l.
Proof.
  intros C i l d f O HL HD. rewrite (object_flux _ _ _ _ O), C. replace (d * d) with (d ^ 2) by ring. now apply sf_less.
Qed.
End Y.
End P.
