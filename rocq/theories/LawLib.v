(** The law of the distances of the predefined spherical populations. *)
From Coq Require Import Reals ZArith List String Lra Lia.
From Coquelicot Require Import Coquelicot.
From Verif Require Import Base BaseFacts Env ParamModel DistModel SimVarModel DistSpec SizeSpec AuxModel PopModel SynthModel SynthSpec RealModel RealSpec LibModel LibPopModel LibPopSpec LumLibModel LawSpec Law.
From Verif Require RealRuns.
Import ListNotations.
Open Scope R_scope.
Open Scope string_scope.

(** Densities that agree are followed alike. *)
Lemma follows_ext (f f' F : R -> R) (H rm : R) : (forall r, 0 <= r -> f r = f' r) -> follows f F H rm -> follows f' F H rm.
Proof.
  intros Q (c & P & A). exists c. split; [exact P|]. intros a b L. rewrite (RInt_ext (V := R_CompleteNormedModule) f' f); [now apply A|].
  intros x Hx. rewrite Rmin_left in Hx by lra. symmetry. apply Q. lra.
Qed.
Lemma all_ext m d (f f' : R -> R) rm : (forall r, 0 <= r -> f r = f' r) ->
  draws_follow m d f rm /\ surveys_follow m d f rm -> draws_follow m d f' rm /\ surveys_follow m d f' rm.
Proof.
  intros Q [A B]. split.
  - intros progress fuel size normalize d' s s' NP H. destruct (A _ _ _ _ _ _ _ NP H) as (rs & F & h & H1 & H2 & H3 & H4). exists rs, F, h. eauto using follows_ext.
  - intros progress fuel rl fs l10 ns normalize y p y' NP Y SK NV H. destruct (B _ _ _ _ _ _ _ _ _ _ NP Y SK NV H) as (F & h & s & s' & H1 & H2 & H3 & H4).
    exists F, h, s, s'. eauto 10 using follows_ext.
Qed.
Lemma sphere_eq L r : dens_sphere L r = L * (4 * PI * r ^ 2).
Proof. unfold dens_sphere, sphere_volume. field. Qed.
Lemma zpow_eq L delta r : dens_zpow_sphere L delta r = L * Rpower (1 + r) delta * (4 * PI * r ^ 2).
Proof. unfold dens_zpow_sphere, sphere_volume. rewrite (Rplus_comm 1 r). field. Qed.
Lemma flatland_eq L r : dens_flatland L r = L.
Proof. unfold dens_flatland. field. Qed.

Section Pops.
Variable m : machine.
Notation E := (real_env m).
Hypothesis Q : quad_exact m.
Variable ginv : R -> R -> R.
Variable gam : R -> R.
Variables (sol rel Om h0 : R) (form : string -> string) (w : world E).
Notation fo := (full_lib m ginv gam sol rel Om h0 (fun _ => None) form).

Ltac wf N := split; [|split]; clear - m;
  [ intros k1 k2 d1 d2; cbn [dget]; intros H1 H2 N1 N2; cbn in H1, H2;
    repeat match type of H1 with context [String.eqb k1 ?s] => destruct (String.eqb_spec k1 s); [injection H1 as <-; try discriminate N1|] end; try discriminate;
    repeat match type of H2 with context [String.eqb k2 ?s] => destruct (String.eqb_spec k2 s); [injection H2 as <-; try discriminate N2|] end; try discriminate; congruence
  | intros k Hk; cbn in Hk; injection Hk as <-; eexists; split; reflexivity
  | let e := fresh in let HH := fresh in intros e HH; cbn in HH; injection HH as <-; reflexivity ].
Lemma sphere_made L rm d : 0 <= L -> 0 < rm -> assign_sp (ConstantSphericalDistribution fo None) [("Lambda", L); ("r_max", rm)] = Ok d ->
  instance m (sd_cls (fst (ConstantSphericalDistribution fo None))) rm (fst d) /\ reads m (fst d) "Lambda" L /\ sc_sky (sd_cls (fst d)) = None.
Proof.
  intros HL HR. unfold assign_sp. cbn. rewrite !RealRuns.le0' by lra. cbn. intros [= <-]. split; [|split; reflexivity].
  split; [reflexivity|]. split; [wf tt|]. split; [exact HR|reflexivity].
Qed.
Lemma zpow_made L delta rm d : 0 <= L -> 0 < rm -> assign_sp (ZPowerSphericalDistribution fo None) [("Lambda", L); ("r_max", rm); ("delta", delta)] = Ok d ->
  instance m (sd_cls (fst (ZPowerSphericalDistribution fo None))) rm (fst d) /\ reads m (fst d) "Lambda" L /\ reads m (fst d) "delta" delta /\ sc_sky (sd_cls (fst d)) = None.
Proof.
  intros HL HR. unfold assign_sp. cbn. rewrite !RealRuns.le0' by lra. cbn. intros [= <-]. split; [|split; [reflexivity|split; reflexivity]].
  split; [reflexivity|]. split; [wf tt|]. split; [exact HR|reflexivity].
Qed.
(** The spatial part of each population. *)
Ltac opened H := cbn [build] in H;
  unfold ParetoHomogeneousSphericalPopulation, ParetoZPowerSphericalPopulation,
      BPLHomogeneousSphericalPopulation, BPLZPowerSphericalPopulation,
      LogNormalHomogeneousSphericalPopulation, LogNormalZPowerSphericalPopulation,
      Log10NormalHomogeneousSphericalPopulation, Log10NormalZPowerSphericalPopulation,
      SchechterHomogeneousSphericalPopulation, SchechterZPowerSphericalPopulation,
      SphericalPopulation, ZPowerSphericalPopulation in H;
  repeat (match type of H with rbind ?a _ = _ => let x := fresh "x" in let X := fresh "X" in destruct a as [x|] eqn:X; [|discriminate H] end; cbn [rbind] in H); injection H as <-.
Lemma sphere_part c arg seed rate (y : synth E) lum : build fo w c arg seed lum rate = Ok y -> fst (documented c) = sphere ->
  exists sp, y_sp y = fst sp /\ assign_sp (ConstantSphericalDistribution fo None) [("Lambda", arg "Lambda"); ("r_max", arg "r_max")] = Ok sp.
Proof. intros H D. destruct c; try discriminate D; opened H; eexists; split; reflexivity. Qed.
Lemma zpow_part c arg seed rate (y : synth E) lum : build fo w c arg seed lum rate = Ok y -> fst (documented c) = zpow_sphere ->
  exists sp, y_sp y = fst sp /\ assign_sp (ZPowerSphericalDistribution fo None) [("Lambda", arg "Lambda"); ("r_max", arg "r_max"); ("delta", arg "delta")] = Ok sp.
Proof. intros H D. destruct c; try discriminate D; opened H; eexists; split; reflexivity. Qed.

Theorem sphere_populations c arg seed rate (y : synth E) lum : build fo w c arg seed lum rate = Ok y -> fst (documented c) = sphere ->
  0 <= arg "Lambda" -> 0 < arg "r_max" ->
  let f := fun r => arg "Lambda" * (4 * PI * r ^ 2) in
  sc_sky (sd_cls (y_sp y)) = None /\ draws_follow m (y_sp y) f (arg "r_max") /\ surveys_follow m (y_sp y) f (arg "r_max").
Proof.
  intros H D HL HR f. destruct (sphere_part _ _ _ _ _ _ H D) as (sp & -> & A). destruct (sphere_made _ _ _ HL HR A) as (I & RL & SK). split; [exact SK|].
  apply (all_ext _ _ (dens_sphere (arg "Lambda"))); [intros r _; apply sphere_eq|].
  exact (sphere_follows m Q sol rel Om h0 _ _ _ form None _ _ _ I RL HL).
Qed.
Theorem zpow_populations c arg seed rate (y : synth E) lum : build fo w c arg seed lum rate = Ok y -> fst (documented c) = zpow_sphere ->
  0 <= arg "Lambda" -> 0 < arg "r_max" -> -2 <= arg "delta" ->
  let f := fun r => arg "Lambda" * Rpower (1 + r) (arg "delta") * (4 * PI * r ^ 2) in
  sc_sky (sd_cls (y_sp y)) = None /\ draws_follow m (y_sp y) f (arg "r_max") /\ surveys_follow m (y_sp y) f (arg "r_max").
Proof.
  intros H D HL HR HD f. destruct (zpow_part _ _ _ _ _ _ H D) as (sp & -> & A). destruct (zpow_made _ _ _ _ HL HR A) as (I & RL & RD & SK). split; [exact SK|].
  apply (all_ext _ _ (dens_zpow_sphere (arg "Lambda") (arg "delta"))); [intros r _; apply zpow_eq|].
  exact (zpow_follows m Q sol rel Om h0 _ _ _ form None _ _ _ _ I RL RD HL HD).
Qed.
End Pops.

Section Wrong.
Variable m : machine.
Notation E := (real_env m).
Hypothesis Q : quad_exact m.
Variables (sol rel Om h0 : R).
Variables (sky : string -> option (list R -> nat -> mc_st m -> res (spvals E) * mc_st m))
  (draw : string -> list R -> nat -> mc_st m -> res (list R) * mc_st m)
  (phi : string -> list R -> R -> res R) (form : string -> string).
Notation fo := (lib sol rel Om h0 m sky draw phi form).
Ltac vals := repeat constructor; assumption.
Ltac unit := repeat constructor; unfold unit_reading; cbn; try reflexivity; assumption.
Lemma peak_refuted rate L d : instance m (sd_cls (fst (ZPowerSphericalDistribution fo rate))) 998 d ->
  reads m d "Lambda" L -> reads m d "delta" (-4) -> 0 < L ->
  let f := dens_zpow_sphere L (-4) in let i := RInt (dens_zpow_sphere 1 (-4)) 0 998 in
  forall progress fuel size normalize d' s s', (normalize = true -> progress = true) ->
  draw_distance progress fuel size normalize (d, s) = (Ok tt, (d', s')) ->
  exists rs M, length rs = size /\ sd_dist d' = Some rs /\
    each_below m (curve normalize progress i f) (height normalize i M) 998 s rs s' /\ ~ follows f (curve normalize progress i f) (height normalize i M) 998.
Proof.
  intros I HL HD PL f i progress fuel size normalize d' s s' NP H. unfold RealSpec.reads in HL, HD. rewrite (proj1 I) in HL, HD.
  assert (UI : ex_RInt (dens_zpow_sphere 1 (-4)) 0 998 /\ 0 < i) by (apply RealProofs.zpow_sphere_int; lra).
  assert (X : exists rs M, length rs = size /\ sd_dist d' = Some rs /\ grid_max f 998 M /\ each_below m (curve normalize progress i f) (height normalize i M) 998 s rs s').
  { apply (draw_exact m Q _ 998 [L; -4] [1; -4] f (dens_zpow_sphere 1 (-4)) d I) with (fuel := fuel); [vals|unit|reflexivity|reflexivity|exact UI|exact H]. }
  destruct X as (rs & M & H1 & H2 & GM & H3). exists rs, M. split; [exact H1|]. split; [exact H2|]. split; [exact H3|]. apply peak_wrong; [exact PL|exact NP|apply UI|exact GM].
Qed.
Lemma no_progress_refuted rate rm L d : instance m (sd_cls (fst (ConstantSphericalDistribution fo rate))) rm d ->
  reads m d "Lambda" L -> 0 < L -> 1 < 4 / 3 * PI * rm ^ 3 ->
  let f := dens_sphere L in let i := RInt (dens_sphere 1) 0 rm in
  forall fuel size d' s s', draw_distance false fuel size true (d, s) = (Ok tt, (d', s')) ->
  exists rs M, length rs = size /\ sd_dist d' = Some rs /\
    each_below m (curve true false i f) (height true i M) rm s rs s' /\ ~ follows f (curve true false i f) (height true i M) rm.
Proof.
  intros I HL PL V f i fuel size d' s s' H. assert (P : 0 < rm) by apply I. unfold RealSpec.reads in HL. rewrite (proj1 I) in HL.
  assert (X : exists rs M, length rs = size /\ sd_dist d' = Some rs /\ grid_max f rm M /\ each_below m (curve true false i f) (height true i M) rm s rs s').
  { apply (draw_exact m Q _ rm [L] [1] f (dens_sphere 1) d I) with (fuel := fuel); [vals|unit|reflexivity|reflexivity|now apply RealProofs.sphere_int|exact H]. }
  destruct X as (rs & M & H1 & H2 & GM & H3). exists rs, M. split; [exact H1|]. split; [exact H2|]. split; [exact H3|]. now apply no_progress_wrong.
Qed.
End Wrong.
