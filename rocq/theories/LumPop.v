(** Luminosities of the predefined populations (C67). *)
From Coq Require Import Reals ZArith List String Lra.
From Coquelicot Require Import Coquelicot.
From Verif Require Import Base BaseFacts Env ParamModel SelModel SimVarModel DistModel DistSpec DistProofs AuxModel PopModel SynthModel SynthSpec LibModel LibPopModel LibPopSpec
  RealModel AuxLibModel LumLibModel LumLibSpec LumLibProofs.
From Verif Require LibPopProofs.
Import ListNotations.
Open Scope R_scope.
Open Scope string_scope.
Open Scope list_scope.

Section P.
Variable m : machine.
Notation E := (real_env m).
Variable ginv : R -> R -> R.
Variable gam : R -> R.
Variables (sol rel Om h0 : R) (sky : string -> option (list R -> nat -> mc_st m -> res (spvals E) * mc_st m)) (form : string -> string).
Notation fo := (full_lib m ginv gam sol rel Om h0 sky form).
Variable w : world E.

Lemma assigned_lum (x : lumobj E) (arg : string -> R) ks l : LibPopProofs.plain E (lc_params (ld_cls (fst x))) ->
  ld_par (fst x) = pobj_new R -> (forall k, In k ks -> exists d, dget (lc_params (ld_cls (fst x))) k = Some d) ->
  (forall k d, dget (lc_params (ld_cls (fst x))) k = Some d -> In k ks) ->
  assign_lum x (LibPopProofs.args_of E arg ks) = Ok l -> ld_cls (fst l) = ld_cls (fst x) /\ lum_parameters m (fst l) arg.
Proof.
  intros PL N IN OUT. unfold assign_lum. destruct (LibPopProofs.assigns_spec E _ (LibPopProofs.args_of E arg ks) PL) with (o := ld_par (fst x)) as [A1 A2].
  { intros [k v] I. cbn. apply IN. rewrite <- (LibPopProofs.keys_args E arg ks). now apply (in_map fst) in I. }
  destruct (forallb _ _); [|rewrite A2 by reflexivity; discriminate]. destruct (A1 eq_refl) as (o & HO & ST). rewrite HO. cbn [rbind]. intros [= <-]. split; [reflexivity|].
  intros k v. cbn [fst ld_cls ld_par]. unfold reading, pread. destruct (dget (lc_params (ld_cls (fst x))) k) as [d|] eqn:D; [|discriminate].
  assert (G : dget (po_store o) k = Some (Some (arg k))).
  { rewrite ST, N. cbn. specialize (OUT k d D). clear - OUT.
    assert (X : forall ks s, dget s k = Some (Some (arg k)) \/ In k ks -> dget (LibPopProofs.dsets E (LibPopProofs.args_of E arg ks) s) k = Some (Some (arg k))).
    { clear. induction ks as [|k' ks IH]; intros s H; [destruct H as [H|[]]; exact H|]. cbn [LibPopProofs.args_of map LibPopProofs.dsets]. apply IH.
      rewrite dget_dset. destruct (String.eqb_spec k k') as [->|NE]; [now left|]. destruct H as [H|[H|H]]; [now left|now elim NE|now right]. }
    apply X. now right. }
  unfold param_get. assert (T : po_store (touch_norm d k o) = po_store o) by (unfold touch_norm; now destruct (pd_norm d)).
  rewrite T, G. cbn. now intros [= ->].
Qed.

Ltac s1 := intros k d; cbn; repeat (destruct (String.eqb _ _); [intros [= <-]; now split|]); discriminate.
Ltac s2 := intros k Hk; cbn in Hk; repeat destruct Hk as [<-|Hk]; [..|destruct Hk]; cbn; eauto.
Ltac s3 := intros k d; cbn; repeat match goal with |- context [String.eqb k ?x] => destruct (String.eqb_spec k x); [intros _; subst; tauto|] end; discriminate.

Lemma build_lum c arg seed lum rate (y : synth E) d k : build fo w c arg seed lum rate = Ok y -> snd (documented c) = Some d -> lm_type d = class_name k ->
  exists l, y_lum y = Some l /\ ld_cls l = ld_cls (fst (lum_object fo k)) /\ lum_parameters m l arg.
Proof.
  intros H HD HK.
  assert (X : exists x sp, y = population_synth w sp (Some x) seed /\ ld_cls (fst x) = ld_cls (fst (lum_object fo k)) /\ lum_parameters m (fst x) arg).
  2:{ destruct X as (x & sp & -> & X1 & X2). exists (fst x). auto. }
  destruct c; cbn in HD; try discriminate HD; injection HD as <-; cbn in HK; (destruct k; try discriminate HK); clear HK; cbn [build] in H;
    unfold ParetoHomogeneousSphericalPopulation, ParetoZPowerSphericalPopulation, ParetoZPowerCosmoPopulation, ParetoSFRPopulation,
      BPLHomogeneousSphericalPopulation, BPLZPowerSphericalPopulation, BPLZPowerCosmoPopulation, BPLSFRPopulation,
      LogNormalHomogeneousSphericalPopulation, LogNormalZPowerSphericalPopulation, LogNormalZPowerCosmoPopulation, LogNormalSFRPopulation,
      Log10NormalHomogeneousSphericalPopulation, Log10NormalZPowerSphericalPopulation, Log10NormalZPowerCosmoPopulation, Log10NormalSFRPopulation,
      SchechterHomogeneousSphericalPopulation, SchechterZPowerSphericalPopulation, SchechterZPowerCosmoPopulation, SchechterSFRPopulation,
      SphericalPopulation, ZPowerSphericalPopulation, ZPowerCosmoPopulation, SFRPopulation in H;
    match type of H with rbind ?a _ = _ => destruct a as [l|] eqn:AL; [|discriminate H] end; cbn [rbind] in H;
    match type of H with rbind ?a _ = _ => destruct a as [sp|] eqn:AS; [|discriminate H] end; cbn [rbind] in H; injection H as <-;
    exists l, sp; (split; [reflexivity|]); clear AS;
    cbn [lum_object];
    first [ eapply (assigned_lum (ParetoDistribution fo) arg ["Lmin"; "alpha"] l); [s1|reflexivity|s2|s3|exact AL]
          | eapply (assigned_lum (SchechterDistribution fo) arg ["Lmin"; "alpha"] l); [s1|reflexivity|s2|s3|exact AL]
          | eapply (assigned_lum (LogNormalDistribution fo) arg ["mu"; "tau"] l); [s1|reflexivity|s2|s3|exact AL]
          | eapply (assigned_lum (Log10NormalDistribution fo) arg ["mu"; "tau"] l); [s1|reflexivity|s2|s3|exact AL]
          | eapply (assigned_lum (BPLDistribution fo) arg ["Lmin"; "alpha"; "Lbreak"; "beta"; "Lmax"] l); [s1|reflexivity|s2|s3|exact AL] ].
Qed.

Hypothesis U : forall g, 0 <= fst (mc_unif m 0 1 g) < 1.
Hypothesis G : forall s x, 0 < s -> 0 < x <= 1 -> 0 <= ginv s x.
Theorem population_luminosities c arg seed lum rate (y0 y : synth E) d k prog fuel rl fs l10 ns norm pop y' :
  build fo w c arg seed lum rate = Ok y0 -> snd (documented c) = Some d -> lm_type d = class_name k -> lum_sensible k arg ->
  y_lum y = y_lum y0 -> y_der y = None ->
  draw_survey prog fuel rl fs l10 ns norm y = (Ok pop, y') ->
  Forall (lum_range k arg) (sv_lat (p_lum pop)) /\ length (sv_lat (p_lum pop)) = p_nobj pop /\ sv_obs (p_lum pop) = sv_lat (p_lum pop).
Proof.
  intros B HD HK SE YL DE H. destruct (build_lum _ _ _ _ _ _ _ _ B HD HK) as (l & L & C & P).
  eapply (survey_luminosities m ginv gam sol rel Om h0 sky form U G); [exact H|exact DE|rewrite YL; exact L|exact C|exact P|exact SE].
Qed.
End P.
