(** What each predefined population class is documented to be (C57). *)
From Verif Require Import Base Env ParamModel DistModel SynthModel LibPopModel.
Set Implicit Arguments.
Open Scope string_scope.

(** Spatial class, the arguments it takes, those that must not be negative, and
    whether there is a rate flag. *)
Record sp_doc := SpDoc { sd_type : string; sd_args : list string; sd_nonneg : list string; sd_rated : bool }.
Record lum_doc := LumDoc { lm_type : string; lm_args : list string; lm_nonneg : list string }.

Definition sphere := SpDoc "ConstantSphericalDistribution" ["Lambda"; "r_max"] ["Lambda"; "r_max"] false.
Definition zpow_sphere := SpDoc "ZPowerSphericalDistribution" ["Lambda"; "delta"; "r_max"] ["Lambda"; "r_max"] false.
Definition zpow_cosmo := SpDoc "ZPowerCosmoDistribution" ["Lambda"; "delta"; "r_max"] ["Lambda"; "r_max"] true.
Definition sfr := SpDoc "SFRDistribution" ["r0"; "a"; "rise"; "decay"; "peak"; "r_max"] ["r0"; "a"; "peak"; "r_max"] true.
Definition milky_way := SpDoc "SpiralGalaxyDistribution" ["rho"; "a"; "b"; "R1"; "R0"; "r_max"] ["rho"; "r_max"] false.
Definition pareto := LumDoc "ParetoDistribution" ["Lmin"; "alpha"] ["Lmin"].
Definition schechter := LumDoc "SchechterDistribution" ["Lmin"; "alpha"] ["Lmin"].
Definition broken := LumDoc "BPLDistribution" ["Lmin"; "alpha"; "Lbreak"; "beta"; "Lmax"] ["Lmin"; "Lbreak"; "Lmax"].
Definition lognormal := LumDoc "LogNormalDistribution" ["mu"; "tau"] ["tau"].
Definition log10normal := LumDoc "Log10NormalDistribution" ["mu"; "tau"] ["tau"].

(** [None]: the caller gives the luminosity distribution, or none. *)
Definition documented (c : popclass) : sp_doc * option lum_doc :=
  match c with
  | P_SphericalPopulation => (sphere, None)
  | P_ZPowerSphericalPopulation => (zpow_sphere, None)
  | P_ZPowerCosmoPopulation => (zpow_cosmo, None)
  | P_SFRPopulation => (sfr, None)
  | P_MWRadialPopulation => (milky_way, None)
  | P_ParetoHomogeneousSphericalPopulation => (sphere, Some pareto)
  | P_ParetoZPowerSphericalPopulation => (zpow_sphere, Some pareto)
  | P_ParetoZPowerCosmoPopulation => (zpow_cosmo, Some pareto)
  | P_ParetoSFRPopulation => (sfr, Some pareto)
  | P_BPLHomogeneousSphericalPopulation => (sphere, Some broken)
  | P_BPLZPowerSphericalPopulation => (zpow_sphere, Some broken)
  | P_BPLZPowerCosmoPopulation => (zpow_cosmo, Some broken)
  | P_BPLSFRPopulation => (sfr, Some broken)
  | P_LogNormalHomogeneousSphericalPopulation => (sphere, Some lognormal)
  | P_LogNormalZPowerSphericalPopulation => (zpow_sphere, Some lognormal)
  | P_LogNormalZPowerCosmoPopulation => (zpow_cosmo, Some lognormal)
  | P_LogNormalSFRPopulation => (sfr, Some lognormal)
  | P_Log10NormalHomogeneousSphericalPopulation => (sphere, Some log10normal)
  | P_Log10NormalZPowerSphericalPopulation => (zpow_sphere, Some log10normal)
  | P_Log10NormalZPowerCosmoPopulation => (zpow_cosmo, Some log10normal)
  | P_Log10NormalSFRPopulation => (sfr, Some log10normal)
  | P_SchechterHomogeneousSphericalPopulation => (sphere, Some schechter)
  | P_SchechterZPowerSphericalPopulation => (zpow_sphere, Some schechter)
  | P_SchechterZPowerCosmoPopulation => (zpow_cosmo, Some schechter)
  | P_SchechterSFRPopulation => (sfr, Some schechter)
  end.

(** The parameters of the dictionary are exactly the arguments, with their values. *)
Definition exactly {A} (d : dict A) (arg : string -> A) (ks : list string) : Prop :=
  forall k v, dget d k = Some v <-> In k ks /\ v = arg k.

(** [y] is what the documentation of the class says, for these arguments.  [lum] is
    the luminosity distribution the caller gave to the classes that take one. *)
Section As.
Variable E : env.
Record as_documented (c : popclass) (arg : string -> V E) (seed : Z) (lum : option (lumobj E)) (rate : bool) (y : synth E) : Prop := {
  ad_spatial : m_type (y_spm y) = sd_type (fst (documented c));
  ad_spatial_args : exactly (truth (sd_par (y_sp y))) arg (sd_args (fst (documented c)));
  ad_rate : m_rate (y_spm y) = if sd_rated (fst (documented c)) then Some rate else None;
  ad_lum : match snd (documented c) with
           | Some d => m_type (y_lumm y) = lm_type d /\
                       exists l, y_lum y = Some l /\ exactly (truth (ld_par l)) arg (lm_args d)
           | None => y_lum y = option_map fst lum /\ (forall l, lum = Some l -> y_lumm y = snd l)
           end;
  ad_seed : y_seed y = seed;
  ad_bare : y_aux y = [] /\ y_der y = None /\ y_fluxset y = false /\ y_dset y = false /\ y_ssel y = None }.
End As.
Definition lum_nonneg (d : option lum_doc) : list string := match d with Some d => lm_nonneg d | None => [] end.
