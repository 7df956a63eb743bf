(** The classes of popsynth's three families, in an order in which they can be defined,
    with the names their bodies define (one entry per class statement). *)
From Verif Require Import Base ClassModel.
Open Scope string_scope.
Open Scope list_scope.

Definition predefined : list statement := [
  (* 1: Distribution, distribution.py:27 *)
  (Some HDist, [0], [("_distribution_name", Str "Distribution"); ("__init__", Other); ("normalization_parameter", Other); ("name", Other); ("form",
     Other); ("params", Other); ("truth", Other); ("probability", Other); ("display", Other); ("__repr__", Other)]);
  (* 2: SpatialDistribution, distribution.py:161 *)
  (None, [1], [("_distribution_name", Str "SpatialDistribution"); ("r_max", Other); ("__init__", Other); ("differential_volume", Abstract); ("dNdV",
     Abstract); ("time_adjustment", Other); ("transform", Abstract); ("theta", Other); ("phi", Other); ("dec", Other); ("ra", Other); ("distances",
     Other); ("spatial_values", Other); ("draw_sky_positions", Other); ("draw_distance", Other)]);
  (* 3: LuminosityDistribution, distribution.py:392 *)
  (None, [1], [("_distribution_name", Str "LuminosityDistribtuion"); ("__init__", Other); ("phi", Abstract); ("draw_luminosity", Abstract);
     ("compute_probability", Other)]);
  (* 4: AuxiliarySampler, auxiliary_sampler.py:167 *)
  (Some HAux, [0], [("__init__", Other); ("display", Other); ("__repr__", Other); ("set_luminosity", Other); ("set_spatial_values", Other);
     ("set_selection_probability", Other); ("_apply_selection", Other); ("set_secondary_sampler", Other); ("draw", Other); ("_compute_probability",
     Other); ("probability", Other); ("reset", Other); ("make_secondary", Other); ("get_secondary_properties", Other); ("get_secondary_objects",
     Other); ("secondary_samplers", Other); ("is_secondary", Other); ("parents", Other); ("has_secondary", Other); ("observed", Other); ("name",
     Other); ("obs_name", Other); ("true_values", Other); ("obs_values", Other); ("selection", Other); ("selector", Other); ("truth", Other);
     ("uses_distance", Other); ("uses_sky_position", Other); ("uses_luminosity", Other); ("luminosity_distance", Other); ("true_sampler", Abstract);
     ("_probability", Other); ("observation_sampler", Other)]);
  (* 5: NonObservedAuxSampler, auxiliary_sampler.py:721 *)
  (None, [4], [("__init__", Other)]);
  (* 6: DerivedLumAuxSampler, auxiliary_sampler.py:737 *)
  (None, [4], [("__init__", Other); ("compute_luminosity", Abstract)]);
  (* 7: SphericalDistribution, distributions/spherical_distribution.py:6 *)
  (None, [2], [("_distribution_name", Str "SphericalDistribution"); ("__init__", Other); ("differential_volume", Other); ("transform", Other)]);
  (* 8: ConstantSphericalDistribution, distributions/spherical_distribution.py:43 *)
  (None, [7], [("_distribution_name", Str "ConstantSphericalDistribution"); ("Lambda", Other); ("__init__", Other); ("dNdV", Other)]);
  (* 9: ZPowerSphericalDistribution, distributions/spherical_distribution.py:78 *)
  (None, [8], [("_distribution_name", Str "ZPowerSphericalDistribution"); ("delta", Other); ("__init__", Other); ("dNdV", Other)]);
  (* 10: CosmologicalDistribution, distributions/cosmological_distribution.py:10 *)
  (None, [2], [("_distribution_name", Str "CosmologicalDistribution"); ("__init__", Other); ("differential_volume", Other); ("transform", Other);
     ("time_adjustment", Other)]);
  (* 11: SFRDistribution, distributions/cosmological_distribution.py:91 *)
  (None, [10], [("_distribution_name", Str "SFRDistribution"); ("r0", Other); ("a", Other); ("rise", Other); ("decay", Other); ("peak", Other);
     ("__init__", Other); ("dNdV", Other)]);
  (* 12: ZPowerCosmoDistribution, distributions/cosmological_distribution.py:157 *)
  (None, [10], [("_distribution_name", Str "ZPowerCosmoDistribution"); ("Lambda", Other); ("delta", Other); ("__init__", Other); ("dNdV", Other)]);
  (* 13: LogUniLuminiosityDistribution, distributions/uniform_distribution.py:11 *)
  (None, [3], [("_distribution_name", Str "LogUniLuminiosityDistribution"); ("Lmin", Other); ("Lmax", Other); ("__init__", Other); ("phi", Other);
     ("draw_luminosity", Other)]);
  (* 14: UniformCosmoDistribution, distributions/uniform_distribution.py:51 *)
  (None, [10], [("_distribution_name", Str "UniformCosmoDistribution"); ("r0", Other); ("zmin", Other); ("zmax", Other); ("__init__", Other); ("dNdV",
     Other)]);
  (* 15: FlatlandDistribution, distributions/flatland_distribution.py:4 *)
  (None, [2], [("_distribution_name", Str "FlatlandDistribution"); ("Lambda", Other); ("__init__", Other); ("differential_volume", Other);
     ("transform", Other); ("dNdV", Other)]);
  (* 16: SpiralGalaxyDistribution, distributions/spiral_galaxy_distribution.py:7 *)
  (None, [7], [("_distribution_name", Str "SpiralGalaxyDistribution"); ("rho", Other); ("a", Other); ("b", Other); ("R1", Other); ("R0", Other);
     ("__init__", Other); ("dNdV", Other); ("draw_sky_positions", Other)]);
  (* 17: ParetoDistribution, distributions/pareto_distribution.py:6 *)
  (None, [3], [("_distribution_name", Str "ParetoDistribution"); ("Lmin", Other); ("alpha", Other); ("__init__", Other); ("phi", Other);
     ("draw_luminosity", Other)]);
  (* 18: BPLDistribution, distributions/bpl_distribution.py:8 *)
  (None, [3], [("_distribution_name", Str "BPLDistribution"); ("Lmin", Other); ("alpha", Other); ("Lbreak", Other); ("beta", Other); ("Lmax", Other);
     ("__init__", Other); ("phi", Other); ("draw_luminosity", Other)]);
  (* 19: SchechterDistribution, distributions/schechter_distribution.py:7 *)
  (None, [3], [("_distribution_name", Str "SchechterDistribution"); ("Lmin", Other); ("alpha", Other); ("__init__", Other); ("phi", Other);
     ("draw_luminosity", Other)]);
  (* 20: DeltaDistribution, distributions/delta_distribution.py:6 *)
  (None, [3], [("_distribution_name", Str "DeltaDistribution"); ("Lp", Other); ("__init__", Other); ("phi", Other); ("draw_luminosity", Other)]);
  (* 21: LogNormalDistribution, distributions/log_normal_distribution.py:6 *)
  (None, [3], [("_distribution_name", Str "LogNormalDistribution"); ("mu", Other); ("tau", Other); ("__init__", Other); ("phi", Other);
     ("draw_luminosity", Other)]);
  (* 22: Log10NormalDistribution, distributions/log10_normal_distribution.py:6 *)
  (None, [3], [("_distribution_name", Str "Log10NormalDistribution"); ("mu", Other); ("tau", Other); ("__init__", Other); ("phi", Other);
     ("draw_luminosity", Other)]);
  (* 23: DeltaAuxSampler, aux_samplers/delta_aux_sampler.py:7 *)
  (None, [4], [("_auxiliary_sampler_name", Str "DeltaAuxSampler"); ("xp", Other); ("sigma", Other); ("__init__", Other); ("true_sampler", Other);
     ("observation_sampler", Other)]);
  (* 24: LogNormalAuxSampler, aux_samplers/lognormal_aux_sampler.py:7 *)
  (None, [4], [("_auxiliary_sampler_name", Str "LogNormalAuxSampler"); ("mu", Other); ("tau", Other); ("sigma", Other); ("__init__", Other);
     ("true_sampler", Other); ("observation_sampler", Other)]);
  (* 25: Log10NormalAuxSampler, aux_samplers/lognormal_aux_sampler.py:54 *)
  (None, [4], [("_auxiliary_sampler_name", Str "Log10NormalAuxSampler"); ("mu", Other); ("tau", Other); ("sigma", Other); ("__init__", Other);
     ("true_sampler", Other); ("observation_sampler", Other)]);
  (* 26: NormalAuxSampler, aux_samplers/normal_aux_sampler.py:6 *)
  (None, [4], [("_auxiliary_sampler_name", Str "NormalAuxSampler"); ("mu", Other); ("tau", Other); ("sigma", Other); ("__init__", Other);
     ("true_sampler", Other); ("observation_sampler", Other)]);
  (* 27: ParetoAuxSampler, aux_samplers/plaw_aux_sampler.py:9 *)
  (None, [4], [("_auxiliary_sampler_name", Str "ParetoAuxSampler"); ("xmin", Other); ("alpha", Other); ("sigma", Other); ("__init__", Other);
     ("true_sampler", Other); ("observation_sampler", Other)]);
  (* 28: PowerLawAuxSampler, aux_samplers/plaw_aux_sampler.py:55 *)
  (None, [4], [("_auxiliary_sampler_name", Str "PowerLawAuxSampler"); ("xmin", Other); ("xmax", Other); ("alpha", Other); ("sigma", Other);
     ("__init__", Other); ("true_sampler", Other); ("observation_sampler", Other)]);
  (* 29: BrokenPowerLawAuxSampler, aux_samplers/plaw_aux_sampler.py:104 *)
  (None, [4], [("_auxiliary_sampler_name", Str "BrokenPowerLawAuxSampler"); ("xmin", Other); ("alpha", Other); ("xbreak", Other); ("beta", Other);
     ("xmax", Other); ("__init__", Other); ("true_sampler", Other); ("observation_sampler", Other)]);
  (* 30: SkySampler, aux_samplers/sky_sampler.py:7 *)
  (None, [0], [("_auxiliary_sampler_name", Str "SkySampler"); ("__init__", Other); ("_setup_sky", Other); ("ra_sampler", Other); ("dec_sampler",
     Other)]);
  (* 31: RASampler, aux_samplers/sky_sampler.py:50 *)
  (None, [5], [("_auxiliary_sampler_name", Str "RASampler"); ("__init__", Other); ("true_sampler", Other)]);
  (* 32: DecSampler, aux_samplers/sky_sampler.py:67 *)
  (None, [5], [("_auxiliary_sampler_name", Str "DecSampler"); ("__init__", Other); ("true_sampler", Other)]);
  (* 33: TruncatedLogNormalAuxSampler, aux_samplers/trunc_lognormal_aux_sampler.py:7 *)
  (None, [4], [("_auxiliary_sampler_name", Str "TruncatedLogNormalAuxSampler"); ("mu", Other); ("tau", Other); ("lower", Other); ("upper", Other);
     ("sigma", Other); ("__init__", Other); ("true_sampler", Other); ("observation_sampler", Other)]);
  (* 34: TruncatedLog10NormalAuxSampler, aux_samplers/trunc_lognormal_aux_sampler.py:80 *)
  (None, [4], [("_auxiliary_sampler_name", Str "TruncatedLog10NormalAuxSampler"); ("mu", Other); ("tau", Other); ("sigma", Other); ("lower", Other);
     ("upper", Other); ("__init__", Other); ("true_sampler", Other); ("observation_sampler", Other)]);
  (* 35: TruncatedNormalAuxSampler, aux_samplers/trunc_normal_aux_sampler.py:7 *)
  (None, [4], [("_auxiliary_sampler_name", Str "TruncatedNormalAuxSampler"); ("mu", Other); ("tau", Other); ("lower", Other); ("upper", Other);
     ("sigma", Other); ("__init__", Other); ("true_sampler", Other); ("observation_sampler", Other)]);
  (* 36: ViewingAngleSampler, aux_samplers/viewing_angle_sampler.py:6 *)
  (None, [5], [("_auxiliary_sampler_name", Str "ViewingAngleSampler"); ("max_angle", Other); ("__init__", Other); ("true_sampler", Other);
     ("_compute_probability", Other)]);
  (* 37: SelectionProbability, selection_probability/selection_probability.py:18 *)
  (Some HSel, [0], [("__init__", Other); ("__add__", Other); ("set_luminosity", Other); ("set_distance", Other); ("set_observed_flux", Other);
     ("set_observed_value", Other); ("draw", Abstract); ("reset", Other); ("select", Other); ("parameters", Other); ("selection", Other);
     ("n_selected", Other); ("n_non_selected", Other); ("n_objects", Other); ("selection_index", Other); ("non_selection_index", Other); ("name",
     Other)]);
  (* 38: DummySelection, selection_probability/selection_probability.py:184 *)
  (None, [37], [("_selection_name", Str "DummySelection"); ("__init__", Other); ("draw", Other)]);
  (* 39: UnitySelection, selection_probability/generic_selectors.py:14 *)
  (None, [37], [("_selection_name", Str "UnitySelection"); ("__init__", Other); ("draw", Other)]);
  (* 40: BernoulliSelection, selection_probability/generic_selectors.py:30 *)
  (None, [37], [("_selection_name", Str "BernoulliSelection"); ("probability", Other); ("__init__", Other); ("draw", Other)]);
  (* 41: BoxSelection, selection_probability/generic_selectors.py:69 *)
  (None, [37], [("_selection_name", Str "BoxSelection"); ("vmin", Other); ("vmax", Other); ("__init__", Other); ("draw", Other)]);
  (* 42: LowerBound, selection_probability/generic_selectors.py:134 *)
  (None, [37], [("_selection_name", Str "LowerBound"); ("boundary", Other); ("__init__", Other); ("draw", Other)]);
  (* 43: UpperBound, selection_probability/generic_selectors.py:197 *)
  (None, [37], [("_selection_name", Str "UpperBound"); ("boundary", Other); ("__init__", Other); ("draw", Other)]);
  (* 44: SoftSelection, selection_probability/generic_selectors.py:260 *)
  (None, [37], [("_selection_name", Str "SoftSelection"); ("boundary", Other); ("strength", Other); ("__init__", Other); ("draw", Other); ("__all__",
     Other)]);
  (* 45: HardFluxSelection, selection_probability/flux_selectors.py:8 *)
  (None, [42], [("_selection_name", Str "HardFluxSelection"); ("__init__", Other); ("draw", Other)]);
  (* 46: SoftFluxSelection, selection_probability/flux_selectors.py:25 *)
  (None, [44], [("_selection_name", Str "SoftFluxSelection"); ("__init__", Other); ("draw", Other)]);
  (* 47: SpatialSelection, selection_probability/spatial_selection.py:8 *)
  (None, [37], [("_selection_name", Str "SpatialSelection"); ("__init__", Other); ("set_spatial_distribution", Other)]);
  (* 48: GalacticPlaneSelection, selection_probability/spatial_selection.py:38 *)
  (None, [47], [("_selection_name", Str "GalacticPlaneSelection"); ("b_limit", Other); ("__init__", Other); ("draw", Other)]);
  (* 49: DistanceSelection, selection_probability/spatial_selection.py:73 *)
  (None, [47], [("_selection_name", Str "DistanceSelection"); ("min_distance", Other); ("max_distance", Other); ("__init__", Other); ("draw", Other)])
].
Definition id_Distribution := 1.
Definition id_SpatialDistribution := 2.
Definition id_LuminosityDistribution := 3.
Definition id_AuxiliarySampler := 4.
Definition id_NonObservedAuxSampler := 5.
Definition id_DerivedLumAuxSampler := 6.
Definition id_SphericalDistribution := 7.
Definition id_ConstantSphericalDistribution := 8.
Definition id_CosmologicalDistribution := 10.
Definition id_ParetoDistribution := 17.
Definition id_SelectionProbability := 37.
Definition id_SpatialSelection := 47.
