(** Model of [popsynth/populations]: the predefined population classes, and of the
    parameter declarations of the distribution classes they use.

    The transcription below was made mechanically from the python syntax trees of the
    five files (one definition per class, arguments in the order of the signature,
    then the seed, the luminosity distribution and the rate flag where there is
    one).  Default values of the arguments are not modelled: a caller gives all of
    them.  The constructors also store the seed in the distributions ([_seed]), which
    nothing reads; that is not modelled. *)
From Verif Require Import Base Env ParamModel SelModel DistModel AuxModel SynthModel.
Set Implicit Arguments.
Open Scope string_scope.

Section LibPop.
Variable E : env.
Notation V := (V E).
Notation Rst := (Rst E).
Notation synth := (synth E).
Notation zero := (vofnat E 0).
Notation one := (vofnat E 1).

(** The formulas of the distribution classes, by class name and rate flag: density,
    flux, sky positions, luminosity draw and density, and latex form.  Nothing here
    depends on what they are; see LibModel.v for some of them over the reals. *)
Record formulas := Formulas {
  fo_dens : string -> option bool -> list V -> V -> res V;
  fo_flux : string -> V -> V -> V;
  fo_sky : string -> option (list V -> nat -> Rst -> res (spvals E) * Rst);
  fo_draw : string -> list V -> nat -> Rst -> res (list V) * Rst;
  fo_phi : string -> list V -> V -> res V;
  fo_form : string -> string }.
Variable fo : formulas.
(** The objects that exist already. *)
Variable w : world E.

Definition decl (default vmin : option V) (norm : bool) : pdecl V := PDecl default vmin None true norm.
Definition spobj : Type := (sdist E * meta)%type.
Definition lumobj : Type := (ldist E * meta)%type.
(** distribution.py:164 *)
Definition r_max_decl : string * pdecl V := ("r_max", decl (Some (vofnat E 10)) (Some zero) false).
(** A new instance: class name, instance name, parameters, parameters its density
    reads. *)
Definition spatial (cls nm : string) (ps : pclass V) (reads : list string) (rate : option bool) : spobj :=
  (sd_new (SpCls ps reads (fo_dens fo cls rate) (fo_flux fo cls) (fo_sky fo cls)) nm,
   Meta cls (fo_form fo cls) rate).
Definition luminosity (cls nm : string) (ps : pclass V) (dreads preads : list string) : lumobj :=
  (LDist (LumCls E ps dreads (fo_draw fo cls) preads (fo_phi fo cls)) nm (pobj_new V) None,
   Meta cls (fo_form fo cls) None).

(** spherical_distribution.py:43-75 *)
Definition ConstantSphericalDistribution : option bool -> spobj :=
  spatial "ConstantSphericalDistribution" "cons_sphere"
    [r_max_decl; ("Lambda", decl (Some one) (Some zero) true)] ["Lambda"].
(** spherical_distribution.py:78-110 *)
Definition ZPowerSphericalDistribution : option bool -> spobj :=
  spatial "ZPowerSphericalDistribution" "zpow_sphere"
    [r_max_decl; ("Lambda", decl (Some one) (Some zero) true); ("delta", decl (Some one) None false)] ["Lambda"; "delta"].
(** cosmological_distribution.py:157-205 *)
Definition ZPowerCosmoDistribution : option bool -> spobj :=
  spatial "ZPowerCosmoDistribution" "zpow_cosmo"
    [r_max_decl; ("Lambda", decl (Some one) (Some zero) true); ("delta", decl None None false)] ["Lambda"; "delta"].
(** cosmological_distribution.py:91-154 *)
Definition SFRDistribution : option bool -> spobj :=
  spatial "SFRDistribution" "sfr"
    [r_max_decl; ("r0", decl None (Some zero) true); ("a", decl None (Some zero) false); ("rise", decl None None false);
     ("decay", decl None None false); ("peak", decl None (Some zero) false)]
    ["r0"; "a"; "rise"; "decay"; "peak"].
(** spiral_galaxy_distribution.py:7-61 *)
Definition SpiralGalaxyDistribution : option bool -> spobj :=
  spatial "SpiralGalaxyDistribution" "spiral_galaxy"
    [r_max_decl; ("rho", decl None (Some zero) false); ("a", decl None None false); ("b", decl None None false);
     ("R1", decl None None false); ("R0", decl None None false)]
    ["rho"; "R1"; "R0"; "a"; "b"].
(** pareto_distribution.py:6-47 *)
Definition ParetoDistribution : lumobj :=
  luminosity "ParetoDistribution" "pareto"
    [("Lmin", decl (Some one) (Some zero) false); ("alpha", decl (Some one) None false)] ["alpha"; "Lmin"] ["Lmin"; "alpha"].
(** bpl_distribution.py:8-65 *)
Definition BPLDistribution : lumobj :=
  luminosity "BPLDistribution" "bpl"
    [("Lmin", decl None (Some zero) false); ("alpha", decl None None false); ("Lbreak", decl None (Some zero) false);
     ("beta", decl None None false); ("Lmax", decl None (Some zero) false)]
    ["Lmin"; "Lbreak"; "Lmax"; "alpha"; "beta"] ["Lmin"; "Lbreak"; "Lmax"; "alpha"; "beta"].
(** log_normal_distribution.py:6-43 *)
Definition LogNormalDistribution : lumobj :=
  luminosity "LogNormalDistribution" "lognorm"
    [("mu", decl None None false); ("tau", decl None (Some zero) false)] ["mu"; "tau"] ["tau"; "mu"].
(** log10_normal_distribution.py:6-43 *)
Definition Log10NormalDistribution : lumobj :=
  luminosity "Log10NormalDistribution" "log10norm"
    [("mu", decl None None false); ("tau", decl None (Some zero) false)] ["mu"; "tau"] ["tau"; "mu"].
(** schechter_distribution.py:7-52 *)
Definition SchechterDistribution : lumobj :=
  luminosity "SchechterDistribution" "schechter"
    [("Lmin", decl (Some one) (Some zero) false); ("alpha", decl (Some one) None false)] ["Lmin"; "alpha"] ["alpha"; "Lmin"].

(** [object.name = value].  Assigning an attribute that is not a declared parameter
    makes a plain attribute, which has no effect here. *)
Definition assign1 (c : pclass V) (kv : string * V) (o : pobj V) : res (pobj V) :=
  match dget c (fst kv) with
  | None => Ok o
  | Some d => match param_set (fun v m => vle E m v) (fun v m => vle E v m) d (fst kv) (Some (snd kv)) o with
              | (Ok _, o') => Ok o'
              | (Err e, _) => Err e
              end
  end.
Fixpoint assigns (c : pclass V) (l : list (string * V)) (o : pobj V) : res (pobj V) :=
  match l with
  | nil => Ok o
  | kv :: r => let? o' := assign1 c kv o in assigns c r o'
  end.
Definition assign_sp (x : spobj) (l : list (string * V)) : res spobj :=
  let? o := assigns (sc_params (sd_cls (fst x))) l (sd_par (fst x)) in Ok (with_spar (fst x) o, snd x).
Definition assign_lum (x : lumobj) (l : list (string * V)) : res lumobj :=
  let? o := assigns (lc_params (ld_cls (fst x))) l (ld_par (fst x)) in
  Ok (LDist (ld_cls (fst x)) (ld_name (fst x)) o (ld_prob (fst x)), snd x).
(** [PopulationSynth.__init__] (population_synth.py:36-126) *)
Definition population_synth (sp : spobj) (lum : option lumobj) (seed : Z) : synth :=
  synth_new w (fst sp) (snd sp) (option_map fst lum)
            (match lum with Some l => snd l | None => Meta "" "" None end) seed.

(** spatial_populations.py:21-51 *)
Definition SphericalPopulation (Lambda r_max : V) (seed : Z) (luminosity_distribution : option lumobj) : res synth :=
  let? sp := assign_sp (ConstantSphericalDistribution None) [("Lambda", Lambda); ("r_max", r_max)] in
  Ok (population_synth sp luminosity_distribution seed).
(** spatial_populations.py:54-90 *)
Definition ZPowerSphericalPopulation (Lambda delta r_max : V) (seed : Z) (luminosity_distribution : option lumobj) : res synth :=
  let? sp := assign_sp (ZPowerSphericalDistribution None) [("Lambda", Lambda); ("r_max", r_max); ("delta", delta)] in
  Ok (population_synth sp luminosity_distribution seed).
(** spatial_populations.py:93-138 *)
Definition ZPowerCosmoPopulation (Lambda delta r_max : V) (seed : Z) (luminosity_distribution : option lumobj) (is_rate : bool) : res synth :=
  let? sp := assign_sp (ZPowerCosmoDistribution (Some is_rate)) [("Lambda", Lambda); ("r_max", r_max); ("delta", delta)] in
  Ok (population_synth sp luminosity_distribution seed).
(** spatial_populations.py:141-195 *)
Definition SFRPopulation (r0 a rise decay peak r_max : V) (seed : Z) (luminosity_distribution : option lumobj) (is_rate : bool) : res synth :=
  let? sp := assign_sp (SFRDistribution (Some is_rate)) [("r0", r0); ("a", a); ("rise", rise); ("decay", decay); ("peak", peak); ("r_max", r_max)] in
  Ok (population_synth sp luminosity_distribution seed).
(** spatial_populations.py:198-250 *)
Definition MWRadialPopulation (rho a b R1 R0 r_max : V) (seed : Z) (luminosity_distribution : option lumobj) : res synth :=
  let? sp := assign_sp (SpiralGalaxyDistribution None) [("rho", rho); ("a", a); ("b", b); ("R1", R1); ("R0", R0); ("r_max", r_max)] in
  Ok (population_synth sp luminosity_distribution seed).
(** pareto_populations.py:10-45 *)
Definition ParetoHomogeneousSphericalPopulation (Lambda Lmin alpha r_max : V) (seed : Z) : res synth :=
  let? lum := assign_lum ParetoDistribution [("Lmin", Lmin); ("alpha", alpha)] in
  SphericalPopulation Lambda r_max seed (Some lum).
(** pareto_populations.py:48-87 *)
Definition ParetoZPowerSphericalPopulation (Lambda delta Lmin alpha r_max : V) (seed : Z) : res synth :=
  let? lum := assign_lum ParetoDistribution [("Lmin", Lmin); ("alpha", alpha)] in
  ZPowerSphericalPopulation Lambda delta r_max seed (Some lum).
(** pareto_populations.py:90-136 *)
Definition ParetoZPowerCosmoPopulation (Lambda delta Lmin alpha r_max : V) (seed : Z) (is_rate : bool) : res synth :=
  let? lum := assign_lum ParetoDistribution [("Lmin", Lmin); ("alpha", alpha)] in
  ZPowerCosmoPopulation Lambda delta r_max seed (Some lum) is_rate.
(** pareto_populations.py:139-197 *)
Definition ParetoSFRPopulation (r0 a rise decay peak Lmin alpha r_max : V) (seed : Z) (is_rate : bool) : res synth :=
  let? lum := assign_lum ParetoDistribution [("Lmin", Lmin); ("alpha", alpha)] in
  SFRPopulation r0 a rise decay peak r_max seed (Some lum) is_rate.
(** bpl_population.py:10-56 *)
Definition BPLHomogeneousSphericalPopulation (Lambda Lmin alpha Lbreak beta Lmax r_max : V) (seed : Z) : res synth :=
  let? lum := assign_lum BPLDistribution [("Lmin", Lmin); ("alpha", alpha); ("Lbreak", Lbreak); ("beta", beta); ("Lmax", Lmax)] in
  SphericalPopulation Lambda r_max seed (Some lum).
(** bpl_population.py:59-109 *)
Definition BPLZPowerSphericalPopulation (Lambda delta Lmin alpha Lbreak beta Lmax r_max : V) (seed : Z) : res synth :=
  let? lum := assign_lum BPLDistribution [("Lmin", Lmin); ("alpha", alpha); ("Lbreak", Lbreak); ("beta", beta); ("Lmax", Lmax)] in
  ZPowerSphericalPopulation Lambda delta r_max seed (Some lum).
(** bpl_population.py:112-165 *)
Definition BPLZPowerCosmoPopulation (Lambda delta Lmin alpha Lbreak beta Lmax r_max : V) (seed : Z) (is_rate : bool) : res synth :=
  let? lum := assign_lum BPLDistribution [("Lmin", Lmin); ("alpha", alpha); ("Lbreak", Lbreak); ("beta", beta); ("Lmax", Lmax)] in
  ZPowerCosmoPopulation Lambda delta r_max seed (Some lum) is_rate.
(** bpl_population.py:168-233 *)
Definition BPLSFRPopulation (r0 a rise decay peak Lmin alpha Lbreak beta Lmax r_max : V) (seed : Z) (is_rate : bool) : res synth :=
  let? lum := assign_lum BPLDistribution [("Lmin", Lmin); ("alpha", alpha); ("Lbreak", Lbreak); ("beta", beta); ("Lmax", Lmax)] in
  SFRPopulation r0 a rise decay peak r_max seed (Some lum) is_rate.
(** lognormal_population.py:13-48 *)
Definition LogNormalHomogeneousSphericalPopulation (Lambda mu tau r_max : V) (seed : Z) : res synth :=
  let? lum := assign_lum LogNormalDistribution [("mu", mu); ("tau", tau)] in
  SphericalPopulation Lambda r_max seed (Some lum).
(** lognormal_population.py:51-90 *)
Definition LogNormalZPowerSphericalPopulation (Lambda delta mu tau r_max : V) (seed : Z) : res synth :=
  let? lum := assign_lum LogNormalDistribution [("mu", mu); ("tau", tau)] in
  ZPowerSphericalPopulation Lambda delta r_max seed (Some lum).
(** lognormal_population.py:93-139 *)
Definition LogNormalZPowerCosmoPopulation (Lambda delta mu tau r_max : V) (seed : Z) (is_rate : bool) : res synth :=
  let? lum := assign_lum LogNormalDistribution [("mu", mu); ("tau", tau)] in
  ZPowerCosmoPopulation Lambda delta r_max seed (Some lum) is_rate.
(** lognormal_population.py:142-200 *)
Definition LogNormalSFRPopulation (r0 a rise decay peak mu tau r_max : V) (seed : Z) (is_rate : bool) : res synth :=
  let? lum := assign_lum LogNormalDistribution [("mu", mu); ("tau", tau)] in
  SFRPopulation r0 a rise decay peak r_max seed (Some lum) is_rate.
(** lognormal_population.py:203-238 *)
Definition Log10NormalHomogeneousSphericalPopulation (Lambda mu tau r_max : V) (seed : Z) : res synth :=
  let? lum := assign_lum Log10NormalDistribution [("mu", mu); ("tau", tau)] in
  SphericalPopulation Lambda r_max seed (Some lum).
(** lognormal_population.py:241-280 *)
Definition Log10NormalZPowerSphericalPopulation (Lambda delta mu tau r_max : V) (seed : Z) : res synth :=
  let? lum := assign_lum Log10NormalDistribution [("mu", mu); ("tau", tau)] in
  ZPowerSphericalPopulation Lambda delta r_max seed (Some lum).
(** lognormal_population.py:283-329 *)
Definition Log10NormalZPowerCosmoPopulation (Lambda delta mu tau r_max : V) (seed : Z) (is_rate : bool) : res synth :=
  let? lum := assign_lum Log10NormalDistribution [("mu", mu); ("tau", tau)] in
  ZPowerCosmoPopulation Lambda delta r_max seed (Some lum) is_rate.
(** lognormal_population.py:332-390 *)
Definition Log10NormalSFRPopulation (r0 a rise decay peak mu tau r_max : V) (seed : Z) (is_rate : bool) : res synth :=
  let? lum := assign_lum Log10NormalDistribution [("mu", mu); ("tau", tau)] in
  SFRPopulation r0 a rise decay peak r_max seed (Some lum) is_rate.
(** schechter_populations.py:10-45 *)
Definition SchechterHomogeneousSphericalPopulation (Lambda Lmin alpha r_max : V) (seed : Z) : res synth :=
  let? lum := assign_lum SchechterDistribution [("Lmin", Lmin); ("alpha", alpha)] in
  SphericalPopulation Lambda r_max seed (Some lum).
(** schechter_populations.py:48-88 *)
Definition SchechterZPowerSphericalPopulation (Lambda delta Lmin alpha r_max : V) (seed : Z) : res synth :=
  let? lum := assign_lum SchechterDistribution [("Lmin", Lmin); ("alpha", alpha)] in
  ZPowerSphericalPopulation Lambda delta r_max seed (Some lum).
(** schechter_populations.py:91-138 *)
Definition SchechterZPowerCosmoPopulation (Lambda delta Lmin alpha r_max : V) (seed : Z) (is_rate : bool) : res synth :=
  let? lum := assign_lum SchechterDistribution [("Lmin", Lmin); ("alpha", alpha)] in
  ZPowerCosmoPopulation Lambda delta r_max seed (Some lum) is_rate.
(** schechter_populations.py:141-200 *)
Definition SchechterSFRPopulation (r0 a rise decay peak Lmin alpha r_max : V) (seed : Z) (is_rate : bool) : res synth :=
  let? lum := assign_lum SchechterDistribution [("Lmin", Lmin); ("alpha", alpha)] in
  SFRPopulation r0 a rise decay peak r_max seed (Some lum) is_rate.

Inductive popclass :=
| P_SphericalPopulation
| P_ZPowerSphericalPopulation
| P_ZPowerCosmoPopulation
| P_SFRPopulation
| P_MWRadialPopulation
| P_ParetoHomogeneousSphericalPopulation
| P_ParetoZPowerSphericalPopulation
| P_ParetoZPowerCosmoPopulation
| P_ParetoSFRPopulation
| P_BPLHomogeneousSphericalPopulation
| P_BPLZPowerSphericalPopulation
| P_BPLZPowerCosmoPopulation
| P_BPLSFRPopulation
| P_LogNormalHomogeneousSphericalPopulation
| P_LogNormalZPowerSphericalPopulation
| P_LogNormalZPowerCosmoPopulation
| P_LogNormalSFRPopulation
| P_Log10NormalHomogeneousSphericalPopulation
| P_Log10NormalZPowerSphericalPopulation
| P_Log10NormalZPowerCosmoPopulation
| P_Log10NormalSFRPopulation
| P_SchechterHomogeneousSphericalPopulation
| P_SchechterZPowerSphericalPopulation
| P_SchechterZPowerCosmoPopulation
| P_SchechterSFRPopulation.
Definition build (c : popclass) (arg : string -> V) (seed : Z) (lum : option lumobj) (is_rate : bool) : res synth :=
  match c with
  | P_SphericalPopulation => SphericalPopulation (arg "Lambda") (arg "r_max") seed lum
  | P_ZPowerSphericalPopulation => ZPowerSphericalPopulation (arg "Lambda") (arg "delta") (arg "r_max") seed lum
  | P_ZPowerCosmoPopulation => ZPowerCosmoPopulation (arg "Lambda") (arg "delta") (arg "r_max") seed lum is_rate
  | P_SFRPopulation => SFRPopulation (arg "r0") (arg "a") (arg "rise") (arg "decay") (arg "peak") (arg "r_max") seed lum is_rate
  | P_MWRadialPopulation => MWRadialPopulation (arg "rho") (arg "a") (arg "b") (arg "R1") (arg "R0") (arg "r_max") seed lum
  | P_ParetoHomogeneousSphericalPopulation => ParetoHomogeneousSphericalPopulation (arg "Lambda") (arg "Lmin") (arg "alpha") (arg "r_max") seed
  | P_ParetoZPowerSphericalPopulation => ParetoZPowerSphericalPopulation (arg "Lambda") (arg "delta") (arg "Lmin") (arg "alpha") (arg "r_max") seed
  | P_ParetoZPowerCosmoPopulation => ParetoZPowerCosmoPopulation (arg "Lambda") (arg "delta") (arg "Lmin") (arg "alpha") (arg "r_max") seed is_rate
  | P_ParetoSFRPopulation => ParetoSFRPopulation (arg "r0") (arg "a") (arg "rise") (arg "decay") (arg "peak") (arg "Lmin") (arg "alpha") (arg "r_max") seed is_rate
  | P_BPLHomogeneousSphericalPopulation => BPLHomogeneousSphericalPopulation (arg "Lambda") (arg "Lmin") (arg "alpha") (arg "Lbreak") (arg "beta") (arg "Lmax") (arg "r_max") seed
  | P_BPLZPowerSphericalPopulation => BPLZPowerSphericalPopulation (arg "Lambda") (arg "delta") (arg "Lmin") (arg "alpha") (arg "Lbreak") (arg "beta") (arg "Lmax") (arg "r_max") seed
  | P_BPLZPowerCosmoPopulation => BPLZPowerCosmoPopulation (arg "Lambda") (arg "delta") (arg "Lmin") (arg "alpha") (arg "Lbreak") (arg "beta") (arg "Lmax") (arg "r_max") seed is_rate
  | P_BPLSFRPopulation => BPLSFRPopulation (arg "r0") (arg "a") (arg "rise") (arg "decay") (arg "peak") (arg "Lmin") (arg "alpha") (arg "Lbreak") (arg "beta") (arg "Lmax") (arg "r_max") seed is_rate
  | P_LogNormalHomogeneousSphericalPopulation => LogNormalHomogeneousSphericalPopulation (arg "Lambda") (arg "mu") (arg "tau") (arg "r_max") seed
  | P_LogNormalZPowerSphericalPopulation => LogNormalZPowerSphericalPopulation (arg "Lambda") (arg "delta") (arg "mu") (arg "tau") (arg "r_max") seed
  | P_LogNormalZPowerCosmoPopulation => LogNormalZPowerCosmoPopulation (arg "Lambda") (arg "delta") (arg "mu") (arg "tau") (arg "r_max") seed is_rate
  | P_LogNormalSFRPopulation => LogNormalSFRPopulation (arg "r0") (arg "a") (arg "rise") (arg "decay") (arg "peak") (arg "mu") (arg "tau") (arg "r_max") seed is_rate
  | P_Log10NormalHomogeneousSphericalPopulation => Log10NormalHomogeneousSphericalPopulation (arg "Lambda") (arg "mu") (arg "tau") (arg "r_max") seed
  | P_Log10NormalZPowerSphericalPopulation => Log10NormalZPowerSphericalPopulation (arg "Lambda") (arg "delta") (arg "mu") (arg "tau") (arg "r_max") seed
  | P_Log10NormalZPowerCosmoPopulation => Log10NormalZPowerCosmoPopulation (arg "Lambda") (arg "delta") (arg "mu") (arg "tau") (arg "r_max") seed is_rate
  | P_Log10NormalSFRPopulation => Log10NormalSFRPopulation (arg "r0") (arg "a") (arg "rise") (arg "decay") (arg "peak") (arg "mu") (arg "tau") (arg "r_max") seed is_rate
  | P_SchechterHomogeneousSphericalPopulation => SchechterHomogeneousSphericalPopulation (arg "Lambda") (arg "Lmin") (arg "alpha") (arg "r_max") seed
  | P_SchechterZPowerSphericalPopulation => SchechterZPowerSphericalPopulation (arg "Lambda") (arg "delta") (arg "Lmin") (arg "alpha") (arg "r_max") seed
  | P_SchechterZPowerCosmoPopulation => SchechterZPowerCosmoPopulation (arg "Lambda") (arg "delta") (arg "Lmin") (arg "alpha") (arg "r_max") seed is_rate
  | P_SchechterSFRPopulation => SchechterSFRPopulation (arg "r0") (arg "a") (arg "rise") (arg "decay") (arg "peak") (arg "Lmin") (arg "alpha") (arg "r_max") seed is_rate
  end.
End LibPop.
