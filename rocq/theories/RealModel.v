(** The model over the real numbers: the numbers of [Env.v] are reals, its generators
    stay arbitrary, and the library's spatial densities are given by their formulas.
    Simplifications as in LibModel.v. *)
From Coq Require Import Reals ZArith List String.
From Coquelicot Require Import Coquelicot.
From Verif Require Import Base Env ParamModel DistModel LibModel SynthModel LibPopModel.
Import ListNotations.
Open Scope R_scope.
Open Scope string_scope.

(** [scipy.special.expit] *)
Definition expit (x : R) : R := 1 / (1 + exp (- x)).

(** What is not arithmetic: the generators, [quad] and astropy's coordinates. *)
Record machine := Machine {
  mc_gal : R -> R -> R;
  mc_quad : (R -> res R) -> R -> R -> res R;
  mc_st : Type;
  mc_seed : Z -> mc_st;
  mc_unif : R -> R -> mc_st -> R * mc_st;
  mc_norm : R -> R -> mc_st -> R * mc_st;
  mc_poisson : R -> mc_st -> res nat * mc_st;
  mc_bern_ok : R -> bool;
  mc_bern : R -> mc_st -> bool * mc_st;
  mc_nst : Type }.
Definition real_env (m : machine) : env :=
  Env leb ltb Rplus Rminus Rmult Rdiv Rmax INR log10 ln (fun x => Rpower 10 x) exp expit acos (2 * PI) rad2deg (fun _ => true)
      (mc_gal m) (mc_quad m) (mc_seed m) (mc_unif m) (mc_norm m) (mc_poisson m) (mc_bern_ok m) (mc_bern m) (mc_nst m).

(** ** Densities: [dNdV(r) * differential_volume(r) / time_adjustment(r)] *)
(** spherical_distribution.py:32-34 *)
Definition sphere_volume (r : R) : R := 4 * PI * r * r.
(** spherical_distribution.py:73-75; distribution.py:213-220 *)
Definition dens_sphere (Lambda r : R) : R := Lambda * sphere_volume r / 1.
(** spherical_distribution.py:108-110 *)
Definition dens_zpow_sphere (Lambda delta r : R) : R := Lambda * Rpower (r + 1) delta * sphere_volume r / 1.
(** flatland_distribution.py:28-38 *)
Definition dens_flatland (Lambda r : R) : R := Lambda * 1 / 1.
(** spiral_galaxy_distribution.py:52-61.  [Rpower] is [np.power] for positive bases. *)
Definition dens_spiral (rho R1 R0 a b r : R) : R :=
  rho * Rpower ((r + R1) / (R0 + R1)) a * exp (- b * (r - R0) / (R0 + R1)) * sphere_volume r / 1.
(** cosmological_distribution.py:74-88 *)
Definition time_adjustment (rate : option bool) (z : R) : R := match rate with Some true => 1 + z | _ => 1 end.

Section Cosmo.
(** The speed of light, the densities of radiation, matter, and the Hubble constant. *)
Variables sol rel Om h0 : R.
Notation volume := (differential_comoving_volume sol rel Om h0).
(** cosmological_distribution.py:200-207 *)
Definition dens_zpow_cosmo (rate : option bool) (Lambda delta z : R) : R :=
  Lambda * Rpower (z + 1) delta * volume z / time_adjustment rate z.
(** cosmological_distribution.py:136-156.  [np.power(0, d)] is 0 for positive [d]. *)
Definition np_power (x a : R) : R := if Req_EM_T x 0 then (if Req_EM_T a 0 then 1 else 0) else Rpower x a.
Definition dens_sfr (rate : option bool) (r0 a rise decay peak z : R) : R :=
  r0 * (a + rise * z) / (1 + np_power (z / peak) decay) * volume z / time_adjustment rate z.
(** uniform_distribution.py:97-99 *)
Definition dens_uniform_cosmo (rate : option bool) (r0 zmin zmax z : R) : R :=
  r0 / (zmax - zmin) * volume z / time_adjustment rate z.

Variable m : machine.
Notation E := (real_env m).
(** The formulas of the spatial classes by name; the arguments are in the order of
    [sc_reads] of LibPopModel.v.  The other formulas are left out of [lib]. *)
Definition lib_dens (cls : string) (rate : option bool) (vals : list R) (r : R) : res R :=
  match vals with
  | [l] => if String.eqb cls "ConstantSphericalDistribution" then Ok (dens_sphere l r)
           else if String.eqb cls "FlatlandDistribution" then Ok (dens_flatland l r) else Err Unmodelled
  | [l; d] => if String.eqb cls "ZPowerSphericalDistribution" then Ok (dens_zpow_sphere l d r)
              else if String.eqb cls "ZPowerCosmoDistribution" then Ok (dens_zpow_cosmo rate l d r) else Err Unmodelled
  | [r0; z1; z2] => if String.eqb cls "UniformCosmoDistribution" then Ok (dens_uniform_cosmo rate r0 z1 z2 r) else Err Unmodelled
  | [x1; x2; x3; x4; x5] =>
      if String.eqb cls "SFRDistribution" then Ok (dens_sfr rate x1 x2 x3 x4 x5 r)
      else if String.eqb cls "SpiralGalaxyDistribution" then Ok (dens_spiral x1 x2 x3 x4 x5 r) else Err Unmodelled
  | _ => Err Unmodelled
  end.
Definition lib_flux (cls : string) (L r : R) : R :=
  if existsb (String.eqb cls) ["ZPowerCosmoDistribution"; "SFRDistribution"; "UniformCosmoDistribution"] then cosmo_flux sol Om h0 L r
  else if String.eqb cls "FlatlandDistribution" then L else spherical_flux L r.
(** The formulas of the library; sky positions, luminosities and latex forms are
    arbitrary here. *)
Definition lib (sky : string -> option (list R -> nat -> mc_st m -> res (spvals E) * mc_st m))
    (draw : string -> list R -> nat -> mc_st m -> res (list R) * mc_st m)
    (phi : string -> list R -> R -> res R) (form : string -> string) : formulas E :=
  @Formulas E lib_dens lib_flux sky draw phi form.
End Cosmo.
(** The two spatial classes the predefined populations do not use. *)
Section More.
Variable m : machine.
Notation E := (real_env m).
Variable fo : formulas E.
(** flatland_distribution.py:4-38 *)
Definition FlatlandDistribution : option bool -> spobj E :=
  spatial fo "FlatlandDistribution" "flatland" [r_max_decl E; ("Lambda", decl E (Some 1) (Some 0) false)] ["Lambda"].
(** uniform_distribution.py:51-99 *)
Definition UniformCosmoDistribution : option bool -> spobj E :=
  spatial fo "UniformCosmoDistribution" "uniform_cosmo"
    [r_max_decl E; ("r0", decl E None (Some 0) true); ("zmin", decl E None (Some 0) false); ("zmax", decl E None (Some 0) false)]
    ["r0"; "zmin"; "zmax"].
End More.
(** [quad] gives the integral of what it can evaluate and integrate. *)
Definition quad_exact (m : machine) : Prop :=
  forall f g a b, (forall x, Rmin a b < x < Rmax a b -> f x = Ok (g x)) -> ex_RInt g a b -> mc_quad m f a b = Ok (RInt g a b).
