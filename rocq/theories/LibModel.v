(** Model of the numerical code of the library over the real numbers: broken power
    law, bounded power law, luminosity densities and draws, sky positions, viewing
    angles, cosmology, fluxes and truncated samplers.

    Simplifications, everywhere in this file: real numbers instead of floats
    ([float32] for the cosmological parameters, cosmology.py:13-14), no [fastmath]
    (plaw_aux_sampler.py:159), one value instead of an array.  [np.power(x, a)] is
    [Rpower x a], that is exp(a log x), which is right for x > 0 only: the theorems
    assume what makes all bases positive.  A random draw is a function of the
    uniform or normal variate it is made from. *)
From Coq Require Import Reals Lra.
From Coquelicot Require Import Coquelicot.
Open Scope R_scope.

Definition ltb (x y : R) : bool := if Rlt_dec x y then true else false.
Definition leb (x y : R) : bool := if Rle_dec x y then true else false.

(** ** Broken power law (bpl_distribution.py) *)
(** [integrate_pl] (68-94): the two pieces, the weights and the total. *)
Definition int_1 (x0 x1 x2 a1 a2 : R) : R := (Rpower x1 (a1 + 1) - Rpower x0 (a1 + 1)) / (a1 + 1).
Definition int_2 (x0 x1 x2 a1 a2 : R) : R := Rpower x1 (a1 - a2) * (Rpower x2 (a2 + 1) - Rpower x1 (a2 + 1)) / (a2 + 1).
Definition integrate_pl (x0 x1 x2 a1 a2 : R) : R * R * R :=
  let i1 := int_1 x0 x1 x2 a1 a2 in
  let i2 := int_2 x0 x1 x2 a1 a2 in
  let total := i1 + i2 in
  (i1 / total, i2 / total, total).
Definition weight1 x0 x1 x2 a1 a2 : R := fst (fst (integrate_pl x0 x1 x2 a1 a2)).
Definition weight2 x0 x1 x2 a1 a2 : R := snd (fst (integrate_pl x0 x1 x2 a1 a2)).
(** [bpl] (97-130) *)
Definition bpl (x x0 x1 x2 a1 a2 : R) : R :=
  let C := snd (integrate_pl x0 x1 x2 a1 a2) in
  let norm := 1 / C in
  let out := if andb (ltb x0 x) (ltb x x1) then Rpower x a1
             else if andb (leb x1 x) (ltb x x2) then Rpower x a2 * Rpower x1 (a1 - a2)
             else 0 in
  out * norm.
(** [sample_bpl] (133-171): [success] is the Bernoulli trial with probability
    [weight1], [u] the uniform variate. *)
Definition sample_bpl (success : bool) (u x0 x1 x2 a1 a2 : R) : R :=
  if success then Rpower (u * (Rpower x1 (a1 + 1) - Rpower x0 (a1 + 1)) + Rpower x0 (a1 + 1)) (1 / (1 + a1))
  else Rpower (u * (Rpower x2 (a2 + 1) - Rpower x1 (a2 + 1)) + Rpower x1 (a2 + 1)) (1 / (1 + a2)).
(** [BPLDistribution.phi] (47-57), [quad] being the integral. *)
Definition bpl_phi (Lmin Lbreak Lmax alpha beta L : R) : R :=
  let f := fun ll => bpl ll Lmin Lbreak Lmax alpha beta in
  f L / RInt f Lmin Lmax.

(** ** Bounded power law: [_sample_power_law] (plaw_aux_sampler.py:159-182) *)
Definition sample_power_law (xmin xmax alpha u : R) : R :=
  if Req_EM_T alpha (-1) then xmin * exp (u / (1 / ln (xmax / xmin)))
  else Rpower ((Rpower xmax (alpha + 1) - Rpower xmin (alpha + 1)) * u + Rpower xmin (alpha + 1)) (1 / (alpha + 1)).

(** ** Luminosity densities and draws *)
(** [np.random.pareto(a)] of numpy: [expm1(e / a)] with [e = -log(1 - u)]. *)
Definition np_pareto (a u : R) : R := exp (- ln (1 - u) / a) - 1.
(** pareto_distribution.py:33-47 *)
Definition pareto_phi (Lmin alpha L : R) : R :=
  if leb Lmin L then alpha * Rpower Lmin alpha / Rpower L (alpha + 1) else 0.
Definition pareto_draw (Lmin alpha u : R) : R := (np_pareto alpha u + 1) * Lmin.
(** uniform_distribution.py:42-48; scipy's log-uniform law is exp of a uniform one. *)
Definition loguni_phi (Lmin Lmax L : R) : R := 1 / (L * ln (Lmax / Lmin)).
Definition loguni_draw (Lmin Lmax u : R) : R := exp (ln Lmin + u * (ln Lmax - ln Lmin)).
(** log_normal_distribution.py:35-43; [z] is the normal variate of mean [mu] and
    standard deviation [tau] of which [np.random.lognormal] takes the exponential. *)
Definition lognorm_phi (mu tau L : R) : R :=
  (1 / (tau * L * sqrt (2 * PI))) * exp (- (ln L - mu) ^ 2 / (2 * tau ^ 2)).
Definition lognorm_draw (z : R) : R := exp z.
(** log10_normal_distribution.py:33-43 *)
Definition log10 (x : R) : R := ln x / ln 10.
Definition log10norm_phi (mu tau L : R) : R :=
  (1 / (tau * L * sqrt (2 * PI))) * exp (- (log10 L - mu) ^ 2 / (2 * tau ^ 2)).
Definition log10norm_draw (z : R) : R := Rpower 10 z.

(** ** Sky positions *)
Definition rad2deg (x : R) : R := x * (180 / PI).
Definition deg2rad (x : R) : R := x * (PI / 180).
(** [np.random.uniform(low, high)] of numpy: [low + (high - low) * u]. *)
Definition np_uniform (low high u : R) : R := low + (high - low) * u.
(** spherical_geometry.py:4-25 *)
Definition theta (u : R) : R := acos (1 - 2 * np_uniform 0 1 u).
Definition phi (u : R) : R := np_uniform 0 (2 * PI) u.
Definition xyz (r th ph : R) : R * R * R := (r * sin th * cos ph, r * sin th * sin ph, r * cos th).
(** [dec], [ra] (distribution.py:152-158, 254-272) *)
Definition dec (th : R) : R := 90 - rad2deg th.
Definition ra (ph : R) : R := rad2deg ph.
(** The angle SpiralGalaxyDistribution stores as [_theta]
    (spiral_galaxy_distribution.py:73-98): arm parameters [k], [r0], [t0] of one of
    the four arms, [u] the uniform variate of [winklcor]. *)
Definition spiral_theta (k r0 t0 dist u : R) : R :=
  let tet := k * ln (dist / r0) + t0 in
  let corrtet := np_uniform 0 (2 * PI) u * exp (- (35 / 100) * dist) in
  tet + corrtet.

(** ** Viewing angle (viewing_angle_sampler.py:26-44), in radians *)
Definition va_true (max_angle u : R) : R := acos (1 - np_uniform 0 (1 - cos (deg2rad max_angle)) u).
Definition va_prob (max_angle va : R) : R := sin va / (1 - cos (deg2rad max_angle)).

(** ** Cosmology (cosmology.py:63-121).  [sol] is the speed of light, [rel] the sum of
    the neutrino and photon densities taken from astropy (23-24). *)
Definition Om_reduced (Om : R) : R := (1 - Om) / Om.
Definition Phi (x : R) : R :=
  (1 + 1320 / 1000 * x + 441 / 1000 * (x * x) + 2656 / 100000 * (x * x * x)) /
  (1 + 1392 / 1000 * x + 5121 / 10000 * (x * x) + 3944 / 100000 * (x * x * x)).
Definition xx (Om z : R) : R := Om_reduced Om / (1 + z) ^ 3.
Definition dh (sol h0 : R) : R := sol * (1 / 1000) / h0.
Definition Mpc : R := 3086 * 10 ^ 21.
Definition luminosity_distance (sol Om h0 z : R) : R :=
  let x := xx Om z in
  let z1 := 1 + z in
  (2 * dh sol h0 * z1 / sqrt Om) * (Phi (xx Om 0) - 1 / sqrt z1 * Phi x) * Mpc.
Definition cosmo_a (rel Om z : R) : R := sqrt ((1 + z) ^ 3 * Om + (1 - Om - rel)).
Definition comoving_transverse_distance (sol Om h0 z : R) : R := luminosity_distance sol Om h0 z / (1 + z).
Definition differential_comoving_volume (sol rel Om h0 z : R) : R :=
  let td := comoving_transverse_distance sol Om h0 z / Mpc in
  dh sol h0 * td * td / cosmo_a rel Om z * (1 / 10 ^ 9).

(** ** Fluxes *)
(** spherical_distribution.py:36-40 *)
Definition spherical_flux (L r : R) : R := let r := r + 1 in L / (4 * PI * r * r).
(** cosmological_distribution.py:58-72 *)
Definition cosmo_flux (sol Om h0 L z : R) : R := L / (4 * PI * luminosity_distance sol Om h0 z ^ 2).

(** ** Truncated samplers.  [scipy.stats.truncnorm.rvs(a, b, loc, scale)] gives
    [loc + scale * z] with [z] in [[a, b]]; [ppf] is [scipy.stats.norm.ppf(1e-5)]. *)
(** trunc_normal_aux_sampler.py:45-56 *)
Definition tn_bounds (mu tau lower upper : R) : R * R := ((lower - mu) / tau, (upper - mu) / tau).
Definition tn_value (mu tau z : R) : R := mu + tau * z.
(** trunc_lognormal_aux_sampler.py:42-62 *)
Definition tln_bounds (ppf mu tau lower upper : R) : R * R :=
  let a := if Req_EM_T lower 0 then mu + tau * ppf else ln lower in
  ((a - mu) / tau, (ln upper - mu) / tau).
Definition tln_value (mu tau z : R) : R := exp (mu + tau * z).
(** trunc_lognormal_aux_sampler.py:117-137 *)
Definition tl10_bounds (ppf mu tau lower upper : R) : R * R :=
  let a := if Req_EM_T lower 0 then mu + tau * ppf else ln lower in
  ((a - mu) / tau, (log10 upper - mu) / tau).
Definition tl10_value (mu tau z : R) : R := Rpower 10 (mu + tau * z).
(** The assertions at the end of each [true_sampler]. *)
Definition in_bounds (lower upper v : R) : Prop := lower <= v <= upper.
