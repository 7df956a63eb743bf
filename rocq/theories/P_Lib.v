(** C49-C56: the numerical code over the real numbers. *)
From Coq Require Import Reals Lra.
From Coquelicot Require Import Coquelicot.
From Verif Require Import LibModel LibSpec LibProofs LibLum LibGeo LibHubble LibFit LibExamples.
Open Scope R_scope.

(** C49.  Cases: [bpl_weights], [bpl_at_3], [bpl_sample]. *)
Theorem C49_weights x0 x1 x2 a1 a2 : 0 < x0 -> x0 < x1 -> x1 < x2 -> a1 <> -1 -> a2 <> -1 ->
  0 < weight1 x0 x1 x2 a1 a2 /\ 0 < weight2 x0 x1 x2 a1 a2 /\
  weight1 x0 x1 x2 a1 a2 + weight2 x0 x1 x2 a1 a2 = 1.
Proof. exact (weights x0 x1 x2 a1 a2). Qed.
Theorem C49_samples_in_range x0 x1 x2 a1 a2 success u :
  0 < x0 -> x0 < x1 -> x1 < x2 -> a1 <> -1 -> a2 <> -1 -> 0 <= u <= 1 ->
  x0 <= sample_bpl success u x0 x1 x2 a1 a2 <= x2.
Proof. intros. now apply sample_range. Qed.
Theorem C49_lower_branch_inverts x0 x1 x2 a1 a2 u :
  0 < x0 -> x0 < x1 -> a1 <> -1 -> 0 <= u <= 1 ->
  quantile (fun x => Rpower x a1) x0 x1 u (sample_bpl true u x0 x1 x2 a1 a2).
Proof. intros. rewrite sample_lo by assumption. apply spl_quantile; auto. Qed.
Theorem C49_upper_branch_inverts x0 x1 x2 a1 a2 u :
  0 < x1 -> x1 < x2 -> a2 <> -1 -> 0 <= u <= 1 ->
  quantile (fun x => Rpower x a2) x1 x2 u (sample_bpl false u x0 x1 x2 a1 a2).
Proof. intros. rewrite sample_hi by assumption. apply spl_quantile; auto. Qed.
Theorem C49_density_integrates_to_one x0 x1 x2 a1 a2 :
  0 < x0 -> x0 < x1 -> x1 < x2 -> a1 <> -1 -> a2 <> -1 ->
  is_RInt (fun x => bpl x x0 x1 x2 a1 a2) x0 x2 1.
Proof. exact (bpl_one x0 x1 x2 a1 a2). Qed.
(** Both branches together, with their weights, give each interval the probability
    that the density gives it. *)
Theorem C49_samples_follow_density x0 x1 x2 a1 a2 a b :
  0 < x0 -> x0 < x1 -> x1 < x2 -> a1 <> -1 -> a2 <> -1 -> x0 <= a <= b -> b <= x2 ->
  exists p1 p2,
    uniform_prob (fun u => sample_bpl true u x0 x1 x2 a1 a2) a b p1 /\
    uniform_prob (fun u => sample_bpl false u x0 x1 x2 a1 a2) a b p2 /\
    is_RInt (fun x => bpl x x0 x1 x2 a1 a2) a b (weight1 x0 x1 x2 a1 a2 * p1 + weight2 x0 x1 x2 a1 a2 * p2).
Proof. intros. now apply bpl_law. Qed.
(** The luminosity distribution's density is this density. *)
Theorem C49_luminosity_density Lmin Lbreak Lmax alpha beta L :
  0 < Lmin -> Lmin < Lbreak -> Lbreak < Lmax -> alpha <> -1 -> beta <> -1 ->
  bpl_phi Lmin Lbreak Lmax alpha beta L = bpl L Lmin Lbreak Lmax alpha beta.
Proof. intros. now apply bpl_phi_bpl. Qed.

(** C50.  Case: [power_law_sample]. *)
Theorem C50_samples_follow_power_law xmin xmax alpha u : 0 < xmin < xmax -> 0 <= u <= 1 ->
  quantile (fun x => Rpower x alpha) xmin xmax u (sample_power_law xmin xmax alpha u).
Proof. exact (spl_quantile xmin xmax alpha u). Qed.
Theorem C50_increasing_in_the_draw xmin xmax alpha : 0 < xmin < xmax ->
  increasing_on (sample_power_law xmin xmax alpha) 0 1.
Proof. exact (spl_increasing xmin xmax alpha). Qed.
Theorem C50_ends xmin xmax alpha : 0 < xmin < xmax ->
  sample_power_law xmin xmax alpha 0 = xmin /\ sample_power_law xmin xmax alpha 1 = xmax.
Proof. exact (spl_ends xmin xmax alpha). Qed.

(** C51.  Cases: [pareto_median], [pareto_half]. *)
Theorem C51_pareto Lmin alpha a b : 0 < Lmin -> 0 < alpha -> a <= b ->
  exists p, is_RInt (pareto_phi Lmin alpha) a b p /\ uniform_prob (pareto_draw Lmin alpha) a b p.
Proof. exact (pareto_law Lmin alpha a b). Qed.
Theorem C51_log_uniform Lmin Lmax a b : 0 < Lmin < Lmax -> Lmin <= a <= b -> b <= Lmax ->
  exists p, is_RInt (loguni_phi Lmin Lmax) a b p /\ uniform_prob (loguni_draw Lmin Lmax) a b p.
Proof. exact (loguni_law Lmin Lmax a b). Qed.
Theorem C51_log_normal mu tau a b : 0 < tau -> 0 < a <= b ->
  exists p, is_RInt (lognorm_phi mu tau) a b p /\ normal_prob mu tau lognorm_draw a b p.
Proof. exact (lognorm_law mu tau a b). Qed.
(** The log10-normal density is too large by the factor log 10, on every interval. *)
Theorem C51_log10_normal_refuted mu tau a b : 0 < tau -> 0 < a < b ->
  ~ exists p, is_RInt (log10norm_phi mu tau) a b p /\ normal_prob mu tau log10norm_draw a b p.
Proof. exact (log10norm_refuted mu tau a b). Qed.
Theorem C51_log10_normal_factor mu tau a b : 0 < tau -> 0 < a < b ->
  exists p, 0 < p /\ normal_prob mu tau log10norm_draw a b p /\ is_RInt (log10norm_phi mu tau) a b (ln 10 * p).
Proof. exact (log10norm_law mu tau a b). Qed.
(** The log-uniform density does not vanish where nothing is drawn. *)
Theorem C51_log_uniform_outside_refuted Lmin Lmax a b : 0 < Lmin < Lmax -> Lmax < a < b ->
  ~ exists p, is_RInt (loguni_phi Lmin Lmax) a b p /\ uniform_prob (loguni_draw Lmin Lmax) a b p.
Proof. exact (loguni_refuted Lmin Lmax a b). Qed.

(** C52.  Case: [theta_half]. *)
Theorem C52_angles u v : 0 <= u < 1 -> 0 <= v < 1 ->
  0 <= theta u <= PI /\ 0 <= phi v < 2 * PI /\ -90 <= dec (theta u) <= 90 /\ 0 <= ra (phi v) < 360.
Proof.
  intros Hu Hv. split; [apply theta_range|]. split; [now apply phi_range|].
  split; [apply dec_range, theta_range|now apply ra_range, phi_range].
Qed.
Theorem C52_norm r th ph : norm2 (xyz r th ph) = r * r.
Proof. exact (xyz_norm r th ph). Qed.
Theorem C52_cos_theta_uniform a b : -1 <= a <= b -> b <= 1 ->
  uniform_prob (fun u => cos (theta u)) a b ((b - a) / 2).
Proof. exact (cos_theta_uniform a b). Qed.
Theorem C52_phi_uniform a b : 0 <= a <= b -> b <= 2 * PI -> uniform_prob phi a b ((b - a) / (2 * PI)).
Proof. exact (phi_uniform a b). Qed.
(** SpiralGalaxyDistribution: on its first arm at distance 20 the polar angle is
    above pi and the declination below -90, whatever the draw. *)
Theorem C52_spiral_galaxy_refuted u : 0 <= u < 1 ->
  PI < spiral_theta (425 / 100) (348 / 100) 0 20 u /\ dec (spiral_theta (425 / 100) (348 / 100) 0 20 u) < -90.
Proof. intros Hu. pose proof (spiral_big u Hu). split; [assumption|now apply dec_low]. Qed.

(** C53.  Case: [va_half]. *)
Theorem C53_in_range m u : 0 < m <= 180 -> 0 <= u <= 1 -> 0 <= va_true m u <= deg2rad m.
Proof. intros Hm Hu. now apply (va_true_F m Hm). Qed.
Theorem C53_density_integrates_to_one m : 0 < m <= 180 -> is_RInt (va_prob m) 0 (deg2rad m) 1.
Proof. exact (va_one m). Qed.
Theorem C53_draws_follow_density m a b : 0 < m <= 180 -> 0 <= a <= b -> b <= deg2rad m ->
  exists p, is_RInt (va_prob m) a b p /\ uniform_prob (va_true m) a b p.
Proof. intros Hm. exact (va_law m Hm a b). Qed.

(** C54.  Case: [default_cosmology]. *)
Theorem C54_zero_at_zero sol Om h0 : luminosity_distance sol Om h0 0 = 0.
Proof. exact (ld_zero sol Om h0). Qed.
Theorem C54_positive sol Om h0 z : 0 < sol -> 0 < Om < 1 -> 0 < h0 -> 0 < z -> 0 < luminosity_distance sol Om h0 z.
Proof. exact (fun a b c => ld_pos sol Om h0 a b c z). Qed.
Theorem C54_strictly_increasing sol Om h0 x y : 0 < sol -> 0 < Om < 1 -> 0 < h0 -> 0 <= x < y ->
  luminosity_distance sol Om h0 x < luminosity_distance sol Om h0 y.
Proof. exact (fun a b c => ld_increasing sol Om h0 a b c x y). Qed.
Theorem C54_volume_nonnegative sol Om h0 rel z : 0 < sol -> 0 < Om < 1 -> 0 < h0 -> 0 <= rel < 1 -> 0 <= z ->
  0 <= differential_comoving_volume sol rel Om h0 z /\
  (0 < z -> 0 < differential_comoving_volume sol rel Om h0 z).
Proof. intros. split; [now apply volume_nonneg|intros; now apply volume_pos]. Qed.

(** Near objects, in the default cosmology: the slope at redshift 0 is the speed of light (m/s)
    over the Hubble constant (km/s/Mpc), in cm, to one part in a thousand. *)
Theorem C54_hubble_law sol h0 : 0 < sol -> 0 < h0 -> exists D, is_derive (luminosity_distance sol (307 / 1000) h0) 0 D /\
  Rabs (D - sol / 1000 / h0 * (3086 / 1000 * 10 ^ 24)) <= / 1000 * (sol / 1000 / h0 * (3086 / 1000 * 10 ^ 24)).
Proof. exact (hubble sol h0). Qed.
(** Case: [default_cosmology] has Om = 307/1000. *)
Theorem C54_accuracy sol Om h0 z : 0 < sol -> 3 / 10 <= Om < 1 -> 0 < h0 -> 0 <= z -> exists T,
  is_RInt (fun t => / sqrt (Om * (1 + t) ^ 3 + (1 - Om))) 0 z T /\
  let true_distance := (1 + z) * (sol / 1000 / h0) * T * (3086 / 1000 * 10 ^ 24) in
  Rabs (luminosity_distance sol Om h0 z - true_distance) <= 3 / 1000 * true_distance.
Proof. exact (ld_fits sol Om h0 z). Qed.
(** With a matter density below 1/100 near objects are more than five times farther than
    Hubble's law says. *)
Theorem C54_little_matter_refuted sol Om h0 : 0 < sol -> 0 < Om <= 1 / 100 -> 0 < h0 ->
  exists D, is_derive (luminosity_distance sol Om h0) 0 D /\ 5 * (sol / 1000 / h0 * (3086 / 1000 * 10 ^ 24)) <= D.
Proof. exact (little_matter sol Om h0). Qed.
Theorem C54_volume_accuracy sol rel Om h0 z : 0 < sol -> 3 / 10 <= Om < 1 -> 0 < h0 -> 0 <= rel < 1 -> 0 <= z -> exists T,
  is_RInt (fun t => / sqrt (Om * (1 + t) ^ 3 + (1 - Om))) 0 z T /\
  let true_volume := (sol / 1000 / h0 / 1000) ^ 3 * T ^ 2 / sqrt (Om * (1 + z) ^ 3 + (1 - Om - rel)) in
  Rabs (differential_comoving_volume sol rel Om h0 z - true_volume) <= 7 / 1000 * true_volume.
Proof. exact (volume_fits sol rel Om h0 z). Qed.
Theorem C54_einstein_de_sitter sol h0 z : 0 < h0 -> 0 <= z ->
  luminosity_distance sol 1 h0 z = 2 * (sol / 1000 / h0) * (1 + z - sqrt (1 + z)) * (3086 / 1000 * 10 ^ 24).
Proof. exact (ld_einstein_de_sitter sol h0 z). Qed.

(** C55.  Case: [flux_at_one]. *)
Theorem C55_spherical L r : 0 < L -> 0 <= r ->
  0 < spherical_flux L r /\ (forall c, spherical_flux (c * L) r = c * spherical_flux L r) /\
  (forall r', r < r' -> spherical_flux L r' < spherical_flux L r).
Proof.
  intros HL Hr. split; [now apply sf_pos|]. split; [intros; apply sf_prop|intros; now apply sf_decreasing].
Qed.
Theorem C55_cosmological sol Om h0 L z : 0 < sol -> 0 < Om < 1 -> 0 < h0 -> 0 < L -> 0 < z ->
  0 < cosmo_flux sol Om h0 L z /\ (forall c, cosmo_flux sol Om h0 (c * L) z = c * cosmo_flux sol Om h0 L z) /\
  (forall z', z < z' -> cosmo_flux sol Om h0 L z' < cosmo_flux sol Om h0 L z).
Proof.
  intros Hs Ho Hh HL Hz. split; [now apply cf_pos|]. split; [intros; apply cf_prop|intros; now apply cf_decreasing].
Qed.
(** The flux spreads over the sphere of radius r + 1, not r. *)
Theorem C55_inverse_square_refuted L r : 0 < L -> 0 <= r -> spherical_flux L r * (4 * PI * r ^ 2) < L.
Proof. exact (sf_less L r). Qed.
Theorem C55_inverse_square_of_shifted_distance L r : 0 <= r -> spherical_flux L r * (4 * PI * (r + 1) ^ 2) = L.
Proof. exact (sf_exact L r). Qed.

(** C56.  Case: [trunc_bounds].  Every draw is in range, and every value in range is
    the value of some admissible draw. *)
Theorem C56_normal mu tau lower upper : 0 < tau ->
  (forall z, fst (tn_bounds mu tau lower upper) <= z <= snd (tn_bounds mu tau lower upper) ->
     in_bounds lower upper (tn_value mu tau z)) /\
  (forall v, in_bounds lower upper v -> exists z,
     fst (tn_bounds mu tau lower upper) <= z <= snd (tn_bounds mu tau lower upper) /\ tn_value mu tau z = v).
Proof.
  intros Ht. split.
  - intros z. now apply tn_iff.
  - intros v Hv. exists ((v - mu) / tau). split; [|now apply tn_onto]. apply tn_iff; [assumption|]. now rewrite tn_onto.
Qed.
Theorem C56_log_normal ppf mu tau lower upper : 0 < tau -> 0 < lower < upper ->
  (forall z, fst (tln_bounds ppf mu tau lower upper) <= z <= snd (tln_bounds ppf mu tau lower upper) ->
     in_bounds lower upper (tln_value mu tau z)) /\
  (forall v, in_bounds lower upper v -> exists z,
     fst (tln_bounds ppf mu tau lower upper) <= z <= snd (tln_bounds ppf mu tau lower upper) /\ tln_value mu tau z = v).
Proof.
  intros Ht Hl. split.
  - intros z. apply tln_iff; lra.
  - intros v Hv. unfold in_bounds in Hv. exists ((ln v - mu) / tau). split; [|apply tln_onto; lra].
    apply tln_iff; [lra..|]. rewrite tln_onto by lra. exact Hv.
Qed.
(** With lower bound zero draws are in range, but a neighbourhood of zero is never
    reached. *)
Theorem C56_log_normal_zero_in_range ppf mu tau upper z : 0 < tau -> 0 < upper ->
  fst (tln_bounds ppf mu tau 0 upper) <= z <= snd (tln_bounds ppf mu tau 0 upper) ->
  in_bounds 0 upper (tln_value mu tau z).
Proof. intros Ht Hu Hz. now apply (tln_zero ppf mu tau upper z). Qed.
Theorem C56_log_normal_zero_unreachable_refuted ppf mu tau upper : 0 < tau -> 0 < upper ->
  exists v, 0 < v /\ in_bounds 0 upper v /\ forall z,
    fst (tln_bounds ppf mu tau 0 upper) <= z <= snd (tln_bounds ppf mu tau 0 upper) -> tln_value mu tau z <> v.
Proof.
  intros Ht Hu. pose proof (exp_pos (mu + tau * ppf)) as P. exists (Rmin upper (exp (mu + tau * ppf) / 2)).
  assert (Q : Rmin upper (exp (mu + tau * ppf) / 2) <= exp (mu + tau * ppf) / 2) by apply Rmin_r.
  assert (0 < Rmin upper (exp (mu + tau * ppf) / 2)) by (apply Rmin_glb_lt; lra).
  split; [assumption|]. split; [split; [lra|apply Rmin_l]|]. intros z Hz.
  pose proof (proj2 (tln_zero ppf mu tau upper z Ht Hu Hz)). lra.
Qed.
(** The log10 sampler takes the natural logarithm of the lower bound. *)
Theorem C56_log10_normal_exact ppf mu tau lower upper z : 0 < tau -> 0 < lower -> 0 < upper ->
  (fst (tl10_bounds ppf mu tau lower upper) <= z <= snd (tl10_bounds ppf mu tau lower upper) <->
   Rpower 10 (ln lower) <= tl10_value mu tau z <= upper).
Proof. exact (tl10_iff ppf mu tau lower upper z). Qed.
(** With a lower bound below one, a draw can fall below it and the sampler's own
    assertion fails. *)
Theorem C56_log10_normal_below_one_refuted ppf mu tau lower upper : 0 < tau -> 0 < lower < 1 -> lower < upper ->
  exists z, fst (tl10_bounds ppf mu tau lower upper) <= z <= snd (tl10_bounds ppf mu tau lower upper) /\
    ~ in_bounds lower upper (tl10_value mu tau z).
Proof.
  intros Ht Hl Hu. pose proof (ten_ln_lt lower Hl) as T. exists ((log10 (Rpower 10 (ln lower)) - mu) / tau).
  pose proof (Rpower_pos 10 (ln lower)). split.
  - apply tl10_iff; [lra..|]. rewrite tl10_onto by lra. lra.
  - rewrite tl10_onto by lra. unfold in_bounds. lra.
Qed.
(** With a lower bound above one, part of the interval is never drawn. *)
Theorem C56_log10_normal_above_one_refuted ppf mu tau lower upper : 0 < tau -> 1 < lower < upper ->
  exists v, in_bounds lower upper v /\ v < Rpower 10 (ln lower) /\ forall z,
    fst (tl10_bounds ppf mu tau lower upper) <= z <= snd (tl10_bounds ppf mu tau lower upper) -> tl10_value mu tau z <> v.
Proof.
  intros Ht Hl. pose proof (ten_ln_gt lower ltac:(lra)) as T. exists lower. split; [unfold in_bounds; lra|]. split; [assumption|].
  intros z Hz E. apply tl10_iff in Hz; [|lra..]. lra.
Qed.

Print Assumptions C49_weights.
Print Assumptions C49_samples_in_range.
Print Assumptions C49_lower_branch_inverts.
Print Assumptions C49_upper_branch_inverts.
Print Assumptions C49_density_integrates_to_one.
Print Assumptions C49_samples_follow_density.
Print Assumptions C49_luminosity_density.
Print Assumptions C50_samples_follow_power_law.
Print Assumptions C50_increasing_in_the_draw.
Print Assumptions C50_ends.
Print Assumptions C51_pareto.
Print Assumptions C51_log_uniform.
Print Assumptions C51_log_normal.
Print Assumptions C51_log10_normal_refuted.
Print Assumptions C51_log10_normal_factor.
Print Assumptions C51_log_uniform_outside_refuted.
Print Assumptions C52_angles.
Print Assumptions C52_norm.
Print Assumptions C52_cos_theta_uniform.
Print Assumptions C52_phi_uniform.
Print Assumptions C52_spiral_galaxy_refuted.
Print Assumptions C53_in_range.
Print Assumptions C53_density_integrates_to_one.
Print Assumptions C53_draws_follow_density.
Print Assumptions C54_zero_at_zero.
Print Assumptions C54_positive.
Print Assumptions C54_strictly_increasing.
Print Assumptions C54_volume_nonnegative.
Print Assumptions C54_hubble_law.
Print Assumptions C54_accuracy.
Print Assumptions C54_little_matter_refuted.
Print Assumptions C54_volume_accuracy.
Print Assumptions C54_einstein_de_sitter.
Print Assumptions C55_spherical.
Print Assumptions C55_cosmological.
Print Assumptions C55_inverse_square_refuted.
Print Assumptions C55_inverse_square_of_shifted_distance.
Print Assumptions C56_normal.
Print Assumptions C56_log_normal.
Print Assumptions C56_log_normal_zero_in_range.
Print Assumptions C56_log_normal_zero_unreachable_refuted.
Print Assumptions C56_log10_normal_exact.
Print Assumptions C56_log10_normal_below_one_refuted.
Print Assumptions C56_log10_normal_above_one_refuted.
