(** Lemmas on the numerical model, third part: angles, cosmology, fluxes, truncation. *)
From Coq Require Import Reals Lra.
From Coquelicot Require Import Coquelicot.
From Verif Require Import LibModel LibSpec LibProofs LibLum.
Open Scope R_scope.

(** ** Sky positions *)
Lemma theta_range u : 0 <= theta u <= PI.
Proof. unfold theta. apply acos_bound. Qed.
Lemma cos_theta u : 0 <= u <= 1 -> cos (theta u) = 1 - 2 * u.
Proof. intros Hu. unfold theta, np_uniform. rewrite cos_acos; lra. Qed.
Lemma phi_range u : 0 <= u < 1 -> 0 <= phi u < 2 * PI.
Proof. intros Hu. unfold phi, np_uniform. pose proof PI_RGT_0. split; nra. Qed.
Lemma dec_range th : 0 <= th <= PI -> -90 <= dec th <= 90.
Proof.
  intros H. unfold dec, rad2deg. pose proof PI_RGT_0 as P.
  replace (th * (180 / PI)) with (180 * (th / PI)) by (field; lra).
  assert (0 <= th / PI <= 1); [|lra]. split.
  - apply Rmult_le_pos; [lra|]. left. apply Rinv_0_lt_compat. lra.
  - apply Rmult_le_reg_r with PI; [lra|]. unfold Rdiv. rewrite Rmult_assoc, Rinv_l; lra.
Qed.
Lemma ra_range ph : 0 <= ph < 2 * PI -> 0 <= ra ph < 360.
Proof.
  intros H. unfold ra, rad2deg. pose proof PI_RGT_0 as P.
  replace (ph * (180 / PI)) with (180 * (ph / PI)) by (field; lra).
  assert (0 <= ph / PI < 2); [|lra]. split.
  - apply Rmult_le_pos; [lra|]. left. apply Rinv_0_lt_compat. lra.
  - apply Rmult_lt_reg_r with PI; [lra|]. unfold Rdiv. rewrite Rmult_assoc, Rinv_l; lra.
Qed.
Lemma xyz_norm r th ph : norm2 (xyz r th ph) = r * r.
Proof.
  unfold norm2, xyz. pose proof (sin2_cos2 th) as A. pose proof (sin2_cos2 ph) as B. unfold Rsqr in *.
  replace (r * sin th * cos ph * (r * sin th * cos ph) + r * sin th * sin ph * (r * sin th * sin ph) + r * cos th * (r * cos th))
    with (r * r * (sin th * sin th * (sin ph * sin ph + cos ph * cos ph) + cos th * cos th)) by ring.
  rewrite B, Rmult_1_r, A. ring.
Qed.
Lemma cos_theta_uniform a b : -1 <= a <= b -> b <= 1 -> uniform_prob (fun u => cos (theta u)) a b ((b - a) / 2).
Proof.
  intros Ha Hb. exists ((1 - b) / 2), ((1 - a) / 2). split; [lra|]. split; [lra|]. split; [field|].
  intros u Hu. rewrite cos_theta by lra. split; intros; lra.
Qed.
Lemma phi_uniform a b : 0 <= a <= b -> b <= 2 * PI -> uniform_prob phi a b ((b - a) / (2 * PI)).
Proof.
  intros Ha Hb. pose proof PI_RGT_0 as P.
  pose proof (inv_prob (fun x => 0 <= x <= 2 * PI) (fun x => x / (2 * PI)) phi a b) as G. cbv beta in G.
  replace ((b - a) / (2 * PI)) with (b / (2 * PI) - a / (2 * PI)) by (field; lra).
  assert (I : 0 < / (2 * PI)) by (apply Rinv_0_lt_compat; lra).
  apply G; try lra.
  - intros x y _ _ Hxy. now apply Rmult_lt_compat_r.
  - intros u Hu. pose proof (phi_range u Hu). split; [lra|]. unfold phi, np_uniform. field. lra.
  - apply Rmult_le_pos; lra.
  - apply Rmult_le_reg_r with (2 * PI); [lra|]. unfold Rdiv. rewrite Rmult_assoc, Rinv_l; lra.
Qed.
(** SpiralGalaxyDistribution: the first arm at the edge of the disc. *)
Lemma spiral_big u : 0 <= u < 1 -> PI < spiral_theta (425 / 100) (348 / 100) 0 20 u.
Proof.
  intros Hu. unfold spiral_theta, np_uniform. pose proof PI_RGT_0. pose proof PI_4.
  assert (1 < ln (20 / (348 / 100))).
  { rewrite <- (ln_exp 1) at 1. apply ln_increasing; [apply exp_pos|].
    pose proof exp_le_3. lra. }
  assert (0 <= exp (- (35 / 100) * 20)) by (left; apply exp_pos).
  assert (0 <= (0 + (2 * PI - 0) * u) * exp (- (35 / 100) * 20)) by (apply Rmult_le_pos; nra). lra.
Qed.
Lemma dec_low th : PI < th -> dec th < -90.
Proof.
  intros H. unfold dec, rad2deg. pose proof PI_RGT_0 as P.
  replace (th * (180 / PI)) with (180 * (th / PI)) by (field; lra).
  assert (1 < th / PI); [|lra]. apply Rmult_lt_reg_r with PI; [lra|]. unfold Rdiv. rewrite Rmult_assoc, Rinv_l; lra.
Qed.

(** ** Viewing angle *)
Lemma deg2rad_range m : 0 < m <= 180 -> 0 < deg2rad m <= PI.
Proof.
  intros H. unfold deg2rad. pose proof PI_RGT_0 as P.
  replace (m * (PI / 180)) with (PI * (m / 180)) by field. nra.
Qed.
Lemma cos_lt_1 t : 0 < t <= PI -> cos t < 1.
Proof. intros H. rewrite <- cos_0. apply cos_decreasing_1; lra. Qed.
Section Va.
Variable m : R.
Hypothesis Hm : 0 < m <= 180.
Let M := deg2rad m.
Lemma va_pos : 0 < 1 - cos M.
Proof. pose proof (cos_lt_1 M (deg2rad_range m Hm)). lra. Qed.
Definition va_F (x : R) : R := (1 - cos x) / (1 - cos M).
Lemma va_F_lt x y : 0 <= x <= M -> 0 <= y <= M -> x < y -> va_F x < va_F y.
Proof.
  intros Hx Hy Hxy. unfold va_F. apply Rmult_lt_compat_r; [apply Rinv_0_lt_compat, va_pos|].
  pose proof (deg2rad_range m Hm) as HM. fold M in HM.
  pose proof (cos_decreasing_1 x y ltac:(lra) ltac:(lra) ltac:(lra) ltac:(lra) Hxy). lra.
Qed.
Lemma va_true_F u : 0 <= u <= 1 -> 0 <= va_true m u <= M /\ va_F (va_true m u) = u.
Proof.
  intros Hu. pose proof va_pos as P. pose proof (COS_bound M) as B. pose proof (deg2rad_range m Hm) as HM. fold M in HM.
  assert (E : cos (va_true m u) = 1 - (1 - cos M) * u).
  { unfold va_true, np_uniform. fold M. rewrite cos_acos; [ring|]. split; nra. }
  pose proof (acos_bound (1 - np_uniform 0 (1 - cos (deg2rad m)) u)) as A.
  change (0 <= va_true m u <= PI) in A. split.
  - split; [lra|]. apply Rnot_lt_le. intros C.
    pose proof (cos_decreasing_1 M (va_true m u) ltac:(lra) ltac:(lra) ltac:(lra) ltac:(lra) C). rewrite E in H. nra.
  - unfold va_F. rewrite E. field. lra.
Qed.
Lemma va_RInt a b : is_RInt (va_prob m) a b (va_F b - va_F a).
Proof.
  pose proof va_pos as P. apply (is_RInt_derive (V:=R_CompleteNormedModule) va_F).
  - intros x _. unfold va_F, va_prob. fold M. auto_derive; [exact I|]. field. lra.
  - intros x _. unfold va_prob. fold M. apply (ex_derive_continuous (V:=R_NormedModule)). auto_derive. exact I.
Qed.
Lemma va_law a b : 0 <= a <= b -> b <= M ->
  exists p, is_RInt (va_prob m) a b p /\ uniform_prob (va_true m) a b p.
Proof.
  intros Ha Hb. pose proof va_pos as P. pose proof (deg2rad_range m Hm) as HM. fold M in HM.
  exists (va_F b - va_F a). split; [apply va_RInt|].
  assert (F0 : va_F 0 = 0) by (unfold va_F; rewrite cos_0; field; lra).
  assert (F1 : va_F M = 1) by (unfold va_F; field; lra).
  apply (inv_prob (fun x => 0 <= x <= M)); try lra.
  - apply va_F_lt.
  - intros u Hu. apply va_true_F. lra.
  - destruct (proj1 Ha) as [H|<-]; [|lra]. rewrite <- F0. left. apply va_F_lt; lra.
  - destruct Hb as [H| ->]; [|lra]. rewrite <- F1. left. apply va_F_lt; lra.
Qed.
Lemma va_one : is_RInt (va_prob m) 0 M 1.
Proof.
  pose proof (va_RInt 0 M) as G. pose proof va_pos.
  match type of G with is_RInt _ _ _ ?e => replace e with 1 in G; [exact G|] end.
  unfold va_F. rewrite cos_0. field. lra.
Qed.
End Va.

(** ** Cosmology *)
Lemma Phi_bot x : 0 <= x -> 0 < 1 + 1392 / 1000 * x + 5121 / 10000 * (x * x) + 3944 / 100000 * (x * x * x).
Proof. intros H. assert (0 <= x * x) by nra. assert (0 <= x * x * x) by nra. lra. Qed.
Lemma Phi_top x : 0 <= x -> 0 < 1 + 1320 / 1000 * x + 441 / 1000 * (x * x) + 2656 / 100000 * (x * x * x).
Proof. intros H. assert (0 <= x * x) by nra. assert (0 <= x * x * x) by nra. lra. Qed.
Lemma Phi_pos x : 0 <= x -> 0 < Phi x.
Proof. intros H. unfold Phi. apply Rdiv_lt_0_compat; [now apply Phi_top|now apply Phi_bot]. Qed.
Definition dPhi (x : R) : R :=
  ((1320 / 1000 + 2 * (441 / 1000) * x + 3 * (2656 / 100000) * (x * x)) *
     (1 + 1392 / 1000 * x + 5121 / 10000 * (x * x) + 3944 / 100000 * (x * x * x)) -
   (1 + 1320 / 1000 * x + 441 / 1000 * (x * x) + 2656 / 100000 * (x * x * x)) *
     (1392 / 1000 + 2 * (5121 / 10000) * x + 3 * (3944 / 100000) * (x * x))) /
  (1 + 1392 / 1000 * x + 5121 / 10000 * (x * x) + 3944 / 100000 * (x * x * x)) ^ 2.
Lemma Phi_derive x : 0 <= x -> is_derive Phi x (dPhi x).
Proof.
  intros H. pose proof (Phi_bot x H) as B. unfold Phi, dPhi. auto_derive; [lra|]. field. lra.
Qed.
Lemma Phi_key x : 0 <= x -> 0 < Phi x + 6 * x * dPhi x.
Proof.
  intros H. pose proof (Phi_bot x H) as B. unfold Phi, dPhi.
  set (b := 1 + 1392 / 1000 * x + 5121 / 10000 * (x * x) + 3944 / 100000 * (x * x * x)) in *.
  set (t := 1 + 1320 / 1000 * x + 441 / 1000 * (x * x) + 2656 / 100000 * (x * x * x)).
  set (t' := 1320 / 1000 + 2 * (441 / 1000) * x + 3 * (2656 / 100000) * (x * x)).
  set (b' := 1392 / 1000 + 2 * (5121 / 10000) * x + 3 * (3944 / 100000) * (x * x)).
  replace (t / b + 6 * x * ((t' * b - t * b') / b ^ 2)) with ((t * b + 6 * x * (t' * b - t * b')) / b ^ 2) by (field; lra).
  apply Rdiv_lt_0_compat; [|apply pow_lt; lra]. unfold t, b, t', b'.
  assert (0 <= x * x) by nra. assert (0 <= x * x * x) by nra. assert (0 <= x * x * x * x) by nra.
  assert (0 <= x * x * x * x * x) by nra. assert (0 <= x * x * x * x * x * x) by nra. ring_simplify. nra.
Qed.
Lemma Phi6_increasing x y : 0 < x < y -> x * Phi x ^ 6 < y * Phi y ^ 6.
Proof.
  intros H. apply (incr_function (fun x => x * Phi x ^ 6) 0 p_infty (fun x => Phi x ^ 5 * (Phi x + 6 * x * dPhi x))); try easy.
  - intros z Hz _. cbn in Hz. evar_last.
    + apply (is_derive_mult (fun z => z) (fun z => Phi z ^ 6) z); [apply is_derive_id|apply (is_derive_pow Phi 6), Phi_derive; lra|].
      intros; apply Rmult_comm.
    + cbn. unfold plus, mult; cbn. unfold one; cbn. ring.
  - intros z Hz _. cbn in Hz. apply Rmult_lt_0_compat; [apply pow_lt, Phi_pos; lra|apply Phi_key; lra].
Qed.
Section Cosmo.
Variables sol Om h0 rel : R.
Hypothesis Hsol : 0 < sol.
Hypothesis HOm : 0 < Om < 1.
Hypothesis Hh : 0 < h0.
Hypothesis Hrel : 0 <= rel < 1.
Lemma k_pos : 0 < Om_reduced Om.
Proof. unfold Om_reduced. apply Rdiv_lt_0_compat; lra. Qed.
Definition gg (z : R) : R := 1 / sqrt (1 + z) * Phi (xx Om z).
Lemma xx_pos z : 0 <= z -> 0 < xx Om z.
Proof. intros H. unfold xx. apply Rdiv_lt_0_compat; [apply k_pos|apply pow_lt; lra]. Qed.
Lemma gg_pos z : 0 <= z -> 0 < gg z.
Proof.
  intros H. unfold gg. apply Rmult_lt_0_compat; [apply Rdiv_lt_0_compat; [lra|apply sqrt_lt_R0; lra]|].
  apply Phi_pos. left. now apply xx_pos.
Qed.
Lemma gg6 z : 0 <= z -> Om_reduced Om * gg z ^ 6 = xx Om z * Phi (xx Om z) ^ 6.
Proof.
  intros H. unfold gg. assert (S : 0 < sqrt (1 + z)) by (apply sqrt_lt_R0; lra).
  replace ((1 / sqrt (1 + z) * Phi (xx Om z)) ^ 6) with (1 / ((sqrt (1 + z) ^ 2) ^ 3) * Phi (xx Om z) ^ 6) by (field; lra).
  rewrite pow2_sqrt by lra. unfold xx at 2. field. lra.
Qed.
Lemma gg_decreasing x y : 0 <= x < y -> gg y < gg x.
Proof.
  intros H. apply Rnot_le_lt. intros C. pose proof (gg_pos x ltac:(lra)) as P. pose proof (gg_pos y ltac:(lra)) as Q.
  pose proof (pow_incr (gg x) (gg y) 6 ltac:(lra)) as C6. pose proof k_pos as K.
  assert (X : xx Om y < xx Om x).
  { unfold xx. apply Rmult_lt_compat_l; [assumption|]. apply Rinv_lt_contravar.
    - apply Rmult_lt_0_compat; apply pow_lt; lra.
    - assert (0 < (y - x) * ((1 + y) ^ 2 + (1 + y) * (1 + x) + (1 + x) ^ 2)); [|lra].
      apply Rmult_lt_0_compat; nra. }
  pose proof (Phi6_increasing (xx Om y) (xx Om x) (conj (xx_pos y ltac:(lra)) X)) as L.
  rewrite <- !gg6 in L by lra. nra.
Qed.
Lemma gg0 : gg 0 = Phi (xx Om 0).
Proof. unfold gg. rewrite Rplus_0_r, sqrt_1. field. Qed.
Lemma Mpc_pos : 0 < Mpc.
Proof. unfold Mpc. apply Rmult_lt_0_compat; [lra|apply pow_lt; lra]. Qed.
Lemma dh_pos : 0 < dh sol h0.
Proof. unfold dh. apply Rdiv_lt_0_compat; lra. Qed.
Definition scale : R := 2 * dh sol h0 / sqrt Om * Mpc.
Lemma scale_pos : 0 < scale.
Proof.
  unfold scale. apply Rmult_lt_0_compat; [|apply Mpc_pos]. apply Rdiv_lt_0_compat; [|apply sqrt_lt_R0; lra].
  pose proof dh_pos. lra.
Qed.
Lemma ld_gg z : luminosity_distance sol Om h0 z = scale * ((1 + z) * (gg 0 - gg z)).
Proof. rewrite gg0. unfold luminosity_distance, gg, scale. unfold Rdiv. ring. Qed.
Lemma ld_zero : luminosity_distance sol Om h0 0 = 0.
Proof. rewrite ld_gg. ring. Qed.
Lemma ld_increasing x y : 0 <= x < y -> luminosity_distance sol Om h0 x < luminosity_distance sol Om h0 y.
Proof.
  intros H. rewrite !ld_gg. pose proof scale_pos. apply Rmult_lt_compat_l; [assumption|].
  pose proof (gg_decreasing x y H). assert (0 <= gg 0 - gg x).
  { destruct (proj1 H) as [Hx|<-]; [|lra]. pose proof (gg_decreasing 0 x ltac:(lra)). lra. }
  nra.
Qed.
Lemma ld_pos z : 0 < z -> 0 < luminosity_distance sol Om h0 z.
Proof. intros H. rewrite <- ld_zero. apply ld_increasing. lra. Qed.
Lemma cosmo_a_pos z : 0 <= z -> 0 < cosmo_a rel Om z.
Proof.
  intros H. unfold cosmo_a. apply sqrt_lt_R0. assert (1 <= (1 + z) ^ 3); [|nra]. apply pow_R1_Rle. lra.
Qed.
Lemma volume_nonneg z : 0 <= z -> 0 <= differential_comoving_volume sol rel Om h0 z.
Proof.
  intros H. unfold differential_comoving_volume. pose proof dh_pos. pose proof (cosmo_a_pos z H).
  apply Rmult_le_pos; [|left; apply Rdiv_lt_0_compat; [lra|apply pow_lt; lra]].
  apply Rmult_le_pos; [|left; now apply Rinv_0_lt_compat]. rewrite Rmult_assoc. apply Rmult_le_pos; [lra|apply Rle_0_sqr].
Qed.
Lemma volume_pos z : 0 < z -> 0 < differential_comoving_volume sol rel Om h0 z.
Proof.
  intros H. unfold differential_comoving_volume. pose proof dh_pos. pose proof (cosmo_a_pos z ltac:(lra)).
  assert (0 < comoving_transverse_distance sol Om h0 z / Mpc).
  { apply Rdiv_lt_0_compat; [|apply Mpc_pos]. apply Rdiv_lt_0_compat; [now apply ld_pos|lra]. }
  apply Rmult_lt_0_compat; [|apply Rdiv_lt_0_compat; [lra|apply pow_lt; lra]].
  apply Rdiv_lt_0_compat; [|assumption]. apply Rmult_lt_0_compat; [|assumption]. apply Rmult_lt_0_compat; lra.
Qed.

(** ** Fluxes *)
Lemma cf_pos L z : 0 < L -> 0 < z -> 0 < cosmo_flux sol Om h0 L z.
Proof.
  intros HL Hz. unfold cosmo_flux. pose proof (ld_pos z Hz). pose proof PI_RGT_0. apply Rdiv_lt_0_compat; [assumption|].
  apply Rmult_lt_0_compat; [lra|apply pow_lt; lra].
Qed.
Lemma cf_decreasing L x y : 0 < L -> 0 < x < y -> cosmo_flux sol Om h0 L y < cosmo_flux sol Om h0 L x.
Proof.
  intros HL H. unfold cosmo_flux. pose proof (ld_pos x ltac:(lra)) as P. pose proof (ld_increasing x y ltac:(lra)) as I.
  pose proof PI_RGT_0. apply Rmult_lt_compat_l; [assumption|]. apply Rinv_lt_contravar.
  - apply Rmult_lt_0_compat; (apply Rmult_lt_0_compat; [lra|apply pow_lt; lra]).
  - apply Rmult_lt_compat_l; [lra|]. nra.
Qed.
End Cosmo.
Lemma cf_prop sol Om h0 c L z : cosmo_flux sol Om h0 (c * L) z = c * cosmo_flux sol Om h0 L z.
Proof. unfold cosmo_flux, Rdiv. ring. Qed.
Lemma area_pos r : 0 < r -> 0 < 4 * PI * r * r.
Proof. intros H. pose proof PI_RGT_0. apply Rmult_lt_0_compat; [|assumption]. apply Rmult_lt_0_compat; [lra|assumption]. Qed.
Lemma sf_pos L r : 0 < L -> 0 <= r -> 0 < spherical_flux L r.
Proof.
  intros HL Hr. unfold spherical_flux. apply Rdiv_lt_0_compat; [assumption|]. apply area_pos. lra.
Qed.
Lemma sf_prop c L r : spherical_flux (c * L) r = c * spherical_flux L r.
Proof. unfold spherical_flux, Rdiv. ring. Qed.
Lemma sf_decreasing L x y : 0 < L -> 0 <= x < y -> spherical_flux L y < spherical_flux L x.
Proof.
  intros HL H. unfold spherical_flux. pose proof PI_RGT_0. apply Rmult_lt_compat_l; [assumption|]. apply Rinv_lt_contravar.
  - apply Rmult_lt_0_compat; apply area_pos; lra.
  - assert (0 < 4 * PI) by lra. assert ((x + 1) * (x + 1) < (y + 1) * (y + 1)) by nra. rewrite !(Rmult_assoc (4 * PI)).
    now apply Rmult_lt_compat_l.
Qed.
Lemma sf_exact L r : 0 <= r -> spherical_flux L r * (4 * PI * (r + 1) ^ 2) = L.
Proof. intros Hr. unfold spherical_flux. pose proof PI_RGT_0. field. lra. Qed.
Lemma sf_less L r : 0 < L -> 0 <= r -> spherical_flux L r * (4 * PI * r ^ 2) < L.
Proof.
  intros HL Hr. rewrite <- (sf_exact L r Hr) at 2. pose proof (sf_pos L r HL Hr). pose proof PI_RGT_0.
  apply Rmult_lt_compat_l; [assumption|]. apply Rmult_lt_compat_l; [lra|]. nra.
Qed.

(** ** Truncated samplers *)
Lemma scaled mu tau lo hi z : 0 < tau -> (lo - mu) / tau <= z <= (hi - mu) / tau <-> lo <= mu + tau * z <= hi.
Proof.
  intros Ht.
  assert (A : forall b, (b - mu) / tau * tau = b - mu) by (intros; field; lra).
  split; intros [H1 H2]; split.
  - apply Rmult_le_compat_r with (r := tau) in H1; [|lra]. rewrite A in H1. lra.
  - apply Rmult_le_compat_r with (r := tau) in H2; [|lra]. rewrite A in H2. lra.
  - apply Rmult_le_reg_r with tau; [lra|]. rewrite A. lra.
  - apply Rmult_le_reg_r with tau; [lra|]. rewrite A. lra.
Qed.
Lemma tn_iff mu tau lower upper z : 0 < tau ->
  (fst (tn_bounds mu tau lower upper) <= z <= snd (tn_bounds mu tau lower upper) <-> in_bounds lower upper (tn_value mu tau z)).
Proof. intros Ht. unfold tn_bounds, tn_value, in_bounds. cbn [fst snd]. now apply scaled. Qed.
Lemma tn_onto mu tau v : 0 < tau -> tn_value mu tau ((v - mu) / tau) = v.
Proof. intros Ht. unfold tn_value. field. lra. Qed.
Lemma tln_iff ppf mu tau lower upper z : 0 < tau -> 0 < lower -> 0 < upper ->
  (fst (tln_bounds ppf mu tau lower upper) <= z <= snd (tln_bounds ppf mu tau lower upper) <->
   in_bounds lower upper (tln_value mu tau z)).
Proof.
  intros Ht Hl Hu. unfold tln_bounds, tln_value, in_bounds. destruct (Req_EM_T lower 0); [lra|]. cbn [fst snd].
  rewrite ln_between by assumption. now apply scaled.
Qed.
Lemma tln_onto mu tau v : 0 < tau -> 0 < v -> tln_value mu tau ((ln v - mu) / tau) = v.
Proof. intros Ht Hv. unfold tln_value. replace (mu + tau * ((ln v - mu) / tau)) with (ln v) by (field; lra). now apply exp_ln. Qed.
(** Lower bound zero: in bounds, but nothing below a positive value. *)
Lemma tln_zero ppf mu tau upper z : 0 < tau -> 0 < upper ->
  fst (tln_bounds ppf mu tau 0 upper) <= z <= snd (tln_bounds ppf mu tau 0 upper) ->
  in_bounds 0 upper (tln_value mu tau z) /\ exp (mu + tau * ppf) <= tln_value mu tau z.
Proof.
  intros Ht Hu. unfold tln_bounds, tln_value, in_bounds. destruct (Req_EM_T 0 0); [|lra]. cbn [fst snd]. intros H.
  apply scaled in H; [|assumption]. split; [split|].
  - left. apply exp_pos.
  - rewrite <- (exp_ln upper) by assumption. apply exp_le. lra.
  - apply exp_le. lra.
Qed.
Lemma p10 y : Rpower 10 y = exp (y * ln 10).
Proof. reflexivity. Qed.
Lemma p10_le x y : x <= y -> Rpower 10 x <= Rpower 10 y.
Proof. intros H. rewrite !p10. apply exp_le. pose proof ln10_pos. nra. Qed.
Lemma p10_lt x y : x < y -> Rpower 10 x < Rpower 10 y.
Proof. intros H. rewrite !p10. apply exp_increasing. pose proof ln10_pos. nra. Qed.
Lemma p10_log10 v : 0 < v -> Rpower 10 (log10 v) = v.
Proof. intros H. rewrite p10. unfold log10. pose proof ln10_pos. replace (ln v / ln 10 * ln 10) with (ln v) by (field; lra). now apply exp_ln. Qed.
(** What the code's bounds mean: from 10 to the natural logarithm of [lower]. *)
Lemma tl10_iff ppf mu tau lower upper z : 0 < tau -> 0 < lower -> 0 < upper ->
  (fst (tl10_bounds ppf mu tau lower upper) <= z <= snd (tl10_bounds ppf mu tau lower upper) <->
   Rpower 10 (ln lower) <= tl10_value mu tau z <= upper).
Proof.
  intros Ht Hl Hu. unfold tl10_bounds, tl10_value. destruct (Req_EM_T lower 0); [lra|]. cbn [fst snd].
  rewrite scaled by assumption. rewrite <- (p10_log10 upper) at 2 by assumption.
  split; intros [H1 H2]; split; try now apply p10_le.
  - apply Rnot_lt_le. intros C. apply p10_lt in C. lra.
  - apply Rnot_lt_le. intros C. apply p10_lt in C. lra.
Qed.
Lemma ten_ln_gt v : 1 < v -> v < Rpower 10 (ln v).
Proof.
  intros H. rewrite p10. rewrite <- (exp_ln v) at 1 by lra. apply exp_increasing.
  assert (0 < ln v) by (rewrite <- ln_1; apply ln_increasing; lra). pose proof ln10_pos. nra.
Qed.
Lemma ten_ln_lt v : 0 < v < 1 -> Rpower 10 (ln v) < v.
Proof.
  intros H. rewrite p10. rewrite <- (exp_ln v) at 2 by lra. apply exp_increasing.
  assert (ln v < 0) by (rewrite <- ln_1; apply ln_increasing; lra). pose proof ln10_pos. nra.
Qed.
Lemma tl10_onto mu tau v : 0 < tau -> 0 < v -> tl10_value mu tau ((log10 v - mu) / tau) = v.
Proof. intros Ht Hv. unfold tl10_value. replace (mu + tau * ((log10 v - mu) / tau)) with (log10 v) by (field; lra). now apply p10_log10. Qed.
