(** Concrete cases for the theorems about the numerical code. *)
From Coq Require Import Reals Lra.
From Coquelicot Require Import Coquelicot.
From Verif Require Import LibModel LibSpec LibProofs LibLum LibGeo.
Open Scope R_scope.

Lemma Rpower_0' x : 0 < x -> Rpower x 0 = 1.
Proof. apply Rpower_O. Qed.
Lemma Rpower_2' x : 0 < x -> Rpower x 2 = x * x.
Proof. intros H. replace 2 with (1 + 1) by ring. now rewrite Rpower_plus, Rpower_1. Qed.
Lemma Rpower_m1 x : 0 < x -> Rpower x (-1) = / x.
Proof. intros H. replace (-1) with (- (1)) by ring. now rewrite Rpower_Ropp, Rpower_1. Qed.

(** Density 1 on [[1, 2]] and x / 2 on [[2, 4]]: weights one and three quarters. *)
Example bpl_weights : weight1 1 2 4 0 1 = 1 / 4 /\ weight2 1 2 4 0 1 = 3 / 4.
Proof.
  unfold weight1, weight2, integrate_pl, int_1, int_2. cbn [fst snd].
  replace (0 + 1) with 1 by ring. replace (1 + 1) with 2 by ring. replace (0 - 1) with (-1) by ring.
  rewrite !Rpower_2', !Rpower_1, Rpower_m1 by lra. split; field.
Qed.
Example bpl_at_3 : bpl 3 1 2 4 0 1 = 3 / 8.
Proof.
  unfold bpl, integrate_pl, int_1, int_2, ltb, leb. cbn [fst snd].
  destruct (Rlt_dec 1 3); [|lra]. destruct (Rlt_dec 3 2); [lra|]. cbn [andb].
  destruct (Rle_dec 2 3); [|lra]. destruct (Rlt_dec 3 4); [|lra]. cbn [andb].
  replace (0 + 1) with 1 by ring. replace (1 + 1) with 2 by ring. replace (0 - 1) with (-1) by ring.
  rewrite !Rpower_2', !Rpower_1, Rpower_m1 by lra. field.
Qed.
Example bpl_sample : sample_bpl true (1 / 2) 1 2 4 0 1 = 3 / 2.
Proof.
  unfold sample_bpl. replace (0 + 1) with 1 by ring. replace (1 / (1 + 0)) with 1 by field.
  rewrite !(Rpower_1 2), !(Rpower_1 1) by lra. rewrite Rpower_1; lra.
Qed.
(** 1 / x on [[1, 4]]: half way is 2. *)
Example power_law_sample : sample_power_law 1 4 (-1) (1 / 2) = 2.
Proof.
  unfold sample_power_law. destruct (Req_EM_T (-1) (-1)); [|lra]. replace (4 / 1) with (2 * 2) by field.
  assert (0 < ln 2) by (rewrite <- ln_1; apply ln_increasing; lra).
  rewrite ln_mult by lra. replace (1 / 2 / (1 / (ln 2 + ln 2))) with (ln 2) by (field; lra). rewrite exp_ln; lra.
Qed.
Example pareto_median : pareto_draw 1 1 (1 / 2) = 2.
Proof.
  unfold pareto_draw, np_pareto. replace (1 - 1 / 2) with (/ 2) by field. rewrite ln_Rinv by lra.
  replace (- - ln 2 / 1) with (ln 2) by field. rewrite exp_ln; lra.
Qed.
(** The interval [[1, 2]] has probability one half. *)
Example pareto_half : uniform_prob (pareto_draw 1 1) 1 2 (1 / 2).
Proof.
  destruct (pareto_law 1 1 1 2) as (p & Hi & Hu); try lra.
  pose proof (pareto_phi_above 1 1 1 2 ltac:(lra) ltac:(lra) ltac:(lra)) as G.
  pose proof (is_RInt_unique _ _ _ _ Hi) as U. rewrite (is_RInt_unique _ _ _ _ G) in U. subst p.
  replace (pareto_F 1 1 2 - pareto_F 1 1 1) with (1 / 2) in Hu; [exact Hu|].
  unfold pareto_F. rewrite ln_1. replace (1 * (0 - ln 2)) with (- ln 2) by ring.
  replace (1 * (0 - 0)) with 0 by ring. rewrite exp_0, exp_Ropp, exp_ln by lra. field.
Qed.
(** The equator is half way. *)
Example theta_half : cos (theta (1 / 2)) = 0.
Proof. rewrite cos_theta by lra. lra. Qed.
(** Up to 90 degrees: a viewing angle drawn at one half has cosine one half. *)
Example va_half : cos (va_true 90 (1 / 2)) = 1 / 2.
Proof.
  unfold va_true, np_uniform, deg2rad. replace (90 * (PI / 180)) with (PI / 2) by field. rewrite cos_PI2, cos_acos; lra.
Qed.
(** The default cosmology (h0 = 67.7, Om = 0.307) meets the conditions; at redshift
    one the distance is positive. *)
Example default_cosmology : 0 < luminosity_distance 299792458 (307 / 1000) (677 / 10) 1.
Proof. apply (ld_pos 299792458 (307 / 1000) (677 / 10)); lra. Qed.
(** Luminosity 4 pi gives flux 1 at distance 0 and 1 / 4 at distance 1. *)
Example flux_at_one : spherical_flux (4 * PI) 0 = 1 /\ spherical_flux (4 * PI) 1 = 1 / 4.
Proof. unfold spherical_flux. pose proof PI_RGT_0. split; field; lra. Qed.
(** Truncated to [[1/10, 10]] with the default location and scale: the log10 sampler
    can give a value below 1/10, where its own assertion fails. *)
Example trunc_bounds : tn_bounds 1 2 3 5 = (1, 2).
Proof. unfold tn_bounds. f_equal; field. Qed.
