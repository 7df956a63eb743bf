(** The luminosity distance of near objects. *)
From Coq Require Import Reals Lra.
From Coquelicot Require Import Coquelicot.
From Verif Require Import LibModel LibSpec LibProofs LibLum LibGeo.
Open Scope R_scope.

(** Numerator and denominator of [Phi] and their slopes. *)
Definition ptop x : R := 1 + 1320 / 1000 * x + 441 / 1000 * x ^ 2 + 2656 / 100000 * x ^ 3.
Definition pbot x : R := 1 + 1392 / 1000 * x + 5121 / 10000 * x ^ 2 + 3944 / 100000 * x ^ 3.
Definition dtop x : R := 1320 / 1000 + 2 * (441 / 1000) * x + 3 * (2656 / 100000) * x ^ 2.
Definition dbot x : R := 1392 / 1000 + 2 * (5121 / 10000) * x + 3 * (3944 / 100000) * x ^ 2.
Definition dPhi x : R := (dtop x * pbot x - ptop x * dbot x) / pbot x ^ 2.

Lemma Phi_parts x : Phi x = ptop x / pbot x.
Proof. unfold Phi, ptop, pbot. f_equal; [|f_equal]; field. Qed.
Lemma pbot_pos x : 0 <= x -> 0 < pbot x.
Proof. intros H. unfold pbot. assert (0 <= x ^ 2) by now apply pow_le. assert (0 <= x ^ 3) by now apply pow_le. lra. Qed.

Lemma Phi_slope x : 0 <= x -> is_derive Phi x (dPhi x).
Proof.
  intros H. assert (B := pbot_pos x H). apply (is_derive_ext (fun x => ptop x / pbot x)); [intros t; symmetry; apply Phi_parts|].
  unfold ptop, pbot in *. auto_derive; [lra|]. unfold dPhi, dtop, dbot, ptop, pbot. field. lra.
Qed.

Section H.
Variables sol Om h0 : R.
Hypotheses (HS : 0 < sol) (HO : 0 < Om < 1) (HH : 0 < h0).

(** The slope of the luminosity distance at redshift 0. *)
Lemma ld_slope : is_derive (luminosity_distance sol Om h0) 0
  (dh sol h0 * Mpc * (Phi (Om_reduced Om) + 6 * Om_reduced Om * dPhi (Om_reduced Om)) / sqrt Om).
Proof.
  assert (X0 : 0 < Om_reduced Om) by (apply (k_pos Om HO)).
  assert (SO : 0 < sqrt Om) by (apply sqrt_lt_R0; lra).
  set (M := Mpc). set (k := Om_reduced Om) in *. set (d := dh sol h0). set (s := sqrt Om) in *.
  apply (is_derive_ext (fun z => 2 * d * (1 + z) / s * (Phi k - / sqrt (1 + z) * Phi (k / (1 + z) ^ 3)) * M)).
  { intros z. unfold luminosity_distance, xx. fold k d s M. replace (k / (1 + 0) ^ 3) with k by (field; lra). unfold Rdiv. match goal with |- ?a = ?b => change (@eq R a b) end. ring. }
  assert (D := Phi_slope k (Rlt_le _ _ X0)). assert (U := is_derive_unique _ _ _ D).
  set (F := Phi k). assert (EK : k / ((1 + 0) * ((1 + 0) * ((1 + 0) * 1))) = k) by (field; lra).
  auto_derive.
  - split; [lra|]. rewrite Rplus_0_r, sqrt_1. split; [lra|]. split; [|lra].
    replace (k * / (1 * (1 * (1 * 1)))) with k by field. eexists; exact D.
  - rewrite !Rplus_0_r, !sqrt_1. replace (k * / (1 * (1 * (1 * 1)))) with k by field. change (fun x : R => Phi x) with Phi. rewrite U. fold F. unfold Rdiv. field. lra.
Qed.
End H.

(** With the default matter density the slope is Hubble's law to one part in a thousand. *)
Lemma hubble sol h0 : 0 < sol -> 0 < h0 -> exists D, is_derive (luminosity_distance sol (307 / 1000) h0) 0 D /\
  Rabs (D - sol / 1000 / h0 * (3086 / 1000 * 10 ^ 24)) <= / 1000 * (sol / 1000 / h0 * (3086 / 1000 * 10 ^ 24)).
Proof.
  intros HS HH. eexists. split; [apply ld_slope; lra|].
  assert (S1 : 55407 / 100000 <= sqrt (307 / 1000)).
  { rewrite <- (sqrt_Rsqr (55407 / 100000)) by lra. apply sqrt_le_1_alt. unfold Rsqr. lra. }
  assert (S2 : sqrt (307 / 1000) <= 55408 / 100000).
  { rewrite <- (sqrt_Rsqr (55408 / 100000)) by lra. apply sqrt_le_1_alt. unfold Rsqr. lra. }
  set (n := Phi (Om_reduced (307 / 1000)) + 6 * Om_reduced (307 / 1000) * dPhi (Om_reduced (307 / 1000))).
  assert (N : 5538 / 10000 <= n <= 5541 / 10000).
  { assert (Q : n = 60188823665766862654204114 / 108660439022012318575259161) by (unfold n, dPhi, Phi, dtop, dbot, ptop, pbot, Om_reduced; field). rewrite Q. lra. }
  set (c := sol / 1000 / h0 * (3086 / 1000 * 10 ^ 24)).
  assert (C : 0 < c).
  { unfold c. apply Rmult_lt_0_compat; [|lra]. apply Rdiv_lt_0_compat; [lra|easy]. }
  replace (dh sol h0 * Mpc * n / sqrt (307 / 1000)) with (c * (n / sqrt (307 / 1000))) by (unfold c, dh, Mpc; field; lra).
  set (q := n / sqrt (307 / 1000)).
  assert (Q : 999 / 1000 <= q <= 1001 / 1000).
  { assert (QS : q * sqrt (307 / 1000) = n) by (unfold q; field; lra). split.
    - apply Rmult_le_reg_r with (sqrt (307 / 1000)); [lra|]. rewrite QS. lra.
    - apply Rmult_le_reg_r with (sqrt (307 / 1000)); [lra|]. rewrite QS. lra. }
  replace (c * q - c) with (c * (q - 1)) by ring. apply Rabs_le. split; nra.
Qed.
