(** The density of the Schechter luminosities. *)
From Coq Require Import Reals List String Lra Lia.
From Coquelicot Require Import Coquelicot.
From Verif Require Import LibModel LibSpec LumLibModel LumLibSpec.
Open Scope R_scope.

Section S.
Variables (s gam : R) (inc ginv : R -> R).
Hypothesis G : incomplete_gamma s gam inc ginv.
Notation f := (fun t => Rpower t (s - 1) * exp (- t) / gam).
Lemma f_pos t : 0 < f t.
Proof.
  destruct G as [P _ _ _ _ _]. apply Rdiv_lt_0_compat; [|exact P]. apply Rmult_lt_0_compat; apply exp_pos.
Qed.
Lemma inc_lt a b : 0 <= a < b -> inc a < inc b.
Proof.
  assert (Q : forall a b, 0 < a < b -> inc a < inc b).
  { intros x y H. assert (I := ig_density _ _ _ _ G x y ltac:(lra)).
    apply (is_RInt_unique (V := R_CompleteNormedModule)) in I.
    enough (0 < inc y - inc x) by lra. rewrite <- I. apply RInt_gt_0; [lra|intros; apply f_pos|].
    intros t Ht. apply (ex_derive_continuous f). unfold Rpower. auto_derive. destruct G as [P _ _ _ _ _]. repeat split; lra. }
  intros [H1 H2]. destruct (Req_dec a 0) as [->|N]; [|apply Q; lra]. rewrite (ig_zero _ _ _ _ G).
  assert (0 <= inc (b / 2) < 1) by (apply (ig_range _ _ _ _ G); lra). assert (inc (b / 2) < inc b) by (apply Q; lra). lra.
Qed.
Lemma inc_le a b : 0 <= a -> 0 <= b -> inc a <= inc b <-> a <= b.
Proof.
  intros A B. split; intros H.
  - destruct (Rle_or_lt a b); [assumption|]. assert (inc b < inc a) by (apply inc_lt; lra). lra.
  - destruct (Req_dec a b) as [->|]; [lra|]. left. apply inc_lt. lra.
Qed.
Lemma mult_le_div L a x : 0 < L -> a <= L * x <-> a / L <= x.
Proof.
  intros HL. split; intros H.
  - apply (Rmult_le_reg_l L); [exact HL|]. replace (L * (a / L)) with a by (field; lra). exact H.
  - apply (Rmult_le_compat_l L) in H; [|lra]. replace (L * (a / L)) with a in H by (field; lra). exact H.
Qed.
Lemma mult_ge_div L b x : 0 < L -> L * x <= b <-> x <= b / L.
Proof.
  intros HL. split; intros H.
  - apply (Rmult_le_reg_l L); [exact HL|]. replace (L * (b / L)) with b by (field; lra). exact H.
  - apply (Rmult_le_compat_l L) in H; [|lra]. replace (L * (b / L)) with b in H by (field; lra). exact H.
Qed.
End S.

Lemma schechter_law Lmin alpha gam ginv inc a b : 0 < Lmin -> 0 < a <= b ->
  incomplete_gamma (1 + alpha) (gam (1 + alpha)) inc (ginv (1 + alpha)) ->
  exists p, is_RInt (schechter_phi gam Lmin alpha) a b p /\ open_uniform_prob (schechter_draw ginv Lmin alpha) a b p.
Proof.
  intros HL HA G. assert (GP := ig_gam _ _ _ _ G). exists (inc (b / Lmin) - inc (a / Lmin)).
  assert (DA : 0 < a / Lmin) by (apply Rdiv_lt_0_compat; lra).
  assert (DB : a / Lmin <= b / Lmin) by (apply Rmult_le_compat_r; [left; now apply Rinv_0_lt_compat|lra]).
  split.
  - assert (I := ig_density _ _ _ _ G (a / Lmin) (b / Lmin) ltac:(lra)).
    assert (J := is_RInt_comp_lin (fun t => Rpower t (1 + alpha - 1) * exp (- t) / gam (1 + alpha)) (/ Lmin) 0 a b (inc (b / Lmin) - inc (a / Lmin))).
    replace (/ Lmin * a + 0) with (a / Lmin) in J by (unfold Rdiv; ring). replace (/ Lmin * b + 0) with (b / Lmin) in J by (unfold Rdiv; ring).
    specialize (J I). eapply is_RInt_ext; [|exact J]. intros x Hx. rewrite Rmin_left, Rmax_right in Hx by lra.
    unfold scal. cbn. unfold mult. cbn. unfold schechter_phi. replace (1 + alpha - 1) with alpha by ring.
    replace (/ Lmin * x + 0) with (x / Lmin) by (unfold Rdiv; ring).
    replace (Rpower (x / Lmin) alpha) with (Rpower x alpha / Rpower Lmin alpha).
    2:{ unfold Rpower. rewrite ln_div by lra. rewrite Rmult_minus_distr_l. unfold Rminus. rewrite exp_plus, exp_Ropp. reflexivity. }
    rewrite Rpower_plus, Rpower_1 by lra. replace (- x / Lmin) with (- (x / Lmin)) by (field; lra).
    assert (Rpower Lmin alpha <> 0) by apply Rgt_not_eq, exp_pos. field. repeat split; lra.
  - assert (0 <= inc (a / Lmin) < 1) by (apply (ig_range _ _ _ _ G); lra). assert (0 <= inc (b / Lmin) < 1) by (apply (ig_range _ _ _ _ G); lra).
    assert (inc (a / Lmin) <= inc (b / Lmin)) by (apply (inc_le _ _ _ _ G); lra).
    exists (1 - inc (b / Lmin)), (1 - inc (a / Lmin)). split; [lra|]. split; [lra|]. split; [lra|].
    intros u HU. unfold schechter_draw. rewrite mult_le_div, mult_ge_div by exact HL.
    assert (P := ig_pos _ _ _ _ G (1 - u) ltac:(lra)). assert (Q := ig_inverse _ _ _ _ G (1 - u) ltac:(lra)).
    rewrite <- (inc_le _ _ _ _ G (a / Lmin)) by lra. rewrite <- (inc_le _ _ _ _ G _ (b / Lmin)) by lra. rewrite Q. split; lra.
Qed.
Lemma schechter_positive Lmin alpha gam a b : 0 < Lmin -> 0 < a < b -> 0 < gam (1 + alpha) -> 0 < RInt (schechter_phi gam Lmin alpha) a b.
Proof.
  intros HL HA HG. apply RInt_gt_0; [lra|..]; intros x Hx.
  - unfold schechter_phi. apply Rdiv_lt_0_compat; apply Rmult_lt_0_compat; try apply exp_pos. exact HG.
  - apply (ex_derive_continuous (schechter_phi gam Lmin alpha)). unfold schechter_phi, Rpower. assert (0 < exp ((1 + alpha) * ln Lmin)) by apply exp_pos. auto_derive.
    repeat split; try lra; try (apply Rmult_integral_contrapositive; split; lra).
Qed.
