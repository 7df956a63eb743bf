(** The luminosity distance against the integral it approximates. *)
From Coq Require Import Reals Lra Psatz.
From Coquelicot Require Import Coquelicot.
From Verif Require Import LibModel LibSpec LibProofs LibLum LibGeo LibHubble.
Open Scope R_scope.

(** Numerator of [Phi x + 6 x Phi' x]. *)
Definition pnum x : R := ptop x * pbot x + 6 * x * (dtop x * pbot x - ptop x * dbot x).
Lemma fit_above x : 0 <= x <= 7 / 3 ->  pnum x ^ 2 * (1 + x) <= (1003 / 1000) ^ 2 * pbot x ^ 4 .
Proof.
  intros H. assert (S : 0 <= 7 - 3 * x) by lra.
  assert (Q :  (1003 / 1000) ^ 2 * pbot x ^ 4  - ( pnum x ^ 2 * (1 + x) ) = (37556250000000000000000 * (x ^ 0 * (7 - 3 * x) ^ 13) + 3278486150000000000000000 * (x ^ 1 * (7 - 3 * x) ^ 12) + 129474734520900000000000000 * (x ^ 2 * (7 - 3 * x) ^ 11) + 3060754822924306400000000000 * (x ^ 3 * (7 - 3 * x) ^ 10) + 48293003501475537605400000000 * (x ^ 4 * (7 - 3 * x) ^ 9) + 536761340023854039336360000000 * (x ^ 5 * (7 - 3 * x) ^ 8) + 4321704933510541495364897000000 * (x ^ 6 * (7 - 3 * x) ^ 7) + 25503418917745193131690643000000 * (x ^ 7 * (7 - 3 * x) ^ 6) + 110098908192491760256456505555625 * (x ^ 8 * (7 - 3 * x) ^ 5) + 341681879286964092354130072364375 * (x ^ 9 * (7 - 3 * x) ^ 4) + 732398339348570779493572720063050 * (x ^ 10 * (7 - 3 * x) ^ 3) + 1001586257538264647409416960271870 * (x ^ 11 * (7 - 3 * x) ^ 2) + 739875615813598778137144058405949 * (x ^ 12 * (7 - 3 * x) ^ 1) + 186199115262080586655723802975867 * (x ^ 13 * (7 - 3 * x) ^ 0)) / 605556315043750000000000000000000000).
  { unfold pnum, pbot, ptop, dtop, dbot. field. }
  apply Rminus_le_0. rewrite Q. apply Rle_mult_inv_pos; [|lra].
  repeat apply Rplus_le_le_0_compat; (apply Rmult_le_pos; [lra|]; apply Rmult_le_pos; apply pow_le; lra).
Qed.
Lemma fit_below x : 0 <= x <= 7 / 3 ->  (997 / 1000) ^ 2 * pbot x ^ 4 <= pnum x ^ 2 * (1 + x) .
Proof.
  intros H. assert (S : 0 <= 7 - 3 * x) by lra.
  assert (Q :  pnum x ^ 2 * (1 + x)  - ( (997 / 1000) ^ 2 * pbot x ^ 4 ) = (37443750000000000000000 * (x ^ 0 * (7 - 3 * x) ^ 13) + 2569713850000000000000000 * (x ^ 1 * (7 - 3 * x) ^ 12) + 78663826679100000000000000 * (x ^ 2 * (7 - 3 * x) ^ 11) + 1414794759350893600000000000 * (x ^ 3 * (7 - 3 * x) ^ 10) + 16561869820436469594600000000 * (x ^ 4 * (7 - 3 * x) ^ 9) + 131899642474726089143640000000 * (x ^ 5 * (7 - 3 * x) ^ 8) + 723548406818942193831103000000 * (x ^ 6 * (7 - 3 * x) ^ 7) + 2699578235173681439833357000000 * (x ^ 7 * (7 - 3 * x) ^ 6) + 6685606079840987246445901944375 * (x ^ 8 * (7 - 3 * x) ^ 5) + 12085628198810276498698080135625 * (x ^ 9 * (7 - 3 * x) ^ 4) + 29572762331120026341309097336950 * (x ^ 10 * (7 - 3 * x) ^ 3) + 103462301095365227070070628888130 * (x ^ 11 * (7 - 3 * x) ^ 2) + 227322268296885898857833861526051 * (x ^ 12 * (7 - 3 * x) ^ 1) + 199690008178149293272811394180133 * (x ^ 13 * (7 - 3 * x) ^ 0)) / 605556315043750000000000000000000000).
  { unfold pnum, pbot, ptop, dtop, dbot. field. }
  apply Rminus_le_0. rewrite Q. apply Rle_mult_inv_pos; [|lra].
  repeat apply Rplus_le_le_0_compat; (apply Rmult_le_pos; [lra|]; apply Rmult_le_pos; apply pow_le; lra).
Qed.

Section F.
Variable Om : R.
Hypothesis HO : 3 / 10 <= Om < 1.
Notation k := (Om_reduced Om).

Lemma k_range : 0 < k <= 7 / 3.
Proof.
  unfold Om_reduced. split; [apply Rdiv_lt_0_compat; lra|]. apply Rmult_le_reg_r with Om; [lra|].
  unfold Rdiv at 1. rewrite Rmult_assoc, Rinv_l by lra. lra.
Qed.

(** [c / H(z)] in units of the Hubble distance. *)
Definition rate (z : R) : R := / sqrt (Om * (1 + z) ^ 3 + (1 - Om)).
(** The model's comoving distance in units of the Hubble distance, and its slope. *)
Definition como (z : R) : R := 2 / sqrt Om * (Phi k - / sqrt (1 + z) * Phi (k / (1 + z) ^ 3)).
Definition como' (z : R) : R :=
  / sqrt Om * / ((1 + z) * sqrt (1 + z)) * (Phi (k / (1 + z) ^ 3) + 6 * (k / (1 + z) ^ 3) * dPhi (k / (1 + z) ^ 3)).

Lemma arg_range z : 0 <= z -> 0 < k / (1 + z) ^ 3 <= 7 / 3.
Proof.
  intros H. destruct k_range as (K1 & K2). assert (P : 1 <= (1 + z) ^ 3) by (apply pow_R1_Rle; lra).
  split; [apply Rdiv_lt_0_compat; lra|]. apply Rmult_le_reg_r with ((1 + z) ^ 3); [lra|].
  unfold Rdiv at 1. rewrite Rmult_assoc, Rinv_l by lra. nra.
Qed.

Lemma como_slope z : 0 <= z -> is_derive como z (como' z).
Proof.
  intros H. destruct (arg_range z H) as (X & _). assert (SO : 0 < sqrt Om) by (apply sqrt_lt_R0; lra).
  assert (SZ : 0 < sqrt (1 + z)) by (apply sqrt_lt_R0; lra).
  assert (SQ : sqrt (1 + z) * sqrt (1 + z) = 1 + z) by (apply sqrt_sqrt; lra).
  unfold como, como'. set (kk := k) in *. set (s := sqrt Om) in *.
  assert (D := Phi_slope _ (Rlt_le _ _ X)). assert (U := is_derive_unique _ _ _ D).
  assert (EK : kk * / ((1 + z) * ((1 + z) * ((1 + z) * 1))) = kk / (1 + z) ^ 3) by (field; lra).
  auto_derive.
  - assert (P3 : 0 < (1 + z) ^ 3) by (apply pow_lt; lra). cbn [pow] in P3.
    repeat split; try lra. rewrite EK. eexists; exact D.
  - change (fun x : R => Phi x) with Phi. rewrite EK, U. set (r := sqrt (1 + z)) in *.
    set (F := Phi (kk / (1 + z) ^ 3)). set (G := dPhi (kk / (1 + z) ^ 3)). rewrite <- SQ. field. split; lra.
Qed.

Lemma pnum_pos x : 0 <= x -> 0 < pnum x.
Proof.
  intros H. assert (Q : pnum x = 1 + 228 / 100 * x + 193734 / 100000 * x ^ 2 + 751404 / 1000000 * x ^ 3 + 13379706 / 100000000 * x ^ 4 + 8244432 / 1000000000 * x ^ 5 + 10475264 / 10000000000 * x ^ 6).
  { unfold pnum, ptop, pbot, dtop, dbot. field. }
  rewrite Q. assert (forall n, 0 <= x ^ n) by (intros; now apply pow_le).
  assert (A := H0 2%nat). assert (B := H0 3%nat). assert (C := H0 4%nat). assert (D := H0 5%nat). assert (E := H0 6%nat). lra.
Qed.
Lemma fit_value x : 0 <= x -> Phi x + 6 * x * dPhi x = pnum x / pbot x ^ 2.
Proof. intros H. assert (B := pbot_pos x H). rewrite Phi_parts. unfold dPhi, pnum. field. lra. Qed.

(** The fit: [sqrt (1 + x) (Phi x + 6 x Phi' x)] is 1 to three parts in a thousand. *)
Lemma fit x : 0 <= x <= 7 / 3 -> 997 / 1000 <= (Phi x + 6 * x * dPhi x) * sqrt (1 + x) <= 1003 / 1000.
Proof.
  intros H. assert (B := pbot_pos x (proj1 H)). assert (N := pnum_pos x (proj1 H)). rewrite fit_value by lra.
  assert (S : 0 < sqrt (1 + x)) by (apply sqrt_lt_R0; lra). assert (SS : sqrt (1 + x) * sqrt (1 + x) = 1 + x) by (apply sqrt_sqrt; lra).
  assert (B2 : 0 < pbot x ^ 2) by now apply pow_lt.
  set (r := sqrt (1 + x)) in *. set (q := pnum x / pbot x ^ 2 * r).
  assert (Q : q ^ 2 * pbot x ^ 4 = pnum x ^ 2 * (1 + x)) by (unfold q; rewrite <- SS; field; lra).
  assert (Q0 : 0 < q) by (unfold q; apply Rmult_lt_0_compat; [apply Rdiv_lt_0_compat|]; easy).
  assert (B4 : 0 < pbot x ^ 4) by now apply pow_lt.
  assert (U := fit_above x H). assert (L := fit_below x H). rewrite <- Q in U, L.
  apply Rmult_le_reg_r in U; [|easy]. apply Rmult_le_reg_r in L; [|easy]. split.
  - apply Rsqr_incr_0_var; [|lra]. unfold Rsqr. nra.
  - apply Rsqr_incr_0_var; [|lra]. unfold Rsqr. nra.
Qed.

Lemma slope_bounds z : 0 <= z -> 997 / 1000 * rate z <= como' z <= 1003 / 1000 * rate z.
Proof.
  intros H. destruct (arg_range z H) as (X1 & X2). set (x := k / (1 + z) ^ 3) in *.
  assert (SO : 0 < sqrt Om) by (apply sqrt_lt_R0; lra). assert (SZ : 0 < sqrt (1 + z)) by (apply sqrt_lt_R0; lra).
  assert (SX : 0 < sqrt (1 + x)) by (apply sqrt_lt_R0; lra).
  assert (R : rate z = / sqrt Om * / ((1 + z) * sqrt (1 + z)) * / sqrt (1 + x)).
  { unfold rate. replace (Om * (1 + z) ^ 3 + (1 - Om)) with (Om * ((1 + z) ^ 2 * (1 + z)) * (1 + x)) by (unfold x, Om_reduced; field; lra).
    assert (P2 : 0 <= (1 + z) ^ 2) by (apply pow_le; lra). assert (P3 : 0 <= (1 + z) ^ 2 * (1 + z)) by (apply Rmult_le_pos; lra).
    assert (P4 : 0 <= Om * ((1 + z) ^ 2 * (1 + z))) by (apply Rmult_le_pos; lra).
    rewrite sqrt_mult; [|exact P4|lra]. rewrite sqrt_mult; [|lra|exact P3]. rewrite sqrt_mult; [|exact P2|lra]. rewrite sqrt_pow2 by lra. field. lra. }
  unfold como'. fold x. rewrite R. set (c := / sqrt Om * / ((1 + z) * sqrt (1 + z))).
  assert (C : 0 < c) by (unfold c; apply Rmult_lt_0_compat; apply Rinv_0_lt_compat; [easy|apply Rmult_lt_0_compat; lra]).
  destruct (fit x (conj (Rlt_le _ _ X1) X2)) as (F1 & F2). set (f := Phi x + 6 * x * dPhi x) in *.
  assert (FE : f = f * sqrt (1 + x) * / sqrt (1 + x)) by (field; lra).
  assert (I : 0 < / sqrt (1 + x)) by now apply Rinv_0_lt_compat.
  set (q := f * sqrt (1 + x)) in *. rewrite FE. replace (c * (q * / sqrt (1 + x))) with (q * (c * / sqrt (1 + x))) by ring.
  assert (CI : 0 < c * / sqrt (1 + x)) by now apply Rmult_lt_0_compat. split; apply Rmult_le_compat_r; lra.
Qed.

Lemma fit_continuous x : 0 <= x -> continuous (fun x => Phi x + 6 * x * dPhi x) x.
Proof.
  intros H. assert (B := pbot_pos x H). assert (B2 : 0 < pbot x ^ 2) by now apply pow_lt.
  apply (ex_derive_continuous (K := R_AbsRing) (V := R_NormedModule)). unfold Phi, dPhi, dtop, dbot, ptop, pbot in *. cbn [pow] in B2.
  auto_derive. repeat split; lra.
Qed.
Lemma como'_continuous z : 0 <= z -> continuous como' z.
Proof.
  intros H. assert (SZ : 0 < sqrt (1 + z)) by (apply sqrt_lt_R0; lra).
  assert (P3 : 0 < (1 + z) ^ 3) by (apply pow_lt; lra). destruct (arg_range z H) as (X & _).
  unfold como'. apply (continuous_mult (K := R_AbsRing)).
  - apply (ex_derive_continuous (K := R_AbsRing) (V := R_NormedModule)). auto_derive. split; [lra|]. split; [|exact I].
    apply Rgt_not_eq. apply Rmult_lt_0_compat; lra.
  - apply (continuous_comp (fun z => k / (1 + z) ^ 3) (fun x => Phi x + 6 * x * dPhi x)).
    + apply (ex_derive_continuous (K := R_AbsRing) (V := R_NormedModule)). cbn [pow] in P3. auto_derive. lra.
    + apply fit_continuous. lra.
Qed.
Lemma rate_continuous z : 0 <= z -> continuous rate z.
Proof.
  intros H. assert (P3 : 0 < (1 + z) ^ 3) by (apply pow_lt; lra). assert (P : 0 < Om * (1 + z) ^ 3 + (1 - Om)) by nra.
  apply (ex_derive_continuous (K := R_AbsRing) (V := R_NormedModule)). unfold rate. assert (S := sqrt_lt_R0 _ P). cbn [pow] in *. auto_derive.
  split; [easy|]. split; [lra|easy].
Qed.

Lemma como_zero : como 0 = 0.
Proof.
  unfold como. rewrite Rplus_0_r, sqrt_1. replace (k / 1 ^ 3) with k by field.
  assert (SO : 0 < sqrt Om) by (apply sqrt_lt_R0; lra). field. lra.
Qed.

(** The comoving distance is the integral of [c / H] to three parts in a thousand. *)
Lemma como_fits z : 0 <= z -> exists T, is_RInt rate 0 z T /\ 0 <= T /\ 997 / 1000 * T <= como z <= 1003 / 1000 * T.
Proof.
  intros H.
  assert (RI : ex_RInt rate 0 z).
  { apply (ex_RInt_continuous (V := R_CompleteNormedModule)). intros t. rewrite Rmin_left, Rmax_right by lra. intros. apply rate_continuous; lra. }
  destruct RI as (T & RT). exists T. split; [exact RT|].
  assert (SI : is_RInt como' 0 z (como z)).
  { assert (Q : is_RInt como' 0 z (minus (como z) (como 0))).
    { apply (is_RInt_derive (V := R_CompleteNormedModule) como como').
      - intros t. rewrite Rmin_left, Rmax_right by lra. intros. apply como_slope; lra.
      - intros t. rewrite Rmin_left, Rmax_right by lra. intros. apply como'_continuous; lra. }
    replace (minus (como z) (como 0)) with (como z) in Q; [exact Q|]. rewrite como_zero. unfold minus, plus, opp. cbn. ring. }
  assert (RP : forall t, 0 <= t -> 0 <= rate t).
  { intros t Ht. unfold rate. left. apply Rinv_0_lt_compat, sqrt_lt_R0. assert (0 < (1 + t) ^ 3) by (apply pow_lt; lra). nra. }
  split; [|split].
  - apply (is_RInt_le (fun _ => 0) rate 0 z); [easy| |exact RT|intros t Ht; apply RP; lra].
    assert (Q := is_RInt_const (V := R_NormedModule) 0 z 0). unfold scal in Q. cbn in Q. unfold mult in Q. cbn in Q.
    rewrite Rmult_0_r in Q. exact Q.
  - apply (is_RInt_le (fun t => 997 / 1000 * rate t) como' 0 z); [easy| |exact SI|intros t Ht; apply slope_bounds; lra].
    apply (is_RInt_scal (V := R_NormedModule) rate 0 z (997 / 1000) T RT).
  - apply (is_RInt_le como' (fun t => 1003 / 1000 * rate t) 0 z); [easy|exact SI| |intros t Ht; apply slope_bounds; lra].
    apply (is_RInt_scal (V := R_NormedModule) rate 0 z (1003 / 1000) T RT).
Qed.
End F.

Lemma ld_como sol Om h0 z : luminosity_distance sol Om h0 z = dh sol h0 * Mpc * (1 + z) * como Om z.
Proof. unfold luminosity_distance, como, xx. replace (Om_reduced Om / (1 + 0) ^ 3) with (Om_reduced Om) by field. unfold Rdiv. ring. Qed.

Lemma ld_fits sol Om h0 z : 0 < sol -> 3 / 10 <= Om < 1 -> 0 < h0 -> 0 <= z -> exists T,
  is_RInt (fun t => / sqrt (Om * (1 + t) ^ 3 + (1 - Om))) 0 z T /\
  let true_distance := (1 + z) * (sol / 1000 / h0) * T * (3086 / 1000 * 10 ^ 24) in
  Rabs (luminosity_distance sol Om h0 z - true_distance) <= 3 / 1000 * true_distance.
Proof.
  intros HS HO HH Hz. destruct (como_fits Om HO z Hz) as (T & RT & T0 & L & U). exists T. split; [exact RT|]. cbv zeta.
  rewrite ld_como. set (c := (1 + z) * (sol / 1000 / h0) * (3086 / 1000 * 10 ^ 24)).
  assert (C : 0 < c).
  { unfold c. apply Rmult_lt_0_compat; [|lra]. apply Rmult_lt_0_compat; [lra|]. apply Rdiv_lt_0_compat; lra. }
  replace (dh sol h0 * Mpc * (1 + z) * como Om z) with (c * como Om z) by (unfold c, dh, Mpc; field; lra).
  replace ((1 + z) * (sol / 1000 / h0) * T * (3086 / 1000 * 10 ^ 24)) with (c * T) by (unfold c; field; lra).
  apply Rabs_le. split; nra.
Qed.

(** Without a cosmological constant the distance is exact. *)
Lemma ld_einstein_de_sitter sol h0 z : 0 < h0 -> 0 <= z ->
  luminosity_distance sol 1 h0 z = 2 * (sol / 1000 / h0) * (1 + z - sqrt (1 + z)) * (3086 / 1000 * 10 ^ 24).
Proof.
  intros HH Hz. unfold luminosity_distance, xx, Om_reduced. assert (S : 0 < sqrt (1 + z)) by (apply sqrt_lt_R0; lra).
  assert (SQ : sqrt (1 + z) * sqrt (1 + z) = 1 + z) by (apply sqrt_sqrt; lra).
  assert (P : Phi 0 = 1) by (unfold Phi; field). rewrite sqrt_1.
  replace ((1 - 1) / 1 / (1 + 0) ^ 3) with 0 by (field; lra). replace ((1 - 1) / 1 / (1 + z) ^ 3) with 0 by (field; lra). rewrite P.
  unfold dh, Mpc. set (r := sqrt (1 + z)) in *. rewrite <- SQ. field. lra.
Qed.

Lemma volume_fits sol rel Om h0 z : 0 < sol -> 3 / 10 <= Om < 1 -> 0 < h0 -> 0 <= rel < 1 -> 0 <= z -> exists T,
  is_RInt (fun t => / sqrt (Om * (1 + t) ^ 3 + (1 - Om))) 0 z T /\
  let true_volume := (sol / 1000 / h0 / 1000) ^ 3 * T ^ 2 / sqrt (Om * (1 + z) ^ 3 + (1 - Om - rel)) in
  Rabs (differential_comoving_volume sol rel Om h0 z - true_volume) <= 7 / 1000 * true_volume.
Proof.
  intros HS HO HH HR Hz. destruct (como_fits Om HO z Hz) as (T & RT & T0 & L & U). exists T. split; [exact RT|]. cbv zeta.
  unfold differential_comoving_volume, comoving_transverse_distance, cosmo_a. rewrite ld_como.
  assert (P3 : 1 <= (1 + z) ^ 3) by (apply pow_R1_Rle; lra).
  rewrite (Rmult_comm ((1 + z) ^ 3)). assert (S : 0 < sqrt (Om * (1 + z) ^ 3 + (1 - Om - rel))) by (apply sqrt_lt_R0; nra).
  set (s := sqrt _) in *. set (g := como Om z) in *. set (c := (sol / 1000 / h0 / 1000) ^ 3 / s).
  assert (C : 0 < c).
  { unfold c. apply Rdiv_lt_0_compat; [|easy]. apply pow_lt. repeat (apply Rdiv_lt_0_compat; [|lra]). easy. }
  match goal with |- Rabs (?a - ?b) <= _ => replace a with (c * g ^ 2); [replace b with (c * T ^ 2)|] end.
  - apply Rabs_le. assert (0 <= g) by nra. assert ((997 / 1000) ^ 2 * T ^ 2 <= g ^ 2 <= (1003 / 1000) ^ 2 * T ^ 2).
    { rewrite <- !Rpow_mult_distr. split; apply pow_incr; lra. }
    assert (0 <= T ^ 2) by apply pow2_ge_0. split; nra.
  - unfold c. field. lra.
  - unfold c, dh, Mpc. field. lra.
Qed.

Lemma flux_fits sol Om h0 l z : 0 < sol -> 3 / 10 <= Om < 1 -> 0 < h0 -> 0 <= l -> 0 < z -> exists T,
  is_RInt (fun t => / sqrt (Om * (1 + t) ^ 3 + (1 - Om))) 0 z T /\
  let d := (1 + z) * (sol / 1000 / h0) * T * (3086 / 1000 * 10 ^ 24) in 0 < d /\
  Rabs (l / (4 * PI * (luminosity_distance sol Om h0 z * luminosity_distance sol Om h0 z)) - l / (4 * PI * (d * d))) <=
    7 / 1000 * (l / (4 * PI * (d * d))).
Proof.
  intros HS HO HH HL Hz. destruct (ld_fits sol Om h0 z HS HO HH (Rlt_le _ _ Hz)) as (T & RT & F). exists T. split; [exact RT|].
  cbv zeta in *. assert (P : 0 < luminosity_distance sol Om h0 z) by (apply ld_pos; lra).
  set (g := luminosity_distance sol Om h0 z) in *. set (d := (1 + z) * (sol / 1000 / h0) * T * _) in *.
  apply Rabs_le_between in F. assert (D : 0 < d) by lra. split; [exact D|].
  assert (PP := PI_RGT_0). set (q := l / (4 * PI)). assert (Q : 0 <= q) by (apply Rmult_le_pos; [easy|left; apply Rinv_0_lt_compat; lra]).
  replace (l / (4 * PI * (g * g))) with (q * / g ^ 2) by (unfold q; field; lra).
  replace (l / (4 * PI * (d * d))) with (q * / d ^ 2) by (unfold q; field; lra).
  assert (G2 : (997 / 1000) ^ 2 * d ^ 2 <= g ^ 2 <= (1003 / 1000) ^ 2 * d ^ 2).
  { rewrite <- !Rpow_mult_distr. split; apply pow_incr; lra. }
  assert (D2 : 0 < d ^ 2) by now apply pow_lt. assert (I2 : 0 < / d ^ 2) by now apply Rinv_0_lt_compat.
  assert (U : / g ^ 2 <= / ((997 / 1000) ^ 2) * / d ^ 2).
  { replace (/ (997 / 1000) ^ 2 * / d ^ 2) with (/ ((997 / 1000) ^ 2 * d ^ 2)) by (field; lra). apply Rinv_le_contravar; lra. }
  assert (L : / ((1003 / 1000) ^ 2) * / d ^ 2 <= / g ^ 2).
  { replace (/ (1003 / 1000) ^ 2 * / d ^ 2) with (/ ((1003 / 1000) ^ 2 * d ^ 2)) by (field; lra). apply Rinv_le_contravar; lra. }
  replace (/ (997 / 1000) ^ 2) with (1000000 / 994009) in U by field. replace (/ (1003 / 1000) ^ 2) with (1000000 / 1006009) in L by field.
  apply Rabs_le. set (a := / g ^ 2) in *. set (b := / d ^ 2) in *. split; nra.
Qed.

(** Outside this range the approximation fails: with little matter near objects are far too distant. *)
Lemma pnum_far x : 99 <= x -> pbot x ^ 2 / 2 <= pnum x.
Proof.
  intros H. set (y := x - 99). assert (Y : 0 <= y) by (unfold y; lra).
  assert (Q : pnum x - pbot x ^ 2 / 2 = 676498502637276883 / 5000000000 + 11811692259716403 / 1250000000 * y ^ 1 + 134830268598357 / 500000000 * y ^ 2 + 1010741923897 / 250000000 * y ^ 3 + 33691319079 / 1000000000 * y ^ 4 + 92681469 / 625000000 * y ^ 5 + 84303 / 312500000 * y ^ 6).
  { replace x with (99 + y) by (unfold y; ring). unfold pnum, ptop, pbot, dtop, dbot. field. }
  assert (P : forall n, 0 <= y ^ n) by (intros; now apply pow_le).
  assert (P1 := P 1%nat). assert (P2 := P 2%nat). assert (P3 := P 3%nat). assert (P4 := P 4%nat). assert (P5 := P 5%nat). assert (P6 := P 6%nat). lra.
Qed.
Lemma little_matter sol Om h0 : 0 < sol -> 0 < Om <= 1 / 100 -> 0 < h0 -> exists D, is_derive (luminosity_distance sol Om h0) 0 D /\
  5 * (sol / 1000 / h0 * (3086 / 1000 * 10 ^ 24)) <= D.
Proof.
  intros HS HO HH. eexists. split; [apply ld_slope; lra|]. set (k := Om_reduced Om).
  assert (K : 99 <= k).
  { unfold k, Om_reduced. replace ((1 - Om) / Om) with (/ Om - 1) by (field; lra). assert (/ (1 / 100) <= / Om) by (apply Rinv_le_contravar; lra).
    replace (/ (1 / 100)) with 100 in * by field. lra. }
  rewrite fit_value by lra. assert (B := pbot_pos k ltac:(lra)). assert (B2 : 0 < pbot k ^ 2) by now apply pow_lt.
  assert (F : 1 / 2 <= pnum k / pbot k ^ 2).
  { apply Rmult_le_reg_r with (pbot k ^ 2); [easy|]. replace (pnum k / pbot k ^ 2 * pbot k ^ 2) with (pnum k) by (field; lra). assert (G := pnum_far k K). lra. }
  assert (S : 0 < sqrt Om) by (apply sqrt_lt_R0; lra).
  assert (S1 : sqrt Om <= 1 / 10).
  { rewrite <- (sqrt_Rsqr (1 / 10)) by lra. apply sqrt_le_1_alt. unfold Rsqr. lra. }
  assert (I : 10 <= / sqrt Om). { replace 10 with (/ (1 / 10)) by field. apply Rinv_le_contravar; lra. }
  set (f := pnum k / pbot k ^ 2) in *. set (c := sol / 1000 / h0 * (3086 / 1000 * 10 ^ 24)).
  assert (C : 0 < c). { unfold c. apply Rmult_lt_0_compat; [|lra]. apply Rdiv_lt_0_compat; [lra|easy]. }
  replace (dh sol h0 * Mpc * f / sqrt Om) with (c * (f * / sqrt Om)) by (unfold c, dh, Mpc; field; lra).
  assert (5 <= f * / sqrt Om) by nra. nra.
Qed.
