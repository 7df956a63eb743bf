(** Source counts of standard candles in a sphere (C86). *)
From Coq Require Import Reals ZArith List String Lra.
From Coquelicot Require Import Coquelicot.
From Verif Require Import Base Env ParamModel SimVarModel DistModel SizeSpec AuxModel PopModel SynthModel SynthSpec LibModel LibPopModel LibPopSpec LumLibModel LumLibSpec RealModel FluxSpec LawSpec CountsSpec.
From Verif Require Law LawLib FluxPop HorizonProofs LumLibProofs.
Open Scope R_scope.
Open Scope string_scope.

Lemma ball_int L x : RInt (fun r => L * (4 * PI * r ^ 2)) 0 x = L * (4 / 3 * PI) * x ^ 3.
Proof.
  apply is_RInt_unique. replace (L * (4 / 3 * PI) * x ^ 3) with (minus (L * (4 / 3 * PI) * x ^ 3) (L * (4 / 3 * PI) * 0 ^ 3)) by (unfold minus, plus, opp; cbn; ring).
  apply (is_RInt_derive (V := R_CompleteNormedModule) (fun r => L * (4 / 3 * PI) * r ^ 3)).
  - intros r _. auto_derive; [exact I|]. match goal with |- @eq _ ?a ?b => change (@eq R a b) end. cbn. field.
  - intros r _. apply (ex_derive_continuous (K := R_AbsRing) (V := R_NormedModule)). auto_derive. exact I.
Qed.

(** If the distances fill a sphere, the part up to [x] is a cube of a ratio. *)
Lemma filled L F H rm : 0 < L -> 0 < rm -> follows (fun r => L * (4 * PI * r ^ 2)) F H rm ->
  exists T, 0 < T /\ area F H 0 rm T /\ forall x, 0 <= x <= rm -> area F H 0 x (T * (x / rm) ^ 3).
Proof.
  intros PL PR (c & PC & A). assert (PP := PI_RGT_0). exists (c * (L * (4 / 3 * PI) * rm ^ 3)).
  assert (Q : 0 < rm ^ 3) by now apply pow_lt. split; [|split].
  - apply Rmult_lt_0_compat; [exact PC|]. apply Rmult_lt_0_compat; [nra|exact Q].
  - rewrite <- ball_int. apply A. lra.
  - intros x X. replace (c * (L * (4 / 3 * PI) * rm ^ 3) * (x / rm) ^ 3) with (c * (L * (4 / 3 * PI) * x ^ 3)) by (field; lra).
    rewrite <- ball_int. apply A. lra.
Qed.

Lemma sq_le a b : 0 <= a -> 0 <= b -> (a * a <= b * b <-> a <= b).
Proof. intros. split; intros; nra. Qed.
(** At least [S] up to the radius of the sphere on which the luminosity gives [S]. *)
Lemma flux_within l S r : 0 < l -> 0 < S -> 0 < r -> (S <= l / (4 * PI * (r * r)) <-> r <= sqrt (l / (4 * PI * S))).
Proof.
  intros PL PS PR. assert (PP := PI_RGT_0). set (k := 4 * PI). assert (K : 0 < k) by (unfold k; lra).
  assert (Q : 0 < l / (k * S)) by (apply Rdiv_lt_0_compat; [lra|apply Rmult_lt_0_compat; lra]).
  rewrite <- (sq_le r (sqrt (l / (k * S)))); [|lra|apply sqrt_pos]. rewrite sqrt_sqrt by lra. split; intros X.
  - apply Rmult_le_reg_r with (k * S); [apply Rmult_lt_0_compat; lra|]. replace (l / (k * S) * (k * S)) with l by (field; lra).
    apply Rmult_le_compat_r with (r := k * (r * r)) in X; [|apply Rmult_le_pos; [lra|nra]]. replace (l / (k * (r * r)) * (k * (r * r))) with l in X by (field; lra). nra.
  - apply Rmult_le_reg_r with (k * (r * r)); [apply Rmult_lt_0_compat; [lra|nra]|]. replace (l / (k * (r * r)) * (k * (r * r))) with l by (field; lra).
    apply Rmult_le_compat_r with (r := k * S) in X; [|apply Rmult_le_pos; lra]. replace (l / (k * S) * (k * S)) with l in X by (field; lra). nra.
Qed.
Lemma within_of l S r : 0 < l -> 0 < S -> 0 < r -> l / (4 * PI * (r * r)) <= S -> sqrt (l / (4 * PI * S)) <= r.
Proof.
  intros PL PS PR X. assert (PP := PI_RGT_0). set (k := 4 * PI) in *. assert (K : 0 < k) by (unfold k; lra).
  assert (Q : 0 < l / (k * S)) by (apply Rdiv_lt_0_compat; [lra|apply Rmult_lt_0_compat; lra]).
  apply sq_le; [apply sqrt_pos|lra|]. rewrite sqrt_sqrt by lra.
  apply Rmult_le_reg_r with (k * S); [apply Rmult_lt_0_compat; lra|]. replace (l / (k * S) * (k * S)) with l by (field; lra).
  apply Rmult_le_compat_r with (r := k * (r * r)) in X; [|apply Rmult_le_pos; [lra|nra]]. replace (l / (k * (r * r)) * (k * (r * r))) with l in X by (field; lra). nra.
Qed.
Lemma flux_pos l r : 0 < l -> 0 < r -> 0 < l / (4 * PI * (r * r)).
Proof. intros. assert (PP := PI_RGT_0). apply Rdiv_lt_0_compat; [lra|]. apply Rmult_lt_0_compat; [lra|]. now apply Rmult_lt_0_compat. Qed.

Section Sphere.
Variables (L l : R) (F : R -> R) (H rm : R).
Hypotheses (PL : 0 < L) (Pl : 0 < l) (PR : 0 < rm) (FO : follows (fun r => L * (4 * PI * r ^ 2)) F H rm).
(** What the library's fluxes give. *)
Lemma library_counts : source_counts (library_flux l) F H rm (library_flux l rm) (library_flux l 0) (fun S => ((sqrt (l / (4 * PI * S)) - 1) / rm) ^ 3).
Proof.
  destruct (filled L F H rm PL PR FO) as (T & PT & A & X). exists T. split; [exact PT|]. split; [exact A|]. intros S (S1 & S2).
  unfold library_flux in *. assert (PS := flux_pos l (rm + 1) Pl ltac:(lra)). assert (PS' : 0 < S) by lra.
  exists (sqrt (l / (4 * PI * S)) - 1). assert (W1 := within_of l S (rm + 1) Pl PS' ltac:(lra) S1).
  assert (W2 : 0 + 1 <= sqrt (l / (4 * PI * S))) by (apply flux_within; lra).
  split; [lra|]. split; [|apply X; lra]. intros d D. rewrite flux_within by lra. lra.
Qed.
(** Not the Euclidean law. *)
Lemma not_euclidean N : euclidean N -> ~ source_counts (library_flux l) F H rm (library_flux l rm) (library_flux l 0) N.
Proof.
  intros (k & E) (T & PT & A & X). destruct (filled L F H rm PL PR FO) as (T' & PT' & A' & X').
  assert (T' = T). { eapply Law.area_unique; [|exact A'|exact A]. lra. } subst T'.
  assert (PP := PI_RGT_0).
  assert (LO : 0 < library_flux l rm) by (apply flux_pos; lra). assert (HI : 0 < library_flux l 0) by (apply flux_pos; lra).
  assert (LH : library_flux l rm <= library_flux l 0).
  { unfold library_flux. apply flux_within; [lra|apply flux_pos; lra|lra|]. apply Rle_trans with (rm + 1); [lra|].
    apply flux_within; [lra|apply flux_pos; lra|lra|lra]. }
  assert (PT0 := PT).
  (* at the flux of zero distance nothing is brighter: the factor is zero *)
  assert (K : k = 0).
  { destruct (X (library_flux l 0) ltac:(lra)) as (x & X1 & X2 & X3).
    assert (x <= 0).
    { destruct (Rle_dec x 0); [assumption|exfalso]. assert (Y := proj2 (X2 x ltac:(lra)) ltac:(lra)).
      unfold library_flux in Y at 2. apply flux_within in Y; [|lra|exact HI|lra].
      assert (Z := within_of l (library_flux l 0) (0 + 1) Pl HI ltac:(lra) ltac:(unfold library_flux; lra)). lra. }
    assert (x = 0) by lra. subst x. assert (Y := X' 0 ltac:(lra)).
    assert (Z := Law.area_unique _ _ _ _ _ _ (Rle_refl 0) X3 Y). rewrite E in Z by exact HI.
    replace ((0 / rm) ^ 3) with 0 in Z by (field; lra). assert (0 < Rpower (library_flux l 0) (- (3 / 2))) by apply exp_pos.
    destruct (Rmult_integral T (k * Rpower (library_flux l 0) (- (3 / 2)))) as [V|V]; [lra|lra|].
    destruct (Rmult_integral _ _ V); lra. }
  destruct (X (library_flux l rm) ltac:(lra)) as (x & X1 & X2 & X3).
  assert (rm <= x) by (apply X2; lra). assert (x = rm) by lra. subst x.
  assert (Z := Law.area_unique _ _ _ _ _ _ (Rlt_le _ _ PR) X3 A). rewrite E, K in Z by exact LO. lra.
Qed.
(** The inverse square law would give it. *)
Lemma euclidean_counts hi : exists N, euclidean N /\ source_counts (inverse_square l) F H rm (inverse_square l rm) hi N.
Proof.
  assert (PP := PI_RGT_0). assert (Q : 0 < l / (4 * PI)) by (apply Rdiv_lt_0_compat; lra).
  exists (fun S => Rpower (l / (4 * PI)) (3 / 2) / rm ^ 3 * Rpower S (- (3 / 2))). split; [eexists; intros; reflexivity|].
  destruct (filled L F H rm PL PR FO) as (T & PT & A & X). exists T. split; [exact PT|]. split; [exact A|]. intros S (S1 & _).
  unfold inverse_square in *. assert (PS := flux_pos l rm Pl PR). assert (PS' : 0 < S) by lra.
  exists (sqrt (l / (4 * PI * S))). assert (W1 := within_of l S rm Pl PS' PR S1).
  split; [split; [apply sqrt_pos|exact W1]|]. split; [intros d D; apply flux_within; lra|].
  replace (Rpower (l / (4 * PI)) (3 / 2) / rm ^ 3 * Rpower S (- (3 / 2))) with ((sqrt (l / (4 * PI * S)) / rm) ^ 3); [apply X; split; [apply sqrt_pos|exact W1]|].
  assert (Q2 : 0 < l / (4 * PI * S)) by (apply Rdiv_lt_0_compat; [lra|apply Rmult_lt_0_compat; lra]).
  replace ((sqrt (l / (4 * PI * S)) / rm) ^ 3) with (/ rm ^ 3 * sqrt (l / (4 * PI * S)) ^ 3) by (field; lra).
  replace (Rpower (l / (4 * PI)) (3 / 2) / rm ^ 3 * Rpower S (- (3 / 2))) with (/ rm ^ 3 * (Rpower (l / (4 * PI)) (3 / 2) * Rpower S (- (3 / 2)))) by (field; lra). f_equal.
  rewrite <- (Rpower_sqrt (l / (4 * PI * S))) by exact Q2. rewrite <- Rpower_pow by apply exp_pos.
  rewrite Rpower_mult. replace (/ 2 * INR 3) with (3 / 2) by (cbn; lra).
  replace (l / (4 * PI * S)) with (l / (4 * PI) * / S) by (field; lra). rewrite <- Rpower_mult_distr; [|exact Q|now apply Rinv_0_lt_compat]. f_equal.
  unfold Rpower. rewrite ln_Rinv by exact PS'. f_equal. ring.
Qed.
End Sphere.

Section Survey.
Variable m : machine.
Notation E := (real_env m).
Hypothesis Q : quad_exact m.
Hypothesis U : forall g, 0 <= fst (mc_unif m 0 1 g) < 1.
Variable ginv : R -> R -> R.
Hypothesis G : forall s x, 0 < s -> 0 < x <= 1 -> 0 <= ginv s x.
Variable gam : R -> R.
Variables (sol rel Om h0 : R) (form : string -> string) (w : world E).
Notation fo := (full_lib m ginv gam sol rel Om h0 (fun _ => None) form).
Variables (c : popclass) (arg : string -> R) (seed : Z) (rate : bool) (y0 : synth E) (lum : option (lumobj E)).
Hypotheses (B : build fo w c arg seed lum rate = Ok y0) (C : fst (documented c) = sphere) (HL : 0 < arg "Lambda") (HR : 0 < arg "r_max").
Variables (prog : bool) (fuel rl : nat) (fs : option (V E)) (l10 : bool) (ns : option nat) (norm : bool) (y : synth E) (p : population E) (z : synth E).
Hypotheses (SP : y_sp y = y_sp y0) (H : draw_survey prog fuel rl fs l10 ns norm y = (Ok p, z)).
Hypothesis NP : norm = true -> prog = true.
Hypothesis NV : norm = true -> ns = None -> norm_value E (sd_par (y_sp y)).
Variables (ld : ldist E) (v : string -> R).
Hypotheses (DE : y_der y = None) (YL : y_lum y = Some ld) (KC : ld_cls ld = ld_cls (fst (lum_object fo LDelta))) (LP : lum_parameters m ld v) (PL : 0 < v "Lp").

Lemma candle_flux i l d f : object m p i l d f -> f = library_flux (v "Lp") d.
Proof.
  intros O. assert (F := FluxPop.flux_spread m ginv gam sol rel Om h0 _ form w c arg seed rate y0 lum B _ _ _ _ _ _ _ y p z SP H i l d f O).
  cbv beta in F. rewrite C in F. change (cosmological sphere) with false in F.
  destruct (LumLibProofs.survey_luminosities m ginv gam sol rel Om h0 _ form U G _ _ _ _ _ _ _ y p z LDelta ld v H DE YL KC LP I) as (FA & _).
  rewrite Forall_forall in FA. destruct O as (X & _). apply nth_error_In in X. apply FA in X. cbn [lum_range] in X. rewrite F, X. reflexivity.
Qed.
Theorem candles_counted : exists F h s s', sized_by ns norm (y_sp y) (mc_seed m (y_seed y)) (p_nobj p) s /\ length (sv_lat (p_dist p)) = p_nobj p /\
  each_below m F h (arg "r_max") s (sv_lat (p_dist p)) s' /\ follows (fun r => arg "Lambda" * (4 * PI * r ^ 2)) F h (arg "r_max").
Proof.
  destruct (LawLib.sphere_populations m Q ginv gam sol rel Om h0 form w c arg seed rate y0 lum B C (Rlt_le _ _ HL) HR) as (SK & _ & SF).
  rewrite <- SP in SK, SF. exact (SF _ _ _ _ _ _ _ y p z NP eq_refl SK NV H).
Qed.
End Survey.
