(** Soft selections over the reals (C76) and surveys with selections (C77). *)
From Coq Require Import Reals ZArith List String Lra Lia.
From Verif Require Import Base BaseFacts Env ParamModel SelModel SelSpec SelProofs SimVarModel DistModel DistSpec AuxModel AuxSpec PopModel SynthModel SynthSpec LibModel LibPopModel LibPopSpec LumLibModel
  RealModel RunSpec FlatSpec RealRunSpec ChosenSpec SoftSpec.
From Verif Require SurveyTop SurveyProofs SelTight ChosenRuns RealRuns.
Import ListNotations.
Open Scope R_scope.
Open Scope string_scope.

Lemma ln10_pos : 0 < ln 10. Proof. rewrite <- ln_1. apply ln_increasing; lra. Qed.
Lemma expit_open x : 0 < expit x < 1.
Proof.
  unfold expit. assert (0 < exp (- x)) by apply exp_pos. split; [apply Rdiv_lt_0_compat; lra|].
  apply Rmult_lt_reg_r with (1 + exp (- x)); [lra|]. field_simplify; lra.
Qed.
Lemma expit_odds x : expit x / (1 - expit x) = exp x.
Proof. unfold expit. assert (0 < exp (- x)) by apply exp_pos. rewrite exp_Ropp in *. assert (0 < exp x) by apply exp_pos. field. lra. Qed.
Lemma soft_probability k b f : 0 < b -> 0 < f -> detection_probability k b f (expit (k * (log10 f - log10 b))).
Proof.
  intros Hb Hf. split; [apply expit_open|]. rewrite expit_odds. unfold Rpower, log10. f_equal.
  assert (L : ln (f / b) = ln f - ln b). { unfold Rdiv. rewrite ln_mult, ln_Rinv; [ring|exact Hb|exact Hf|now apply Rinv_0_lt_compat]. }
  rewrite L. assert (X := ln10_pos). field. lra.
Qed.
Lemma odds_inj p q : 0 < p < 1 -> 0 < q < 1 -> (p < q <-> p / (1 - p) < q / (1 - q)).
Proof.
  intros P Q. split; intros H.
  - apply Rmult_lt_reg_r with (1 - p); [lra|]. unfold Rdiv at 1. rewrite Rmult_assoc, Rinv_l, Rmult_1_r by lra.
    apply Rmult_lt_reg_r with (1 - q); [lra|]. replace (q / (1 - q) * (1 - p) * (1 - q)) with (q * (1 - p)) by (field; lra). nra.
  - apply (Rmult_lt_compat_r (1 - p)) in H; [|lra]. unfold Rdiv at 1 in H. rewrite Rmult_assoc, Rinv_l, Rmult_1_r in H by lra.
    apply (Rmult_lt_compat_r (1 - q)) in H; [|lra]. replace (q / (1 - q) * (1 - p) * (1 - q)) with (q * (1 - p)) in H by (field; lra). nra.
Qed.
Lemma probability_unique k b f p q : detection_probability k b f p -> detection_probability k b f q -> p = q.
Proof. intros [P1 P2] [Q1 Q2]. destruct (Rtotal_order p q) as [L|[L|L]]; [|exact L|]; apply odds_inj in L; try assumption; lra. Qed.
Lemma probability_half k b p : 0 < b -> detection_probability k b b p -> p = 1 / 2.
Proof.
  intros Hb [P1 P2]. replace (b / b) with 1 in P2 by (field; lra). unfold Rpower in P2. rewrite ln_1, Rmult_0_r, exp_0 in P2.
  apply (Rmult_eq_compat_r (1 - p)) in P2. unfold Rdiv in P2. rewrite Rmult_assoc, Rinv_l in P2 by lra. lra.
Qed.
Lemma probability_brighter k b f f' p p' : 0 < k -> 0 < b -> 0 < f -> f < f' -> detection_probability k b f p -> detection_probability k b f' p' -> p < p'.
Proof.
  intros Hk Hb Hf L [P1 P2] [Q1 Q2]. apply odds_inj; [assumption..|]. rewrite P2, Q2. unfold Rpower. apply exp_increasing.
  assert (X := ln10_pos). apply Rmult_lt_compat_l; [now apply Rdiv_lt_0_compat|]. apply ln_increasing; [now apply Rdiv_lt_0_compat|].
  unfold Rdiv. apply Rmult_lt_compat_r; [now apply Rinv_0_lt_compat|exact L].
Qed.
Lemma probability_sharper k k' b f p p' : k < k' -> 0 < b < f -> detection_probability k b f p -> detection_probability k' b f p' -> p < p'.
Proof.
  intros L [Hb Hf] [P1 P2] [Q1 Q2]. apply odds_inj; [assumption..|]. rewrite P2, Q2. apply Rpower_lt.
  - apply Rmult_lt_reg_r with b; [exact Hb|]. replace (f / b * b) with f by (field; lra). lra.
  - assert (X := ln10_pos). unfold Rdiv. apply Rmult_lt_compat_r; [now apply Rinv_0_lt_compat|exact L].
Qed.
Lemma probability_certain k b e : 0 < k -> 0 < b -> 0 < e < 1 -> exists f0, 0 < f0 /\ forall f p, f0 < f -> detection_probability k b f p -> 1 - e < p.
Proof.
  intros Hk Hb He. assert (X := ln10_pos). exists (b * exp (ln ((1 - e) / e) / (k / ln 10))). split; [apply Rmult_lt_0_compat; [exact Hb|apply exp_pos]|].
  intros f p L [P1 P2]. apply odds_inj; [lra|assumption|]. rewrite P2. replace (1 - (1 - e)) with e by ring.
  assert (K : 0 < k / ln 10) by now apply Rdiv_lt_0_compat. assert (O : 0 < (1 - e) / e) by (apply Rdiv_lt_0_compat; lra).
  rewrite <- (exp_ln ((1 - e) / e)) at 1 by exact O. unfold Rpower. apply exp_increasing.
  replace (ln ((1 - e) / e)) with (k / ln 10 * (ln ((1 - e) / e) / (k / ln 10))) by (field; lra). apply Rmult_lt_compat_l; [exact K|].
  rewrite <- (ln_exp (ln ((1 - e) / e) / (k / ln 10))). apply ln_increasing; [apply exp_pos|].
  apply Rmult_lt_reg_l with b; [exact Hb|]. replace (b * (f / b)) with f by (field; lra). exact L.
Qed.

Section M.
Variable m : machine.
Notation E := (real_env m).
Lemma draws_bernoulli ps g : bernoulli_draws m ps g (fst (rmapdraws (mc_bern m) ps g)) (snd (rmapdraws (mc_bern m) ps g)).
Proof.
  revert g. induction ps as [|p ps IH]; intros g; cbn; [constructor|]. destruct (mc_bern m p g) as [x g1] eqn:B.
  specialize (IH g1). destruct (rmapdraws (mc_bern m) ps g1) as [xs g2]. econstructor; eassumption.
Qed.
Lemma draws_length ps g xs g' : bernoulli_draws m ps g xs g' -> length xs = length ps.
Proof. induction 1; cbn; congruence. Qed.
Lemma soft_all k b fl : 0 < b -> Forall (fun f => 0 < f) fl -> Forall2 (detection_probability k b) fl (map (fun f => expit (k * (log10 f - log10 b))) fl).
Proof. intros Hb. induction 1; cbn; constructor; [now apply soft_probability|assumption]. Qed.

Lemma probs_length k b (fl ps : list R) : Forall2 (detection_probability k b) fl ps -> length ps = length fl.
Proof. induction 1; cbn; congruence. Qed.

(** One selector. *)
Theorem soft_selector (s : selector E) prog n g fl k b : takes_probabilities m -> s_kind s = KSoft E -> selects_on s (Some fl) -> par_is s "strength" k -> par_is s "boundary" b ->
  0 < b -> Forall (fun f => 0 < f) fl ->
  exists ps mk g', draws prog n s g mk g' /\ Forall2 (detection_probability k b) fl ps /\ bernoulli_draws m ps g mk g'.
Proof.
  intros TP K SO PK PB Hb FP.
  destruct (soft_draws E prog n s g fl k b K SO PK PB) as [D _].
  { intros x I. cbn. apply TP. assert (X := expit_open (k * (log10 x - log10 b))). lra. }
  exists (map (fun f => expit (k * (log10 f - log10 b))) fl), (fst (rmapdraws (mc_bern m) (map (fun f => expit (k * (log10 f - log10 b))) fl) g)),
    (snd (rmapdraws (mc_bern m) (map (fun f => expit (k * (log10 f - log10 b))) fl) g)).
  split; [exact D|]. split; [now apply soft_all|]. apply draws_bernoulli.
Qed.

(** In a survey. *)
Theorem soft_survey prog fuel rl fs l10 ns norm (y : synth E) p y' s k b : draw_survey prog fuel rl fs l10 ns norm y = (Ok p, y') ->
  takes_probabilities m -> selectors_apart y -> nth_error (w_sels (y_w y)) (y_flux y) = Some s -> s_sampled s = false ->
  s_kind s = KSoft E -> s_fflux s = true -> par_is s "strength" k -> par_is s "boundary" b -> 0 < b ->
  (fs = None -> Forall (fun f => 0 < f) (sv_lat (p_flux p))) ->
  exists ps mk g g', Forall2 (detection_probability k b) (sv_obs (p_flux p)) ps /\ bernoulli_draws m ps g mk g' /\ mask_at (y_w y') (y_flux y) mk /\
    (y_ssel y = None -> y_aux y = [] -> y_der y = None -> forall i, (i < p_nobj p)%nat -> (nth_error (pa_sel (p_args p)) i = Some true <-> nth_error mk i = Some true)).
Proof.
  intros H TP SA N U K FF PK PB Hb FP0.
  assert (FP : Forall (fun f : R => 0 < f) (sv_obs (p_flux p))).
  { assert (OF := SurveyTop.observed_flux _ _ _ _ _ _ _ _ _ _ _ H s N). rewrite K in OF. cbn [is_unity] in OF. destruct fs as [sg|]; [|destruct OF as [_ ->]; now apply FP0].
    destruct OF as (_ & es & g & g' & _ & OF). apply Forall_forall. intros x I. apply In_nth_error in I. destruct I as (i & I). rewrite OF in I.
    destruct (nth_error (sv_lat (p_flux p)) i), (nth_error es i); try discriminate. injection I as <-. unfold noisy. destruct l10; cbn; [unfold Rpower|]; apply exp_pos. }
  destruct (SurveyTop.flux_judged _ _ _ _ _ _ _ _ _ _ _ H s SA N U) as (s0 & g0 & s1 & g1 & mk & SU & OF & SD & MK & MA).
  destruct SU as (U1 & _ & _ & U2 & U3 & U4 & U5 & U6).
  destruct (soft_selector s0 prog (p_nobj p) g0 (sv_obs (p_flux p)) k b) as (ps & mk' & g' & (s1' & D & MK') & F2 & BD); try assumption.
  - congruence.
  - left. split; [congruence|]. now rewrite OF.
  - now apply U6.
  - now apply U6.
  - rewrite SD in D. injection D as <- <-. rewrite MK in MK'. injection MK' as <-. exists ps, mk, g0, g1. split; [exact F2|]. split; [exact BD|]. split; [exact MA|].
    intros S0 A0 D0 i Hi.
    assert (NP : forall j, ~ part y j). { intros j [(k0 & i0 & I & _)|(i0 & I & _)]; [rewrite A0 in I; destruct I|congruence]. }
    assert (DN : distinct_names y). { split; [intros j a PJ|intros j j' a a' PJ]; now apply NP in PJ. }
    rewrite (SurveyTop.selected_iff _ _ _ _ _ _ _ _ _ _ _ H DN SA i Hi).
    assert (LF : length (sv_obs (p_flux p)) = p_nobj p). { destruct (SurveyTop.all_sized _ _ _ _ _ _ _ _ _ _ _ H) as [Z _]. apply (sz_flux Z). }
    assert (LM : length mk = p_nobj p). { rewrite (draws_length _ _ _ _ BD), <- LF. apply probs_length in F2. exact F2. }
    assert (AC : accepts mk i <-> nth_error mk i = Some true).
    { unfold accepts. rewrite LM. destruct (Nat.eqb_spec (p_nobj p) 1) as [E1|E1].
      - replace i with 0%nat by lia. destruct mk as [|x mk]; cbn; [split; discriminate|]. split; [now intros ->|]. intros X. now injection X.
      - split; [|apply nth_error_nth]. intros X. rewrite <- X. apply nth_error_nth'. lia. }
    rewrite <- AC. split.
    + intros ((mk' & (s2 & N2 & M2) & A2) & _). destruct MA as (s3 & N3 & M3). replace mk with mk' by congruence. exact A2.
    + intros A. split; [exists mk; auto|]. split; [congruence|]. intros j a PJ. now apply NP in PJ.
Qed.

(** ** Selections that are ready decide *)
Lemma par_flux (s : selector E) fl k v : par_is s k v -> par_is (set_observed_flux s fl) k v.
Proof. intros (d & A & B). exists d. split; assumption. Qed.
Lemma draws_decided prog n (s0 : selector E) g mk g' : draws prog n s0 g mk g' -> length mk = n ->
  exists s' g2 mk2, sel_draw prog n (s0, g) = (Ok tt, (s', g2)) /\ s_mask s' = Some mk2 /\ length mk2 = n.
Proof. intros (s' & A & B) L. eauto 10. Qed.
Theorem ready_decides (s : selector E) n : takes_probabilities m -> flux_ready m s -> decides s n.
Proof.
  intros TP [U K]. split; [exact U|]. intros prog fl g L.
  assert (SO : s_fflux s = true -> selects_on (set_observed_flux s fl) (Some fl)) by (intros F; left; split; [exact F|reflexivity]).
  destruct K as [K|[(K & p & Hp & P)|(F & [(K & b & B)|[(K & b & B)|[(K & lo & hi & B1 & B2)|(K & k & b & B1 & B2)]]])]].
  - eapply draws_decided; [apply unity_exact; exact K|apply repeat_length].
  - destruct (bernoulli_paths E n (set_observed_flux s fl) g p K (par_flux _ _ _ _ P) (TP p Hp)) as (D1 & D2 & D3).
    destruct prog; eapply draws_decided; [exact D1|exact D3|exact D2|exact D3].
  - destruct (lower_exact E prog n (set_observed_flux s fl) g fl b K (SO F) (par_flux _ _ _ _ B)) as (mk & D & LM & _). eapply draws_decided; [exact D|congruence].
  - destruct (upper_exact E prog n (set_observed_flux s fl) g fl b K (SO F) (par_flux _ _ _ _ B)) as (mk & D & LM & _). eapply draws_decided; [exact D|congruence].
  - destruct (box_exact E prog n (set_observed_flux s fl) g fl lo hi K (SO F) (par_flux _ _ _ _ B1) (par_flux _ _ _ _ B2)) as (mk & D & LM & _). eapply draws_decided; [exact D|congruence].
  - destruct (soft_draws E prog n (set_observed_flux s fl) g fl k b K (SO F) (par_flux _ _ _ _ B1) (par_flux _ _ _ _ B2)) as (D & LM).
    { intros x I. cbn. apply TP. assert (X := expit_open (k * (log10 x - log10 b))). lra. }
    eapply draws_decided; [exact D|]. cbn zeta in LM. congruence.
Qed.
Theorem ready_places (s : selector E) n : place_ready m s -> decides_places s n.
Proof.
  intros [U K]. split; [exact U|]. split; [destruct K as [[K _]|[K _]]; rewrite K; reflexivity|].
  intros prog p s0 g L1 L2 L3 SET. unfold set_spatial_distribution in SET.
  assert (IS : is_spatial (s_kind s) = true) by (destruct K as [[K _]|[K _]]; rewrite K; reflexivity). rewrite IS in SET.
  destruct K as [(K & b & B)|(K & lo & hi & B1 & B2)].
  - destruct (galactic_exact E prog n s0 g p b) as (mk & D & LM & _).
    + injection SET as <-. exact K.
    + injection SET as <-. reflexivity.
    + injection SET as <-. destruct B as (d & B). exists d. exact B.
    + eapply draws_decided; [exact D|]. rewrite LM, combine_length. unfold sv_ra, sv_dec. rewrite !map_length. lia.
  - destruct (distance_exact E prog n s0 g p lo hi) as (mk & D & LM & _).
    + injection SET as <-. exact K.
    + injection SET as <-. reflexivity.
    + injection SET as <-. destruct B1 as (d & B). exists d. exact B.
    + injection SET as <-. destruct B2 as (d & B). exists d. exact B.
    + eapply draws_decided; [exact D|]. congruence.
Qed.
End M.

(** Predefined populations with selections. *)
Section Pops.
Variables (m : machine) (ginv : R -> R -> R) (gam : R -> R) (sol rel Om h0 : R) (form : string -> string) (sky : string -> option (list R -> nat -> M (mc_st m) (spvals (real_env m)))).
Notation E := (real_env m).
Theorem population_with_selections (w : world E) :
  (forall cls, cls <> "SpiralGalaxyDistribution" -> sky cls = None) -> quad_exact m -> fair m -> takes_probabilities m -> 0 < sol /\ 0 < Om < 1 /\ 0 < h0 /\ 0 <= rel < 1 ->
  forall c (arg : string -> R) seed rate prog rl (fs : option (V E)) l10 n norm (y0 y : synth E) lum d,
  build (full_lib m ginv gam sol rel Om h0 sky form) w c arg seed lum rate = Ok y0 -> fst (documented c) <> milky_way -> snd (documented c) = Some d ->
  positive_density (fst (documented c)) arg -> drawable d arg ->
  y_sp y = y_sp y0 -> y_lum y = y_lum y0 -> selective y n -> (forall sg : R, fs = Some sg -> 0 <= sg) -> (0 < rl)%nat ->
  exists fuel p y', draw_survey prog fuel rl fs l10 (Some n) norm y = (Ok p, y') /\ p_nobj p = n /\ length (pa_known (p_args p)) = p_ndet p.
Proof.
  intros S Q F B P c arg seed rate prog rl fs l10 n norm y0 y lum d H NM HD PD DR ES EL SE SG RL.
  destruct (RealRuns.population_parts m Q F B ginv gam sol rel Om h0 form sky S P w _ _ _ _ _ _ _ H NM HD PD DR) as (sp & l & -> & (W & SK & D) & G2).
  destruct (D prog n norm (r_seed E (y_seed y))) as (fuel & d' & s' & HD'). exists fuel.
  change (y_sp (population_synth w sp (Some l) seed)) with (fst sp) in ES.
  change (y_lum (population_synth w sp (Some l) seed)) with (Some (fst l)) in EL.
  eapply ChosenRuns.selective_returns; [exact SE| |exact RL|exact EL|apply G2| | |rewrite ES; exact HD']; [|rewrite ES; exact W|rewrite ES; exact (SK n)].
  intros sg ->. split; [|reflexivity]. specialize (SG sg eq_refl). cbn. unfold ltb. destruct (Rlt_dec sg 0); [lra|reflexivity].
Qed.
End Pops.
