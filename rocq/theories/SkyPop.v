(** The sky positions of the objects of a survey (C73). *)
From Coq Require Import Reals ZArith List String Lra Lia.
From Verif Require Import Base BaseFacts Env ParamModel SelModel SimVarModel DistModel DistSpec DistProofs AuxModel PopModel SynthModel SynthSpec SynthInv LibModel LibGeo
  RealModel RealSpec AuxLawSpec AuxLaw SkyModel SkySpec.
From Verif Require SurveyPop SurveyProofs RealSize SynthFrame.
Import ListNotations.
Open Scope R_scope.
Open Scope string_scope.
Open Scope list_scope.

(** ** Any survey *)
Section Any.
Variable E : env.
Definition placed (c : spcls E) (n : nat) (rs : list (V E)) (g : Rst E) (s : spvals E) (g' : Rst E) : Prop :=
  match sc_sky c with
  | None => sv_dist s = rs /\ sample_theta_phi E n g = (sv_theta s, sv_phi s, g')
  | Some f => f rs n g = (Ok s, g')
  end.
Lemma survey_placed prog fuel rl fs l10 ns norm (y : synth E) p y' :
  draw_survey prog fuel rl fs l10 ns norm y = (Ok p, y') ->
  wf_par E (sc_params (sd_cls (y_sp y))) (sd_par (y_sp y)) -> (norm = true -> ns = None -> norm_value E (sd_par (y_sp y))) ->
  exists g rs ps g1 s g2, drawn (sd_cls (y_sp y)) (sd_par (y_sp y)) prog fuel (p_nobj p) norm g g1 rs ps /\
    placed (sd_cls (y_sp y)) (p_nobj p) rs g1 s g2 /\
    sv_lat (p_dist p) = sv_dist s /\ sv_lat (p_theta p) = sv_theta s /\ sv_lat (p_phi p) = sv_phi s /\
    sv_obs (p_theta p) = sv_theta s /\ sv_obs (p_phi p) = sv_phi s.
Proof.
  intros H W NV. destruct (survey_steps _ _ _ _ _ _ _ _ _ _ _ H) as (t & S).
  destruct (SurveyPop.size_ok _ _ _ _ _ _ W NV (sp_size _ _ _ _ _ _ _ _ _ _ _ _ S)) as (o1 & Q1 & S1 & W1).
  assert (HD := sp_dist _ _ _ _ _ _ _ _ _ _ _ _ S). apply SurveyPop.in_sp_inv in HD. destruct HD as (d & g' & HD & Q2 & _ & QG). rewrite Q1 in HD.
  destruct (draw_distance_ok E prog fuel (tr_n E t) norm (with_spar (y_sp y) o1) _ _ _ W1 HD) as (rs & ps & o2 & D & Q3 & S2 & W2).
  change (sd_cls (with_spar (y_sp y) o1)) with (sd_cls (y_sp y)) in *. change (sd_par (with_spar (y_sp y) o1)) with o1 in *.
  assert (G := sp_sky _ _ _ _ _ _ _ _ _ _ _ _ S). apply SurveyPop.in_sp_inv in G. destruct G as (d3 & g3 & G & Q4 & _ & _). rewrite Q2, QG in G.
  destruct (SurveyPop.end_positions _ _ _ _ _ _ _ _ _ _ _ _ S) as (_ & _ & _ & EP).
  assert (SPV := sp_sp _ _ _ _ _ _ _ _ _ _ _ _ S). rewrite Q4, EP in SPV.
  destruct (SurveyProofs.steps_built _ _ _ _ _ _ _ _ _ _ _ _ S) as (ar & B & _).
  exists (w_g (y_w (tr_sized E t))), rs, ps, g', (SpVals E (pa_dist (p_args p)) (pa_theta (p_args p)) (pa_phi (p_args p))), g3.
  assert (N := sz_nobj (SurveyProofs.all_sized _ _ _ _ _ _ _ _ _ _ _ _ S)). rewrite N.
  split; [eapply SurveyPop.drawn_same; [apply same_sym; exact S1|exact D]|].
  split.
  - unfold draw_sky_positions in G. cbn [fst snd] in G. unfold placed. rewrite Q3 in G. cbn [sd_cls with_prob with_dist with_spar sd_dist] in G.
    destruct (sc_sky (sd_cls (y_sp y))) as [f|].
    + destruct (f rs (tr_n E t) g') as [[[r1 t1 p1]|e] g4]; [|discriminate G]. injection G as <- <-. cbn in SPV. injection SPV as <- <- <-. reflexivity.
    + destruct (sample_theta_phi E (tr_n E t) g') as [[t1 p1] g4]. injection G as <- <-. cbn in SPV. injection SPV as <- <- <-. now split.
  - rewrite (proj1 (SurveyProofs.bu_dist _ _ _ B)), (proj1 (SurveyProofs.bu_theta _ _ _ B)), (proj1 (SurveyProofs.bu_phi _ _ _ B)), (SurveyProofs.bu_args _ _ _ B). cbn. auto.
Qed.
End Any.

Section Sphere.
Variable m : machine.
Notation E := (real_env m).
Hypothesis U : uniform_in_range m.
Lemma sphere_drawn n g th ph g' : sample_theta_phi E n g = (th, ph, g') -> over_the_sphere m g th ph g' /\ length th = n /\ length ph = n.
Proof.
  unfold sample_theta_phi. destruct (rdraws _ n g) as [us g1] eqn:D1. destruct (rdraws _ n g1) as [ps g2] eqn:D2. intros [= <- <- <-].
  destruct (draws_consecutive _ _ _ _ _ _ _ D1) as [C1 L1]. destruct (draws_consecutive _ _ _ _ _ _ _ D2) as [C2 L2].
  split; [|now rewrite map_length]. exists us, g1. split; [exact C1|]. split; [exact C2|].
  apply Forall2_map_r. assert (F := consecutive_all _ _ _ (fun u => 0 <= u < 1) (fun g => proj1 (U 1 g) ltac:(lra)) _ _ _ C1).
  eapply Forall_impl; [|exact F]. cbn. clear. intros u Hu. assert (T := theta_range u). assert (C := cos_theta u ltac:(lra)).
  unfold theta, np_uniform in *. replace (1 - (1 + 1) * u) with (1 - 2 * (0 + (1 - 0) * u)) by ring. split; [exact T|exact C].
Qed.
End Sphere.

Section Spiral.
Variable m : machine.
Notation E := (real_env m).
Variable gs : galaxy_sources m.

Lemma draws_one_each S A B (src : B -> S -> A * S) bs : forall g l g', rmapdraws src bs g = (l, g') -> one_each src bs g l g' /\ length l = length bs.
Proof.
  induction bs as [|b bs IH]; intros g l g'; cbn; [intros [= <- <-]; now split|]. destruct (src b g) as [x g1] eqn:F. destruct (rmapdraws src bs g1) as [r g2] eqn:D.
  intros [= <- <-]. destruct (IH _ _ _ D) as [C L]. cbn. rewrite ?F. cbn. rewrite L. auto.
Qed.
Lemma nth_zip A B (a : list A) (b : list B) j p : nth_error (combine a b) j = Some p -> nth_error a j = Some (fst p) /\ nth_error b j = Some (snd p).
Proof.
  revert b j. induction a as [|x a IH]; intros [|y b] [|j]; cbn; try discriminate; [|apply IH]. intros [= <-]. now split.
Qed.
Lemma arms_spec i : nth_error arms i = arm i.
Proof.
  destruct i as [|[|[|[|i]]]]; try reflexivity. now destruct i.
Qed.
Lemma on_arm k r0 t0 d w : 0 < d -> 0 < r0 -> k <> 0 ->
  d = r0 * exp ((spiral_angle (k, r0, t0) d w - t0 - w * exp (- 0.35 * d)) / k).
Proof.
  intros D R K. unfold spiral_angle. replace (- (35 / 100) * d) with (- 0.35 * d) by lra.
  replace ((k * ln (d / r0) + t0 + w * exp (- 0.35 * d) - t0 - w * exp (- 0.35 * d)) / k) with (ln (d / r0)) by (field; exact K).
  rewrite exp_ln by now apply Rdiv_lt_0_compat. field. lra.
Qed.
Lemma polar r z : 0 <= polar_angle r z <= PI /\ cos (polar_angle r z) * sqrt (r * r + z * z) = z.
Proof.
  unfold polar_angle. split; [apply acos_bound|]. replace (r ^ 2 + z ^ 2) with (r * r + z * z) by ring.
  set (q := r * r + z * z). assert (Q : 0 <= q) by (unfold q; nra). destruct (Req_dec q 0) as [Z|Z].
  - assert (z = 0) by (unfold q in Z; nra). subst z. rewrite Z, sqrt_0. ring.
  - assert (P : 0 < sqrt q) by (apply sqrt_lt_R0; lra). assert (SS := sqrt_sqrt q Q).
    assert (X : (z / sqrt q) * sqrt q = z) by (field; lra). rewrite cos_acos; [exact X|].
    assert (z * z <= sqrt q * sqrt q) by (rewrite SS; unfold q; nra).
    split; apply (Rmult_le_reg_r (sqrt q)); try exact P; rewrite X; nra.
Qed.
Lemma spiral_drawn ds n g s g' : spiral_sky m gs ds n g = (Ok s, g') -> Forall (fun d => 0 < d) ds ->
  length ds = n /\ galaxy_drawn m (gs_arm m gs) (gs_exp m gs) (gs_sign m gs) g ds (sv_dist s) (sv_theta s) (sv_phi s) g'.
Proof.
  intros H POS. unfold spiral_sky in H. destruct (Nat.eqb (length ds) n) eqn:L0; [|discriminate]. apply Nat.eqb_eq in L0. split; [exact L0|].
  destruct (rdraws (gs_arm m gs) n g) as [idx g1] eqn:D1. destruct (rmapM _ idx) as [a|e] eqn:RA; [|discriminate].
  destruct (rdraws (mc_unif m 0 (2 * PI)) n g1) as [w g2] eqn:D2. destruct (rdraws (gs_exp m gs (3 / 10)) n g2) as [e g3] eqn:D3.
  destruct (rdraws (gs_sign m gs) n g3) as [sg g4] eqn:D4. destruct (rmapdraws _ ds g4) as [nn g5] eqn:D5. injection H as <- <-. cbn [sv_dist sv_theta sv_phi].
  destruct (draws_consecutive _ _ _ _ _ _ _ D1) as [C1 L1]. destruct (draws_consecutive _ _ _ _ _ _ _ D2) as [C2 L2].
  destruct (draws_consecutive _ _ _ _ _ _ _ D3) as [C3 L3]. destruct (draws_consecutive _ _ _ _ _ _ _ D4) as [C4 L4].
  destruct (draws_one_each _ _ _ _ _ _ _ _ D5) as [C5 L5]. assert (LA := rmapM_length _ _ RA).
  exists idx, g1, w, g2, e, g3, sg, g4, nn.
  split; [exact C1|]. split; [exact C2|]. split; [replace 0.3 with (3 / 10) by lra; exact C3|]. split; [exact C4|].
  split; [replace 0.07 with (7 / 100) by lra; exact C5|].
  split; [congruence|]. split; [congruence|]. split; [congruence|]. split; [congruence|].
  split; [rewrite map_length, combine_length; lia|]. split; [rewrite map_length, !combine_length; lia|].
  split; [rewrite map_length, combine_length, map_length, map_length, !combine_length; lia|].
  intros j ij dj wj hj uj nj rj tj pj HI HD HW HH HU HN HR HT HP.
  assert (PD : 0 < dj) by (eapply (proj1 (Forall_forall _ _) POS), nth_error_In, HD).
  assert (X := rmapM_nth _ _ j RA). rewrite HI in X. destruct X as ([[k r0] t0] & X & HA). rewrite arms_spec in X. destruct (arm ij) as [ar|] eqn:AR; [|discriminate]. cbn in X. injection X as ->.
  exists k, r0, t0. split; [exact AR|].
  assert (KR : 0 < r0 /\ k <> 0) by (clear - AR; destruct ij as [|[|[|[|]]]]; try discriminate AR; injection AR as <- <- <-; split; lra).
  rewrite nth_error_map in HR, HT, HP.
  destruct (nth_error (combine ds nn) j) as [q1|] eqn:Q1; [|discriminate]. cbn in HR. injection HR as <-.
  destruct (nth_zip _ _ _ _ _ _ Q1) as [Z1 Z2]. rewrite HD in Z1. rewrite HN in Z2. injection Z1 as Z1. injection Z2 as Z2. rewrite <- Z1, <- Z2 in *.
  destruct (nth_error (combine (combine a ds) w) j) as [q2|] eqn:Q2; [|discriminate]. cbn in HT. injection HT as <-.
  destruct (nth_zip _ _ _ _ _ _ Q2) as [Z3 Z4]. destruct (nth_zip _ _ _ _ _ _ Z3) as [Z5 Z6]. rewrite HA in Z5. rewrite HD in Z6. rewrite HW in Z4.
  injection Z5 as Z5. injection Z6 as Z6. injection Z4 as Z4. rewrite <- Z5, <- Z6, <- Z4.
  split; [apply on_arm; tauto|]. split; [reflexivity|].
  match type of HP with option_map _ ?x = _ => destruct x as [q3|] eqn:Q3; [|discriminate] end. cbn in HP. injection HP as <-.
  destruct (nth_zip _ _ _ _ _ _ Q3) as [Z7 Z8]. rewrite nth_error_map in Z7, Z8. rewrite Q1 in Z7. cbn in Z7. injection Z7 as Z7. rewrite <- Z7, <- Z1, <- Z2.
  destruct (nth_error (combine e sg) j) as [q4|] eqn:Q4; [|discriminate]. cbn in Z8. injection Z8 as Z8. rewrite <- Z8.
  destruct (nth_zip _ _ _ _ _ _ Q4) as [Z9 Z10]. rewrite HH in Z9. rewrite HU in Z10. injection Z9 as Z9. injection Z10 as Z10. rewrite <- Z9, <- Z10.
  clear. destruct uj.
  - destruct (polar (dj + nj) (hj * 1)) as [P1 P2]. split; [exact P1|]. replace (hj * hj) with (hj * 1 * (hj * 1)) by ring. rewrite P2. ring.
  - destruct (polar (dj + nj) (hj * -1)) as [P1 P2]. split; [exact P1|]. replace (hj * hj) with (hj * -1 * (hj * -1)) by ring. rewrite P2. ring.
Qed.
Lemma spiral_places ds n g : length ds = n -> (forall g, (fst (gs_arm m gs g) < 4)%nat) ->
  exists s g', spiral_sky m gs ds n g = (Ok s, g') /\ length (sv_dist s) = n /\ length (sv_theta s) = n /\ length (sv_phi s) = n.
Proof.
  intros L A. unfold spiral_sky. rewrite L, Nat.eqb_refl.
  destruct (rdraws (gs_arm m gs) n g) as [idx g1] eqn:D1.
  destruct (rdraws (mc_unif m 0 (2 * PI)) n g1) as [w g2] eqn:D2. destruct (rdraws (gs_exp m gs (3 / 10)) n g2) as [e g3] eqn:D3.
  destruct (rdraws (gs_sign m gs) n g3) as [sg g4] eqn:D4. destruct (rmapdraws _ ds g4) as [nn g5] eqn:D5.
  destruct (draws_consecutive _ _ _ _ _ _ _ D1) as [C1 L1]. destruct (draws_consecutive _ _ _ _ _ _ _ D2) as [C2 L2].
  destruct (draws_consecutive _ _ _ _ _ _ _ D3) as [C3 L3]. destruct (draws_consecutive _ _ _ _ _ _ _ D4) as [C4 L4].
  destruct (draws_one_each _ _ _ _ _ _ _ _ D5) as [C5 L5]. assert (F := consecutive_all _ _ _ (fun i => (i < 4)%nat) A _ _ _ C1).
  assert (RA : exists a, rmapM (fun i => of_opt IndexError (nth_error arms i)) idx = Ok a).
  { clear - F. induction F as [|i l Hi F (a & IH)]; [eexists; reflexivity|]. cbn [rmapM]. destruct (nth_error arms i) as [x|] eqn:N; [|apply nth_error_None in N; cbn in N; lia].
    cbn [of_opt rbind]. rewrite IH. cbn [rbind]. eauto. }
  destruct RA as (a & RA). assert (LA := rmapM_length _ _ RA). rewrite RA. eexists _, _. split; [reflexivity|]. cbn [sv_dist sv_theta sv_phi].
  rewrite !map_length, !combine_length, !map_length, !combine_length. lia.
Qed.

(** *** Consequences *)
Lemma far_angle i k r0 t0 d w th : arm i = Some (k, r0, t0) -> 15 <= d -> 0 <= w -> d = r0 * exp ((th - t0 - w * exp (- 0.35 * d)) / k) -> PI < th.
Proof.
  intros A D W X. assert (P4 := PI_4). assert (EP : 0 < exp (- 0.35 * d)) by apply exp_pos. assert (WE : 0 <= w * exp (- 0.35 * d)) by nra.
  set (q := w * exp (- 0.35 * d)) in *. set (v := (th - t0 - q) / k) in *.
  assert (K : 0 < r0 <= 4.9 /\ 4.25 <= k /\ 0 <= t0) by (clear - A; destruct i as [|[|[|[|]]]]; try discriminate A; injection A as <- <- <-; lra).
  assert (V : 1 < v).
  { apply exp_lt_inv. assert (E3 := exp_le_3). assert (0 < exp v) by apply exp_pos. nra. }
  assert (Y : th = k * v + t0 + q) by (unfold v; field; lra). nra.
Qed.
End Spiral.
