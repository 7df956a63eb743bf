(** Surveys of Milky Way populations (C68, C73). *)
From Coq Require Import Reals ZArith List String Lra Lia.
From Coquelicot Require Import Coquelicot.
From Verif Require Import Base BaseFacts Env ParamModel SelModel SimVarModel DistModel DistSpec DistProofs AuxModel PopModel SynthModel SynthSpec LibModel LibGeo LibPopModel LibPopSpec
  RealModel RealSpec RealProofs LumLibModel RunSpec SurveyRuns RealRunSpec AuxLawSpec AuxLaw SkyModel SkySpec SkyPop.
From Verif Require RealSize RealRuns.
Import ListNotations.
Open Scope R_scope.
Open Scope string_scope.
Open Scope list_scope.

Section P.
Variable m : machine.
Notation E := (real_env m).
Hypothesis Q : quad_exact m.
Variable gs : galaxy_sources m.
Variable ginv : R -> R -> R.
Variable gam : R -> R.
Variables (sol rel Om h0 : R) (form : string -> string).
Notation fo := (full_lib m ginv gam sol rel Om h0 (library_sky m gs) form).
Variable w : world E.

Lemma spiral_curve rho R1 R0 a b rm : 0 < rho -> 0 < R1 -> 0 < R0 + R1 -> curve (dens_spiral rho R1 R0 a b) rm.
Proof.
  intros Hr H1 H0 x Hx. split.
  - apply derives. unfold dens_spiral, sphere_volume, Rpower. auto_derive. repeat split; try lra. apply Rmult_lt_0_compat; [lra|]. apply Rinv_0_lt_compat. lra.
  - unfold dens_spiral, sphere_volume. rewrite Rdiv_1. apply Rmult_lt_0_compat; [|apply area_pos; lra].
    apply Rmult_lt_0_compat; [|apply exp_pos]. apply Rmult_lt_0_compat; [lra|apply exp_pos].
Qed.
Lemma spiral_nonneg rho R1 R0 a b r : 0 < rho -> 0 <= dens_spiral rho R1 R0 a b r.
Proof.
  intros H. unfold dens_spiral. rewrite Rdiv_1. apply Rmult_le_pos; [|apply vol_nonneg]. apply Rmult_le_pos; [|left; apply exp_pos].
  apply Rmult_le_pos; [lra|left; apply exp_pos].
Qed.
Lemma spiral_zero rho R1 R0 a b : dens_spiral rho R1 R0 a b 0 = 0.
Proof. unfold dens_spiral, sphere_volume. rewrite Rdiv_1. ring. Qed.

Section One.
Variables (rho a b R1 R0 rm : R).
Hypothesis Hrho : 0 < rho.
Hypothesis HR1 : 0 < R1.
Hypothesis HR0 : 0 < R0 + R1.
Hypothesis Hrm : 0 < rm.
Variable d : spobj E.
Hypothesis A : assign_sp (SpiralGalaxyDistribution fo None) [("rho", rho); ("a", a); ("b", b); ("R1", R1); ("R0", R0); ("r_max", rm)] = Ok d.

Lemma galaxy_is : instance m (sd_cls (fst (SpiralGalaxyDistribution fo None))) rm (fst d) /\ po_norm (sd_par (fst d)) = None /\
  values E (sc_params (sd_cls (fst d))) (sd_par (fst d)) (sc_reads (sd_cls (fst d))) [rho; R1; R0; a; b] /\
  unit_values E (sc_params (sd_cls (fst d))) (sd_par (fst d)) (sc_reads (sd_cls (fst d))) [rho; R1; R0; a; b] /\
  (forall r, sc_dens (sd_cls (fst d)) [rho; R1; R0; a; b] r = Ok (dens_spiral rho R1 R0 a b r)) /\
  sc_sky (sd_cls (fst d)) = Some (spiral_sky m gs).
Proof.
  unfold assign_sp in A. cbn in A. rewrite !RealRuns.le0 in A by assumption. cbn in A. injection A as <-. cbn [fst].
  split.
  - split; [reflexivity|]. split; [|split; [exact Hrm|reflexivity]]. split; [|split]; clear - m.
    + intros k1 k2 d1 d2; cbn [dget]; intros H1 H2 N1 N2; cbn in H1.
      repeat match type of H1 with context [String.eqb k1 ?s] => destruct (String.eqb_spec k1 s); [injection H1 as <-; discriminate N1|] end; discriminate.
    + intros k Hk; cbn in Hk; discriminate.
    + intros e HH. cbn in HH; injection HH as <-; reflexivity.
  - split; [reflexivity|]. split; [repeat constructor|]. split; [repeat constructor|]. split; reflexivity.
Qed.
Lemma galaxy_distances prog fuel n norm s s' rs ps : uniform_in_range m ->
  drawn (sd_cls (fst d)) (sd_par (fst d)) prog fuel n norm s s' rs ps -> length rs = n /\ Forall (fun r => 0 < r < rm) rs.
Proof.
  intros U D. destruct galaxy_is as ((C & W & P & R) & _ & VA & UV & DE & _). rewrite <- C in W, R.
  destruct (RealSize.laws m U) as (L1 & L2 & L3 & L4 & L5 & L6).
  destruct (drawn_in_range E _ _ _ _ _ _ _ _ _ _ rm [rho; R1; R0; a; b] [rho; R1; R0; a; b] L1 L2 L3 L4 L5 L6 D R) as [LN X]; try assumption.
  - now apply RealSize.ltb_iff.
  - intros r x _ Hx. rewrite DE in Hx. injection Hx as <-. apply RealSize.leb_iff. now apply spiral_nonneg.
  - intros _ i Hi. apply RealSize.ltb_iff. change (0 < i). destruct (spiral_int rho R1 R0 a b rm) as [I PI]; try assumption.
    rewrite (RealSize.quad_is m Q _ (dens_spiral rho R1 R0 a b) _ _ _ DE I Hi). exact PI.
  - split; [exact LN|]. apply Forall_forall. intros r Hr. destruct (X r Hr) as (X1 & X2 & x & X3 & X4). apply RealSize.leb_iff in X1. apply RealSize.ltb_iff in X2. apply RealSize.ltb_iff in X4.
    rewrite DE in X3. injection X3 as <-. split; [|exact X2]. destruct X1 as [X1|X1]; [exact X1|]. exfalso. rewrite <- X1 in X4. change (0 < dens_spiral rho R1 R0 a b 0) in X4. rewrite spiral_zero in X4. lra.
Qed.
Lemma galaxy_good : fair m -> (forall g, (fst (gs_arm m gs g) < 4)%nat) -> RealRuns.good_space m (fst d).
Proof.
  intros F AR. destruct galaxy_is as (I & NN & VA & UV & DE & SK). destruct I as (C & W & P & R). split; [rewrite C; exact W|]. split.
  - intros n. unfold places. rewrite SK. intros ds g L. now apply spiral_places.
  - intros prog n norm s. destruct (spiral_int rho R1 R0 a b rm) as [I PI]; try assumption.
    eapply (RealRuns.draws m Q F _ rm 1 _ _ (dens_spiral rho R1 R0 a b)); [split; [reflexivity|]; split; [rewrite C; exact W|]; split; [exact P|rewrite C; exact R]| | |exact VA|exact UV|exact DE| |lra|now apply spiral_curve|now split].
    + rewrite C. clear - m. intros k d0; cbn; repeat match goal with |- context [String.eqb k ?s] => destruct (String.eqb_spec k s); [intros H; injection H as <-; discriminate|] end; discriminate.
    + right. rewrite C. clear - m. intros k d0; cbn; repeat match goal with |- context [String.eqb k ?s] => destruct (String.eqb_spec k s); [intros H; injection H as <-; reflexivity|] end; discriminate.
    + intros r. rewrite DE. f_equal. lra.
Qed.
End One.

(** A Milky Way population with a positive density. *)
Section Pop.
Variables (arg : string -> R) (seed : Z) (rate : bool) (lum : option (lumobj E)) (y0 : synth E).
Hypothesis G : galaxy_density arg.
Hypothesis B : build fo w P_MWRadialPopulation arg seed lum rate = Ok y0.
Lemma galaxy_parts : exists d, assign_sp (SpiralGalaxyDistribution fo None) [("rho", arg "rho"); ("a", arg "a"); ("b", arg "b"); ("R1", arg "R1"); ("R0", arg "R0"); ("r_max", arg "r_max")] = Ok d /\
  y0 = population_synth w d lum seed.
Proof.
  cbn [build] in B. unfold MWRadialPopulation in B. destruct (assign_sp _ _) as [d|]; [|discriminate B]. cbn [rbind] in B. injection B as <-. eauto.
Qed.
Theorem galaxy_drawable l prog rl fs l10 n norm : fair m -> (forall g, (fst (gs_arm m gs g) < 4)%nat) -> lum = Some l -> RealRuns.good_lum m (fst l) ->
  exists fuel p y', draw_survey prog fuel rl fs l10 (Some n) norm y0 = (Ok p, y') /\ p_nobj p = n /\ all_detected p.
Proof.
  intros F AR HL GL. destruct G as (H1 & H2 & H3 & H4). destruct galaxy_parts as (d & A & EY). rewrite EY, HL. apply RealRuns.population_drawn; [|exact GL]. eapply galaxy_good; [..|exact A|exact F|exact AR]; assumption.
Qed.

Variables (prog : bool) (fuel rl : nat) (fs : option (V E)) (l10 : bool) (ns : option nat) (norm : bool) (y : synth E) (p : population E) (y' : synth E).
Hypothesis U : uniform_in_range m.
Hypothesis SP : y_sp y = y_sp y0.
Hypothesis H : draw_survey prog fuel rl fs l10 ns norm y = (Ok p, y').
Theorem galaxy_survey : exists g ds ps g1 g2, drawn (sd_cls (y_sp y)) (sd_par (y_sp y)) prog fuel (p_nobj p) norm g g1 ds ps /\
  length ds = p_nobj p /\ Forall (fun d => 0 < d < arg "r_max") ds /\
  galaxy_drawn m (gs_arm m gs) (gs_exp m gs) (gs_sign m gs) g1 ds (sv_lat (p_dist p)) (sv_lat (p_theta p)) (sv_lat (p_phi p)) g2.
Proof.
  destruct G as (H1 & H2 & H3 & H4). destruct galaxy_parts as (d & A & E0). rewrite E0 in SP. change (y_sp (population_synth w d lum seed)) with (fst d) in SP.
  destruct (galaxy_is _ _ _ _ _ _ H1 H4 d A) as ((C & W & P & R) & NN & VA & UV & DE & SK).
  destruct (survey_placed E _ _ _ _ _ _ _ _ _ _ H) as (g & rs & ps & g1 & s & g2 & D & PL & Q1 & Q2 & Q3 & _).
  - rewrite SP, C. exact W.
  - intros _ _. unfold norm_value. rewrite SP, NN. discriminate.
  - rewrite SP in D, PL. unfold placed in PL. rewrite SK in PL.
    destruct (galaxy_distances _ _ _ _ _ _ H1 H2 H3 H4 d A _ _ _ _ _ _ _ _ U D) as [LR FR].
    destruct (spiral_drawn _ _ _ _ _ _ _ PL) as [_ GD]; [eapply Forall_impl; [|exact FR]; cbn; tauto|].
    exists g, rs, ps, g1, g2. rewrite SP, Q1, Q2, Q3. auto.
Qed.
End Pop.
End P.

(** ** The predefined populations and their places on the sphere *)
Section Sphere.
Variable m : machine.
Notation E := (real_env m).
Variable gs : galaxy_sources m.
Variable ginv : R -> R -> R.
Variable gam : R -> R.
Variables (sol rel Om h0 : R) (form : string -> string).
Notation fo := (full_lib m ginv gam sol rel Om h0 (library_sky m gs) form).
Variable w : world E.
Definition usual (d : sdist E) : Prop :=
  wf_par E (sc_params (sd_cls d)) (sd_par d) /\ sc_sky (sd_cls d) = None /\ norm_value E (sd_par d).
Ltac wf := split; [|split]; clear - m;
  [ intros k1 k2 d1 d2; cbn [dget]; intros H1 H2 N1 N2; cbn in H1, H2;
    repeat match type of H1 with context [String.eqb k1 ?s] => destruct (String.eqb_spec k1 s); [injection H1 as <-; try discriminate N1|] end; try discriminate;
    repeat match type of H2 with context [String.eqb k2 ?s] => destruct (String.eqb_spec k2 s); [injection H2 as <-; try discriminate N2|] end; try discriminate; congruence
  | intros k Hk; cbn in Hk; injection Hk as <-; eexists; split; reflexivity
  | let e := fresh in let HH := fresh in intros e HH; cbn in HH; injection HH as <-; reflexivity ].
Ltac us := unfold assign_sp; cbn; repeat (match goal with |- context [leb ?a ?b] => destruct (leb a b); cbn; [|discriminate] end); intros [= <-]; split; [wf|]; split; [reflexivity|];
  let k := fresh in let H := fresh in intros k H; cbn in H; injection H as <-; cbn; discriminate.
Lemma sphere_usual L rm d : assign_sp (ConstantSphericalDistribution fo None) [("Lambda", L); ("r_max", rm)] = Ok d -> usual (fst d).
Proof. us. Qed.
Lemma zpow_sphere_usual L delta rm d : assign_sp (ZPowerSphericalDistribution fo None) [("Lambda", L); ("r_max", rm); ("delta", delta)] = Ok d -> usual (fst d).
Proof. us. Qed.
Lemma zpow_cosmo_usual rate L delta rm d : assign_sp (ZPowerCosmoDistribution fo rate) [("Lambda", L); ("r_max", rm); ("delta", delta)] = Ok d -> usual (fst d).
Proof. us. Qed.
Lemma sfr_usual rate r0 a rise decay peak rm d :
  assign_sp (SFRDistribution fo rate) [("r0", r0); ("a", a); ("rise", rise); ("decay", decay); ("peak", peak); ("r_max", rm)] = Ok d -> usual (fst d).
Proof. us. Qed.
Lemma population_usual c arg seed rate lum (y : synth E) : build fo w c arg seed lum rate = Ok y -> fst (documented c) <> milky_way -> usual (y_sp y).
Proof.
  intros H NM. destruct c; cbn in NM; try congruence; clear NM; cbn [build] in H;
    unfold ParetoHomogeneousSphericalPopulation, ParetoZPowerSphericalPopulation, ParetoZPowerCosmoPopulation, ParetoSFRPopulation,
      BPLHomogeneousSphericalPopulation, BPLZPowerSphericalPopulation, BPLZPowerCosmoPopulation, BPLSFRPopulation,
      LogNormalHomogeneousSphericalPopulation, LogNormalZPowerSphericalPopulation, LogNormalZPowerCosmoPopulation, LogNormalSFRPopulation,
      Log10NormalHomogeneousSphericalPopulation, Log10NormalZPowerSphericalPopulation, Log10NormalZPowerCosmoPopulation, Log10NormalSFRPopulation,
      SchechterHomogeneousSphericalPopulation, SchechterZPowerSphericalPopulation, SchechterZPowerCosmoPopulation, SchechterSFRPopulation,
      SphericalPopulation, ZPowerSphericalPopulation, ZPowerCosmoPopulation, SFRPopulation in H;
    repeat (match type of H with rbind ?a _ = _ => let x := fresh "x" in let X := fresh "X" in destruct a as [x|] eqn:X; [|discriminate H] end; cbn [rbind] in H); injection H as <-;
    cbn [population_synth synth_new y_sp];
    match goal with X : assign_sp _ _ = Ok ?d |- usual (fst ?d) => first [exact (sphere_usual _ _ _ X)|exact (zpow_sphere_usual _ _ _ _ X)|exact (zpow_cosmo_usual _ _ _ _ _ X)|exact (sfr_usual _ _ _ _ _ _ _ _ X)] end.
Qed.

Lemma sphere_survey prog fuel rl fs l10 ns norm (y : synth E) p y' : uniform_in_range m ->
  draw_survey prog fuel rl fs l10 ns norm y = (Ok p, y') -> sc_sky (sd_cls (y_sp y)) = None ->
  wf_par E (sc_params (sd_cls (y_sp y))) (sd_par (y_sp y)) -> (norm = true -> ns = None -> norm_value E (sd_par (y_sp y))) ->
  exists g ps g1 g2, drawn (sd_cls (y_sp y)) (sd_par (y_sp y)) prog fuel (p_nobj p) norm g g1 (sv_lat (p_dist p)) ps /\
    over_the_sphere m g1 (sv_lat (p_theta p)) (sv_lat (p_phi p)) g2 /\ length (sv_lat (p_theta p)) = p_nobj p /\ length (sv_lat (p_phi p)) = p_nobj p /\
    sv_obs (p_theta p) = sv_lat (p_theta p) /\ sv_obs (p_phi p) = sv_lat (p_phi p).
Proof.
  intros U H SK W NV. destruct (survey_placed E _ _ _ _ _ _ _ _ _ _ H W NV) as (g & rs & ps & g1 & s & g2 & D & PL & Q1 & Q2 & Q3 & Q4 & Q5).
  unfold placed in PL. rewrite SK in PL. destruct PL as [R P]. destruct (sphere_drawn m U _ _ _ _ _ P) as (O & L1 & L2).
  exists g, ps, g1, g2. rewrite Q1, R, Q2, Q3. split; [exact D|]. split; [exact O|]. split; [exact L1|]. split; [exact L2|]. now split.
Qed.
Lemma sphere_ranges g th ph g' : uniform_in_range m -> over_the_sphere m g th ph g' ->
  Forall (fun x => -90 <= x <= 90) (map dec th) /\ Forall (fun x => 0 <= x < 360) (map ra ph).
Proof.
  intros U (u & g1 & _ & C & F). split; apply Forall_map.
  - induction F as [|x t u' th' [X _] F IH]; constructor; [now apply dec_range|exact IH].
  - eapply Forall_impl; [|exact (consecutive_all _ _ _ (fun v => 0 <= v < 2 * PI) (fun g => proj1 (U (2 * PI) g) ltac:(assert (P := PI_RGT_0); lra)) _ _ _ C)]. intros v. apply ra_range.
Qed.
End Sphere.

(** ** The angles of the Milky Way *)
Section Angles.
Variable m : machine.
Notation E := (real_env m).
Lemma nth_some A (l : list A) j n : length l = n -> (j < n)%nat -> exists x, nth_error l j = Some x.
Proof. intros L J. destruct (nth_error l j) eqn:N; [eauto|]. apply nth_error_None in N. lia. Qed.
Lemma one_each_length S A B (src : B -> S -> A * S) bs : forall g l g', one_each src bs g l g' -> length l = length bs.
Proof. induction bs as [|b bs IH]; intros g [|x l] g'; cbn; try easy. intros [_ H]. f_equal. eapply IH, H. Qed.
Lemma galaxy_each a e s g ds r th ph g' j : galaxy_drawn m a e s g ds r th ph g' -> (j < length ds)%nat ->
  exists i d w h up n rj t p, nth_error ds j = Some d /\ nth_error r j = Some rj /\ nth_error th j = Some t /\ nth_error ph j = Some p /\
    in_galaxy i d w h up n rj t p /\ exists g0, w = fst (mc_unif m 0 (2 * PI) g0).
Proof.
  intros (li & g1 & lw & g2 & lh & g3 & lu & g4 & ln & _ & CW & _ & _ & ON & L1 & L2 & L3 & L4 & L5 & L6 & L7 & ALL) J.
  assert (L8 := one_each_length _ _ _ _ _ _ _ _ ON).
  destruct (nth_some _ _ _ _ L1 J) as (i & X1). destruct (nth_some _ _ _ _ L2 J) as (w & X2). destruct (nth_some _ _ _ _ L3 J) as (h & X3). destruct (nth_some _ _ _ _ L4 J) as (up & X4).
  destruct (nth_some _ _ _ _ L5 J) as (rj & X5). destruct (nth_some _ _ _ _ L6 J) as (t & X6). destruct (nth_some _ _ _ _ L7 J) as (p & X7). destruct (nth_some _ _ _ _ L8 J) as (n & X8).
  destruct (nth_some _ _ _ _ eq_refl J) as (d & X9). exists i, d, w, h, up, n, rj, t, p. repeat (split; [assumption|]). split; [eauto|].
  apply (proj1 (Forall_forall _ _) (consecutive_all _ _ _ (fun w => exists g0, w = fst (mc_unif m 0 (2 * PI) g0)) (fun g0 => ex_intro _ g0 eq_refl) _ _ _ CW)). eapply nth_error_In, X2.
Qed.
Lemma galaxy_lengths a e s g ds r th ph g' : galaxy_drawn m a e s g ds r th ph g' -> length th = length ds /\ length ph = length ds.
Proof. intros (li & g1 & lw & g2 & lh & g3 & lu & g4 & ln & _ & CW & _ & _ & ON & L1 & L2 & L3 & L4 & L5 & L6 & L7 & ALL). now split. Qed.
Lemma galaxy_half a e s g ds r th ph g' : galaxy_drawn m a e s g ds r th ph g' -> Forall (fun x => 0 <= x <= 180) (map ra ph).
Proof.
  intros G. apply Forall_map, Forall_forall. intros x I. apply In_nth_error in I. destruct I as (j & J).
  assert (L : length ph = length ds) by (destruct (galaxy_lengths _ _ _ _ _ _ _ _ _ G) as [_ L]; exact L). assert (JJ : (j < length ds)%nat) by (rewrite <- L; apply nth_error_Some; congruence).
  destruct (galaxy_each _ _ _ _ _ _ _ _ _ _ G JJ) as (i & d & w & h & up & n & rj & t & p & _ & _ & _ & P & (k & r0 & t0 & _ & _ & _ & X & _) & _).
  rewrite J in P. injection P as <-. clear - X. unfold ra, rad2deg. assert (PP := PI_RGT_0). replace (x * (180 / PI)) with (180 * (x / PI)) by (field; lra).
  assert (Y : 0 <= x / PI <= 1); [|lra]. split; [apply Rmult_le_pos; [lra|left; now apply Rinv_0_lt_compat]|].
  apply (Rmult_le_reg_r PI); [exact PP|]. replace (x / PI * PI) with x by (field; lra). lra.
Qed.
Lemma galaxy_far a e s g ds r th ph g' j d t : uniform_in_range m -> galaxy_drawn m a e s g ds r th ph g' ->
  nth_error ds j = Some d -> 15 <= d -> nth_error th j = Some t -> dec t < -90.
Proof.
  intros U G J D T. assert (JJ : (j < length ds)%nat) by (apply nth_error_Some; congruence).
  destruct (galaxy_each _ _ _ _ _ _ _ _ _ _ G JJ) as (i & d' & w & h & up & n & rj & t' & p & D' & _ & T' & _ & (k & r0 & t0 & AR & X & _) & g0 & W).
  rewrite J in D'. injection D' as <-. rewrite T in T'. injection T' as <-. apply dec_low. eapply far_angle; [exact AR|exact D| |exact X].
  rewrite W. apply (U (2 * PI) g0). assert (P := PI_RGT_0). lra.
Qed.
End Angles.
