(** C73: the sky positions of the objects of a survey.  C68: the Milky Way. *)
From Coq Require Import Reals ZArith List String Lra.
From Verif Require Import Base Env ParamModel SelModel SimVarModel DistModel DistSpec AuxModel PopModel SynthModel SynthSpec LibPopModel LibPopSpec RealModel RealSpec RealExamples LumLibModel
  RunSpec RealRunSpec RunExamples SkyModel SkySpec SkyExamples.
From Verif Require SkyPop MilkyWay SkyFar.
Import ListNotations.
Open Scope R_scope.
Open Scope string_scope.

(** Without an overriding [draw_sky_positions]: from the numbers after those of the
    distances, each object gets a place evenly over the sphere.  Case: [C73_applies]. *)
Theorem C73_positions_over_the_sphere : forall m, uniform_in_range m ->
  forall prog fuel rl fs l10 ns norm (y : synth (real_env m)) p y',
  draw_survey prog fuel rl fs l10 ns norm y = (Ok p, y') -> sc_sky (sd_cls (y_sp y)) = None ->
  wf_par (real_env m) (sc_params (sd_cls (y_sp y))) (sd_par (y_sp y)) -> (norm = true -> ns = None -> norm_value (real_env m) (sd_par (y_sp y))) ->
  exists g ps g1 g2, drawn (sd_cls (y_sp y)) (sd_par (y_sp y)) prog fuel (p_nobj p) norm g g1 (sv_lat (p_dist p)) ps /\
    over_the_sphere m g1 (sv_lat (p_theta p)) (sv_lat (p_phi p)) g2 /\ length (sv_lat (p_theta p)) = p_nobj p /\ length (sv_lat (p_phi p)) = p_nobj p /\
    sv_obs (p_theta p) = sv_lat (p_theta p) /\ sv_obs (p_phi p) = sv_lat (p_phi p).
Proof. intros m U prog fuel rl fs l10 ns norm y p y'. exact (MilkyWay.sphere_survey m prog fuel rl fs l10 ns norm y p y' U). Qed.

(** So it is for every predefined population but the Milky Way, whatever samplers and
    selections were added; declination and right ascension are in their ranges. *)
Theorem C73_predefined_positions (m : machine) gs ginv gam sol rel Om h0 form (w : world (real_env m)) : uniform_in_range m ->
  forall c arg seed rate lum (y0 : synth (real_env m)), build (full_lib m ginv gam sol rel Om h0 (library_sky m gs) form) w c arg seed lum rate = Ok y0 ->
  fst (documented c) <> milky_way ->
  forall prog fuel rl fs l10 ns norm (y : synth (real_env m)) p y', y_sp y = y_sp y0 -> draw_survey prog fuel rl fs l10 ns norm y = (Ok p, y') ->
  exists g ps g1 g2, drawn (sd_cls (y_sp y)) (sd_par (y_sp y)) prog fuel (p_nobj p) norm g g1 (sv_lat (p_dist p)) ps /\
    over_the_sphere m g1 (sv_lat (p_theta p)) (sv_lat (p_phi p)) g2 /\
    length (pop_dec m p) = p_nobj p /\ Forall (fun x => -90 <= x <= 90) (pop_dec m p) /\
    length (pop_ra m p) = p_nobj p /\ Forall (fun x => 0 <= x < 360) (pop_ra m p).
Proof.
  intros U c arg seed rate lum y0 B NM prog fuel rl fs l10 ns norm y p y' SP H.
  destruct (MilkyWay.population_usual m gs ginv gam sol rel Om h0 form w c arg seed rate lum y0 B NM) as (W & SK & NV). rewrite <- SP in W, SK, NV.
  destruct (C73_positions_over_the_sphere m U _ _ _ _ _ _ _ _ _ _ H SK W (fun _ _ => NV)) as (g & ps & g1 & g2 & D & O & L1 & L2 & Q1 & Q2).
  exists g, ps, g1, g2. unfold pop_dec, pop_ra. rewrite Q1, Q2, !map_length. destruct (MilkyWay.sphere_ranges m g1 _ _ _ U O) as [F1 F2]. auto 10.
Qed.

(** The Milky Way: the distances are drawn, then the objects are put on the spiral arms. *)
Theorem C73_milky_way_positions (m : machine) gs ginv gam sol rel Om h0 form (w : world (real_env m)) : quad_exact m -> uniform_in_range m ->
  forall arg seed rate lum (y0 : synth (real_env m)), galaxy_density arg ->
  build (full_lib m ginv gam sol rel Om h0 (library_sky m gs) form) w P_MWRadialPopulation arg seed lum rate = Ok y0 ->
  forall prog fuel rl fs l10 ns norm (y : synth (real_env m)) p y', y_sp y = y_sp y0 -> draw_survey prog fuel rl fs l10 ns norm y = (Ok p, y') ->
  exists g ds ps g1 g2, drawn (sd_cls (y_sp y)) (sd_par (y_sp y)) prog fuel (p_nobj p) norm g g1 ds ps /\
    length ds = p_nobj p /\ Forall (fun d => 0 < d < arg "r_max") ds /\
    galaxy_drawn m (gs_arm m gs) (gs_exp m gs) (gs_sign m gs) g1 ds (sv_lat (p_dist p)) (sv_lat (p_theta p)) (sv_lat (p_phi p)) g2.
Proof.
  intros Q U arg seed rate lum y0 G B prog fuel rl fs l10 ns norm y p y' SP H.
  exact (MilkyWay.galaxy_survey m Q gs ginv gam sol rel Om h0 form w arg seed rate lum y0 G B prog fuel rl fs l10 ns norm y p y' U SP H).
Qed.
(** Its polar angle is stored as azimuth: no object of no survey has a right ascension
    above 180 degrees. *)
Theorem C73_milky_way_right_ascension_refuted (m : machine) gs ginv gam sol rel Om h0 form (w : world (real_env m)) : quad_exact m -> uniform_in_range m ->
  forall arg seed rate lum (y0 : synth (real_env m)), galaxy_density arg ->
  build (full_lib m ginv gam sol rel Om h0 (library_sky m gs) form) w P_MWRadialPopulation arg seed lum rate = Ok y0 ->
  forall prog fuel rl fs l10 ns norm (y : synth (real_env m)) p y', y_sp y = y_sp y0 -> draw_survey prog fuel rl fs l10 ns norm y = (Ok p, y') ->
  Forall (fun x => 0 <= x <= 180) (map LibModel.ra (sv_lat (p_phi p))).
Proof.
  intros Q U arg seed rate lum y0 G B prog fuel rl fs l10 ns norm y p y' SP H.
  destruct (C73_milky_way_positions m gs ginv gam sol rel Om h0 form w Q U arg seed rate lum y0 G B _ _ _ _ _ _ _ _ _ _ SP H) as (g & ds & ps & g1 & g2 & _ & _ & _ & GD).
  exact (MilkyWay.galaxy_half m _ _ _ _ _ _ _ _ _ GD).
Qed.
(** And its spiral angle as polar angle: what is drawn beyond 15 has a declination below
    -90 degrees, on every arm, whatever the numbers.  There is a survey of only such. *)
Theorem C73_milky_way_declination_refuted (m : machine) gs ginv gam sol rel Om h0 form (w : world (real_env m)) : quad_exact m -> uniform_in_range m ->
  forall arg seed rate lum (y0 : synth (real_env m)), galaxy_density arg ->
  build (full_lib m ginv gam sol rel Om h0 (library_sky m gs) form) w P_MWRadialPopulation arg seed lum rate = Ok y0 ->
  forall prog fuel rl fs l10 ns norm (y : synth (real_env m)) p y', y_sp y = y_sp y0 -> draw_survey prog fuel rl fs l10 ns norm y = (Ok p, y') ->
  exists g ds ps g1, drawn (sd_cls (y_sp y)) (sd_par (y_sp y)) prog fuel (p_nobj p) norm g g1 ds ps /\
    forall j d t, nth_error ds j = Some d -> 15 <= d -> nth_error (sv_lat (p_theta p)) j = Some t -> LibModel.dec t < -90.
Proof.
  intros Q U arg seed rate lum y0 G B prog fuel rl fs l10 ns norm y p y' SP H.
  destruct (C73_milky_way_positions m gs ginv gam sol rel Om h0 form w Q U arg seed rate lum y0 G B _ _ _ _ _ _ _ _ _ _ SP H) as (g & ds & ps & g1 & g2 & D & _ & _ & GD).
  exists g, ds, ps, g1. split; [exact D|]. intros j d t J D15 T. exact (MilkyWay.galaxy_far m _ _ _ _ _ _ _ _ _ _ _ _ U GD J D15 T).
Qed.
Example C73_applies : quad_exact mach /\ uniform_in_range mach /\ galaxy_density wide /\
  forall seed rate, exists y fuel p y', build slib nothing P_MWRadialPopulation wide seed (Some bright) rate = Ok y /\
    draw_survey true fuel 10 None true (Some 5%nat) false y = (Ok p, y') /\ p_nobj p = 5%nat /\ length (pop_dec mach p) = 5%nat /\ Forall (fun x => x < -90) (pop_dec mach p).
Proof. split; [exact mach_exact|]. split; [exact mach_range|]. split; [exact wide_dense|exact wide_far]. Qed.

(** C63: the shift of the distances has no bounds.  In a Milky Way survey all objects can
    lie beyond [r_max], and in another one all distances are negative, if the normal
    numbers are 20 standard deviations above, or below, their mean. *)
Theorem C63_milky_way_distances_refuted (far : bool) : exists m gs ginv gam form (lum : lumobj (real_env m)) (w : world (real_env m)) arg,
  quad_exact m /\ fair m /\ uniform_in_range m /\ (forall g, (fst (gs_arm m gs g) < 4)%nat) /\ galaxy_density arg /\ arg "r_max" = 100 /\
  (forall mu sd g, fst (mc_norm m mu sd g) = mu + (if far then 20 else - 20) * sd) /\
  forall seed rate, exists y fuel p y',
    build (full_lib m ginv gam 1 0 (3 / 10) 1 (library_sky m gs) form) w P_MWRadialPopulation arg seed (Some lum) rate = Ok y /\
    draw_survey true fuel 10 None true (Some 5%nat) false y = (Ok p, y') /\ length (sv_lat (p_dist p)) = 5%nat /\
    Forall (fun r => if far then 100 < r else r < 0) (sv_lat (p_dist p)).
Proof.
  set (k := if far then 20 else - 20). exists (SkyFar.windy k), (SkyFar.wgs k), ginv1, (fun _ => 1), (fun c => c), (SkyFar.bright' k), (SkyFar.void k), wide.
  split; [apply SkyFar.windy_exact|]. split; [apply SkyFar.windy_fair|]. split; [apply SkyFar.windy_range|]. split; [apply SkyFar.wgs_arm|]. split; [exact wide_dense|]. split; [reflexivity|].
  split; [reflexivity|]. intros seed rate. destruct (SkyFar.windy_survey k seed rate) as (y & fuel & p & y' & B & H & L & F). exists y, fuel, p, y'. split; [exact B|]. split; [exact H|]. split; [exact L|].
  eapply Forall_impl; [|exact F]. intros r ->. unfold k. destruct far; lra.
Qed.

(** C68 for the Milky Way with any luminosity distribution that can be drawn. *)
Theorem C68_milky_way_can_be_drawn (m : machine) gs ginv gam sol rel Om h0 form (w : world (real_env m)) :
  quad_exact m -> fair m -> (forall g, (fst (gs_arm m gs g) < 4)%nat) ->
  forall arg seed rate l prog rl fs l10 n norm (y : synth (real_env m)), galaxy_density arg ->
  build (full_lib m ginv gam sol rel Om h0 (library_sky m gs) form) w P_MWRadialPopulation arg seed (Some l) rate = Ok y -> (forall n, draws_luminosities (fst l) n) ->
  exists fuel p y', draw_survey prog fuel rl fs l10 (Some n) norm y = (Ok p, y') /\ p_nobj p = n /\ all_detected p.
Proof.
  intros Q F A arg seed rate l prog rl fs l10 n norm y G B GL.
  exact (MilkyWay.galaxy_drawable m Q gs ginv gam sol rel Om h0 form w arg seed rate (Some l) y G B l prog rl fs l10 n norm F A eq_refl GL).
Qed.
Example C68_milky_way_case : (forall g, (fst (gs_arm mach mgs g) < 4)%nat) /\ (forall n, draws_luminosities (fst bright) n) /\
  forall seed rate, exists y, build slib nothing P_MWRadialPopulation wide seed (Some bright) rate = Ok y.
Proof. split; [exact mgs_arm|]. split; [exact bright_drawn|exact wide_built]. Qed.

Print Assumptions C73_positions_over_the_sphere.
Print Assumptions C73_predefined_positions.
Print Assumptions C73_milky_way_positions.
Print Assumptions C73_milky_way_right_ascension_refuted.
Print Assumptions C73_milky_way_declination_refuted.
Print Assumptions C68_milky_way_can_be_drawn.
Print Assumptions C63_milky_way_distances_refuted.
