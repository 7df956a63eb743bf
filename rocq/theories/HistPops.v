(** Histograms and spheres of surveys (C87). *)
From Coq Require Import Reals ZArith List String Lra Lia.
From Verif Require Import Base BaseFacts Env ParamModel SelModel SimVarModel SimVarSpec DistModel DistSpec DistProofs AuxModel PopModel PopSpec SynthModel SynthSpec LibModel LibGeo LibPopModel LibPopSpec
  RealModel RealSpec RealExamples LumLibModel RunSpec RealRunSpec RunExamples SkyModel SkySpec PlotModel PlotSpec HistModel HistSpec HistProofs SkyExamples.
From Verif Require SurveySize SynthInv SurveyProofs SurveyPop SurveyEnd MilkyWay LibPopProofs RealRuns PlotProofs PopProofs SimVarProofs RealSize SkyFar.
Import ListNotations.
Open Scope R_scope.
Open Scope string_scope.
Open Scope list_scope.

(** The largest distance recorded is the one the distribution reads. *)
Lemma recorded_rmax E prog fuel rl fs l10 ns norm (y : synth E) p y' : draw_survey prog fuel rl fs l10 ns norm y = (Ok p, y') ->
  wf_par E (sc_params (sd_cls (y_sp y))) (sd_par (y_sp y)) -> (norm = true -> ns = None -> norm_value E (sd_par (y_sp y))) ->
  reading E (sc_params (sd_cls (y_sp y))) (sd_par (y_sp y)) "r_max" = Ok (pa_rmax (p_args p)).
Proof.
  intros H W NV. destruct (SynthInv.survey_steps _ _ _ _ _ _ _ _ _ _ _ H) as (t & S).
  destruct (SurveyPop.spatial_from _ _ _ _ _ _ _ _ _ _ _ _ S W NV) as (C & SR & _).
  assert (P := SynthInv.sp_pop _ _ _ _ _ _ _ _ _ _ _ _ S).
  rewrite (proj1 (PopProofs.new_faithful _ _ _ P)). cbn [pa_rmax].
  rewrite (SR "r_max"), <- C.
  destruct (SurveyEnd.sd_ok _ _ _ _ _ _ (SurveyEnd.read_graph_sd _ _) (SynthInv.sp_g _ _ _ _ _ _ _ _ _ _ _ _ S)) as [C1 _].
  assert (R := SynthInv.sp_rm _ _ _ _ _ _ _ _ _ _ _ _ S). apply SurveyPop.in_sp_inv in R. destruct R as (d & g & R & R1 & _).
  rewrite C1, R1. apply rd_rmax_inv in R. destruct R as (o & PR & -> & _). cbn [sd_cls sd_par with_spar].
  assert (X := pread_same _ (sc_params (sd_cls (y_sp (SynthInv.tr_dsel E t)))) "r_max" (sd_par (y_sp (SynthInv.tr_dsel E t)))). rewrite PR in X. cbn [snd] in X.
  rewrite <- (X "r_max"). unfold reading. rewrite PR. reflexivity.
Qed.

Lemma ok_inj {A} (x y : A) : Ok x = Ok y -> x = y. Proof. now intros [= ->]. Qed.
Lemma some_inj {A} (a b : A) : Some a = Some b -> a = b. Proof. congruence. Qed.

Section P.
Variable m : machine.
Notation E := (real_env m).

(** ** Any population *)
Theorem bars_of (a : popargs E) p : pop_new a = Ok p -> 0 < (pa_rmax a : R) ->
  exists m1 m2 b1 b2, draws (display_distances p) (Ok tt) [m1; m2] /\ bars m1 = Ok b1 /\ bars m2 = Ok b2 /\
    counts 39 (pa_rmax a) (pa_dist a) b1 /\ counts 39 (pa_rmax a) (of_objects true a (@pa_dist E)) b2 /\ Forall2 le b2 b1.
Proof.
  intros H T. assert (N : (0 < 39)%nat) by lia.
  destruct (drawn m 39 (pa_rmax a) N T (pa_dist a)) as (b1 & H1). destruct (drawn m 39 (pa_rmax a) N T (of_objects true a (@pa_dist E))) as (b2 & H2).
  exists (Hist (pa_dist a) (pa_rmax a) 40), (Hist (of_objects true a (@pa_dist E)) (pa_rmax a) 40), b1, b2.
  split; [exact (PlotProofs.distances E a p H)|]. split; [exact H1|]. split; [exact H2|].
  split; [exact (bars_count m 39 _ N T _ _ H1)|]. split; [exact (bars_count m 39 _ N T _ _ H2)|]. exact (fewer m 39 _ N T _ _ _ _ _ H1 H2).
Qed.
Lemma bars_once (a : popargs E) p m1 m2 : pop_new a = Ok p -> draws (display_distances p) (Ok tt) [m1; m2] ->
  m1 = Hist (pa_dist a) (pa_rmax a) 40 /\ m2 = Hist (of_objects true a (@pa_dist E)) (pa_rmax a) 40.
Proof.
  intros H D. assert (X := PlotProofs.distances E a p H). specialize (D []). specialize (X []). assert (Z := eq_trans (eq_sym D) X).
  apply (f_equal snd) in Z. cbn [snd app] in Z. split; [exact (f_equal (fun l => hd m1 l) Z)|exact (f_equal (fun l => hd m1 (tl l)) Z)].
Qed.
Lemma kept_in A b (l : list A) mk x : In x (keep b l mk) -> In x l.
Proof. unfold keep. intros I. apply in_map_iff in I. destruct I as ([z c] & <- & I). apply filter_In in I. destruct I as [I _]. now apply in_combine_l in I. Qed.
Lemma sizes (a : popargs E) p : pop_new a = Ok p -> length (pa_dist a) = p_nobj p /\ length (of_objects true a (@pa_dist E)) = p_ndet p.
Proof.
  intros H. destruct (PopProofs.new_consistent _ _ _ H) as ((_ & A2 & _) & _). destruct (PopProofs.new_counts _ _ _ H) as (-> & -> & _).
  split; [exact A2|]. unfold of_objects. now rewrite (SimVarProofs.keep_length _ _ _ A2).
Qed.
Theorem sums (a : popargs E) p m1 m2 b1 b2 : pop_new a = Ok p -> 0 < (pa_rmax a : R) -> draws (display_distances p) (Ok tt) [m1; m2] -> bars m1 = Ok b1 -> bars m2 = Ok b2 ->
  ((forall x : R, In x (pa_dist a) -> 0 <= x <= pa_rmax a) -> list_sum b1 = p_nobj p /\ list_sum b2 = p_ndet p) /\
  ((forall x : R, In x (pa_dist a) -> x < 0 \/ (pa_rmax a : R) < x) -> list_sum b1 = 0%nat /\ list_sum b2 = 0%nat).
Proof.
  intros H T D H1 H2. destruct (bars_once a p m1 m2 H D) as [-> ->]. assert (N : (0 < 39)%nat) by lia. destruct (sizes a p H) as [<- <-]. split; intros F; split.
  - exact (all_counted m 39 _ N T _ _ H1 F).
  - refine (all_counted m 39 _ N T _ _ H2 (fun x I => F x (kept_in _ _ _ _ _ I))).
  - exact (none_counted m 39 _ N T _ _ H1 F).
  - refine (none_counted m 39 _ N T _ _ H2 (fun x I => F x (kept_in _ _ _ _ _ I))).
Qed.
(** ** Spheres *)
Lemma point (d t f : R) : cart_x (E := E) sin cos d t f * cart_x (E := E) sin cos d t f + cart_y (E := E) sin cos d t f * cart_y (E := E) sin cos d t f + cart_z (E := E) cos d t f * cart_z (E := E) cos d t f = d * d.
Proof. exact (xyz_norm d t f). Qed.
Lemma at_point (P : R -> Prop) cmap b (a : popargs E) : (forall x : R, In x (pa_dist a) -> P (x * x)) ->
  Forall (points_are m P) (sphere_of (E := E) sin cos cmap None b a).
Proof.
  intros F. unfold sphere_of. destruct (Nat.eqb _ 0); constructor; [|constructor]. unfold points_are, each. split; [now rewrite !map_length|]. split; [now rewrite !map_length|].
  intros j x y z X Y Z. rewrite nth_error_map in X, Y, Z.
  destruct (nth_error _ j) as [[[d t] f]|] eqn:N; [|discriminate]. cbn [option_map fst snd] in X, Y, Z.
  apply some_inj in X, Y, Z. subst x y z. rewrite point. apply F. apply nth_error_In, in_combine_l, in_combine_l, kept_in in N. exact N.
Qed.
Definition triple b (a : popargs E) := combine (combine (of_objects b a (@pa_dist E)) (of_objects b a (@pa_theta E))) (of_objects b a (@pa_phi E)).
Lemma shown_of cmap b (a : popargs E) : aligned a -> list_sum (map shown (sphere_of (E := E) sin cos cmap None b a)) = length (triple b a).
Proof.
  intros (_ & A2 & _ & _ & A5 & _). unfold sphere_of, triple. destruct (Nat.eqb_spec (length (of_objects b a (@pa_fobs E))) 0) as [Z|Z].
  - assert (L : length (of_objects b a (@pa_dist E)) = 0%nat).
    { rewrite <- Z. unfold of_objects. destruct b; [rewrite !SimVarProofs.keep_length|rewrite !SimVarProofs.keep_length_not]; first [reflexivity|assumption]. }
    apply length_zero_iff_nil in L. rewrite L. reflexivity.
  - cbn [map shown list_sum fold_right]. unfold each. rewrite map_length. apply Nat.add_0_r.
Qed.
Lemma objects_split (a : popargs E) p : pop_new a = Ok p -> (length (triple true a) + length (triple false a))%nat = p_nobj p.
Proof.
  intros H. destruct (PopProofs.new_consistent _ _ _ H) as ((A1 & A2 & A3 & A4 & _) & _). destruct (PopProofs.new_counts _ _ _ H) as (-> & _).
  unfold triple, of_objects. rewrite !combine_length.
  rewrite !SimVarProofs.keep_length, !SimVarProofs.keep_length_not by assumption. rewrite !Nat.min_id. apply count_mnot.
Qed.
Theorem points_drawn (P : R -> Prop) (a : popargs E) p : pop_new a = Ok p -> (forall x : R, In x (pa_dist a) -> P (x * x)) ->
  exists r l, draws (display_flux_sphere (E := E) sin cos None p) (Ok r) l /\ list_sum (map shown l) = p_nobj p /\ Forall (points_are m P) l.
Proof.
  intros H F. eexists _, _. split; [exact (PlotProofs.both_spheres E a p H sin cos None)|]. split.
  - rewrite map_app, list_sum_app, !shown_of by exact (proj1 (PopProofs.new_consistent _ _ _ H)). exact (objects_split a p H).
  - apply Forall_app. split; now apply at_point.
Qed.

(** ** Surveys *)
Section Survey.
Variables (prog : bool) (fuel rl : nat) (fs : option (V E)) (l10 : bool) (ns : option nat) (norm : bool) (y : synth E) (p : population E) (y' : synth E).
Hypothesis H : draw_survey prog fuel rl fs l10 ns norm y = (Ok p, y').
Lemma made : pop_new (p_args p) = Ok p /\ pa_dist (p_args p) = sv_lat (p_dist p).
Proof.
  destruct (SynthInv.survey_steps _ _ _ _ _ _ _ _ _ _ _ H) as (t & S). assert (P := SynthInv.sp_pop _ _ _ _ _ _ _ _ _ _ _ _ S).
  destruct (PopProofs.new_faithful _ _ _ P) as (A & _ & (_ & B & _) & _). rewrite A, B. split; [exact P|reflexivity].
Qed.
Lemma in_range rm : uniform_in_range m -> wf_par E (sc_params (sd_cls (y_sp y))) (sd_par (y_sp y)) -> (norm = true -> ns = None -> norm_value E (sd_par (y_sp y))) ->
  sc_sky (sd_cls (y_sp y)) = None -> reading E (sc_params (sd_cls (y_sp y))) (sd_par (y_sp y)) "r_max" = Ok rm -> 0 < rm ->
  pa_rmax (p_args p) = rm /\ forall x : R, In x (pa_dist (p_args p)) -> 0 <= x < rm.
Proof.
  intros U W NV SK RM T. assert (X := recorded_rmax _ _ _ _ _ _ _ _ _ _ _ H W NV). rewrite RM in X. apply ok_inj in X. split; [exact (eq_sym X)|].
  destruct (SurveySize.distances_from _ _ _ _ _ _ _ _ _ _ _ H W NV SK) as (g & g' & ps & _ & D). rewrite (proj2 made).
  destruct D as (rm' & dv & uv & ig & ys & ym & R1 & _ & _ & _ & _ & _ & AM & _). rewrite RM in R1. apply ok_inj in R1. subst rm'.
  assert (F := accept_many_from _ _ _ _ _ _ _ _ _ AM). intros x I. destruct (proj1 (Forall_forall _ _) F x I) as (s & ->). exact (proj1 (U rm s) T).
Qed.
End Survey.
End P.

(** ** The predefined populations *)
Section Lib.
Variable m : machine.
Notation E := (real_env m).
Variable gs : galaxy_sources m.
Variable ginv : R -> R -> R.
Variable gam : R -> R.
Variables (sol rel Om h0 : R) (form : string -> string).
Notation fo := (full_lib m ginv gam sol rel Om h0 (library_sky m gs) form).
Variable w : world E.
Definition farthest (d : sdist E) (rm : R) : Prop := reading E (sc_params (sd_cls d)) (sd_par d) "r_max" = Ok rm.
Ltac far := unfold assign_sp; cbn; repeat (match goal with |- context [leb ?a ?b] => destruct (leb a b); cbn; [|discriminate] end); intros [= <-]; reflexivity.
Lemma sphere_far L rm d : assign_sp (ConstantSphericalDistribution fo None) [("Lambda", L); ("r_max", rm)] = Ok d -> farthest (fst d) rm.
Proof. far. Qed.
Lemma zpow_sphere_far L delta rm d : assign_sp (ZPowerSphericalDistribution fo None) [("Lambda", L); ("r_max", rm); ("delta", delta)] = Ok d -> farthest (fst d) rm.
Proof. far. Qed.
Lemma zpow_cosmo_far rate L delta rm d : assign_sp (ZPowerCosmoDistribution fo rate) [("Lambda", L); ("r_max", rm); ("delta", delta)] = Ok d -> farthest (fst d) rm.
Proof. far. Qed.
Lemma sfr_far rate r0 a rise decay peak rm d :
  assign_sp (SFRDistribution fo rate) [("r0", r0); ("a", a); ("rise", rise); ("decay", decay); ("peak", peak); ("r_max", rm)] = Ok d -> farthest (fst d) rm.
Proof. far. Qed.
Lemma population_far c arg seed rate lum (y : synth E) : build fo w c arg seed lum rate = Ok y -> fst (documented c) <> milky_way -> farthest (y_sp y) (arg "r_max").
Proof.
  intros H NM. destruct c; cbn in NM; try congruence; clear NM; cbn [build] in H;
    unfold ParetoHomogeneousSphericalPopulation, ParetoZPowerSphericalPopulation, ParetoZPowerCosmoPopulation, ParetoSFRPopulation,
      BPLHomogeneousSphericalPopulation, BPLZPowerSphericalPopulation, BPLZPowerCosmoPopulation, BPLSFRPopulation,
      LogNormalHomogeneousSphericalPopulation, LogNormalZPowerSphericalPopulation, LogNormalZPowerCosmoPopulation, LogNormalSFRPopulation,
      Log10NormalHomogeneousSphericalPopulation, Log10NormalZPowerSphericalPopulation, Log10NormalZPowerCosmoPopulation, Log10NormalSFRPopulation,
      SchechterHomogeneousSphericalPopulation, SchechterZPowerSphericalPopulation, SchechterZPowerCosmoPopulation, SchechterSFRPopulation,
      SphericalPopulation, ZPowerSphericalPopulation, ZPowerCosmoPopulation, SFRPopulation in H;
    repeat (match type of H with rbind ?a _ = _ => let x := fresh "x" in let X := fresh "X" in destruct a as [x|] eqn:X; [|discriminate H] end; cbn [rbind] in H); injection H as <-;
    cbn [population_synth synth_new y_sp];
    match goal with X : assign_sp _ _ = Ok ?d |- farthest (fst ?d) _ => first [exact (sphere_far _ _ _ X)|exact (zpow_sphere_far _ _ _ _ X)|exact (zpow_cosmo_far _ _ _ _ _ X)|exact (sfr_far _ _ _ _ _ _ _ _ X)] end.
Qed.
Theorem predefined_range : uniform_in_range m -> forall c arg seed rate lum (y0 y : synth E) prog fuel rl fs l10 ns norm p y',
  build fo w c arg seed lum rate = Ok y0 -> fst (documented c) <> milky_way -> 0 < arg "r_max" -> y_sp y = y_sp y0 ->
  draw_survey prog fuel rl fs l10 ns norm y = (Ok p, y') ->
  pa_rmax (p_args p) = arg "r_max" /\ forall x : R, In x (pa_dist (p_args p)) -> 0 <= x < arg "r_max".
Proof.
  intros U c arg seed rate lum y0 y prog fuel rl fs l10 ns norm p y' B NM T SP H.
  destruct (MilkyWay.population_usual m gs ginv gam sol rel Om h0 form w c arg seed rate lum y0 B NM) as (W & SK & NV).
  assert (F := population_far c arg seed rate lum y0 B NM). unfold farthest in F. rewrite <- SP in W, SK, NV, F.
  exact (in_range m _ _ _ _ _ _ _ _ _ _ H _ U W (fun _ _ => NV) SK F T).
Qed.
End Lib.

(** ** The Milky Way, with distances scattered beyond the largest one *)
Theorem galaxy_beyond seed rate : exists y fuel p y', build (SkyFar.wlib 20) (SkyFar.void 20) P_MWRadialPopulation wide seed (Some (SkyFar.bright' 20)) rate = Ok y /\
  draw_survey true fuel 10 None true (Some 5%nat) false y = (Ok p, y') /\ p_nobj p = 5%nat /\ (pa_rmax (p_args p) : R) = 100 /\ forall x : R, In x (pa_dist (p_args p)) -> x = 120.
Proof.
  destruct (SkyFar.windy_survey 20 seed rate) as (y & fuel & p & y' & B & H & L & F). exists y, fuel, p, y'. split; [exact B|]. split; [exact H|].
  destruct (made (SkyFar.windy 20) _ _ _ _ _ _ _ _ _ _ H) as [P D]. split; [|split].
  - destruct (sizes (SkyFar.windy 20) _ _ P) as [S _]. rewrite <- S, D. exact L.
  - destruct (MilkyWay.galaxy_parts (SkyFar.windy 20) (SkyFar.wgs 20) ginv1 (fun _ => 1) 1 0 (3 / 10) 1 (fun c => c) (SkyFar.void 20) wide seed rate (Some (SkyFar.bright' 20)) y B) as (d & A & Y).
    destruct wide_dense as (W1 & W2 & W3 & W4).
    destruct (MilkyWay.galaxy_is (SkyFar.windy 20) (SkyFar.wgs 20) ginv1 (fun _ => 1) 1 0 (3 / 10) 1 (fun c => c) _ _ _ _ _ _ W1 W4 d A) as ((C & W & _ & RM) & _).
    assert (SP : y_sp y = fst d) by (rewrite Y; reflexivity).
    assert (X := recorded_rmax _ _ _ _ _ _ _ _ _ _ _ H). rewrite SP, C in X. specialize (X W (fun Z => ltac:(discriminate Z))). rewrite RM in X. apply ok_inj in X. symmetry. exact X.
  - rewrite D. intros x I. rewrite (proj1 (Forall_forall _ _) F x I). lra.
Qed.

(** ** A drawn survey of each predefined population *)
Example slib_drawn c seed rate d : snd (documented c) = Some d -> fst (documented c) <> milky_way ->
  exists y fuel p y', build slib nothing c arg1 seed None rate = Ok y /\ draw_survey true fuel 10 None true (Some 5%nat) false y = (Ok p, y') /\ p_nobj p = 5%nat.
Proof.
  intros HD NM. destruct (all_drawable c seed rate d HD NM) as (_ & _ & PD & DR & _).
  destruct (LibPopProofs.build_spec (real_env mach) slib nothing c arg1 seed None rate) as [B _]. destruct B as (y & B & _).
  { apply LibPopProofs.accepted_in. intros k _. apply (proj2 (RealSize.leb_iff 0 (arg1 k))). assert (X := arg1_pos k). lra. }
  assert (SK : forall cls, cls <> "SpiralGalaxyDistribution" -> library_sky mach mgs cls = None).
  { intros cls N. unfold library_sky. now apply String.eqb_neq in N as ->. }
  edestruct (RealRuns.population_can_be_drawn mach mach_exact mach_fair mach_bern ginv1 (fun _ => 1) 1 0 (3 / 10) 1 (fun c => c) (library_sky mach mgs) SK)
    with (n := 5%nat) (rl := 10%nat) as (fuel & p & y' & H & N & _); [lra|exact B|exact NM|exact HD|exact PD|exact DR|].
  exists y, fuel, p, y'. split; [exact B|]. split; [exact H|exact N].
Qed.
