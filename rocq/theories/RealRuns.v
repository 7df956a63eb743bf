(** The predefined populations can be drawn (C68). *)
From Coq Require Import Reals ZArith List String Lra Lia.
From Coquelicot Require Import Coquelicot.
From Verif Require Import Base BaseFacts Env ParamModel SelModel SimVarModel DistModel DistSpec DistProofs AuxModel PopModel SynthModel SynthSpec LibModel LibGeo LibProofs LibPopModel LibPopSpec
  RealModel RealSpec RealProofs AuxLibModel LumLibModel RunSpec SurveyRuns FlatSpec FlatRuns RealRunSpec.
From Verif Require RealSize LibPopProofs.
Import ListNotations.
Open Scope R_scope.
Open Scope string_scope.
Open Scope list_scope.

(** ** Curves *)
Lemma curve_scale (f g : R -> R) L b : 0 < L -> (forall r, f r = L * g r) -> curve g b -> curve f b.
Proof.
  intros HL E C x Hx. destruct (C x Hx) as [C1 C2]. split.
  - apply (continuous_ext (fun r => L * g r)); [intros; symmetry; apply E|]. apply (continuous_mult (K := R_AbsRing) (fun _ => L)); [apply continuous_const|exact C1].
  - rewrite E. now apply Rmult_lt_0_compat.
Qed.
Lemma sphere_curve b : 0 < b -> curve (dens_sphere 1) b.
Proof.
  intros Hb x Hx. split.
  - apply derives. unfold dens_sphere, sphere_volume. auto_derive. lra.
  - unfold dens_sphere, sphere_volume. rewrite Rmult_1_l, Rdiv_1. apply area_pos. lra.
Qed.
Lemma zpow_sphere_curve delta b : 0 < b -> curve (dens_zpow_sphere 1 delta) b.
Proof.
  intros Hb x Hx. split.
  - apply derives. unfold dens_zpow_sphere, sphere_volume, Rpower. auto_derive. lra.
  - unfold dens_zpow_sphere, sphere_volume, Rpower. rewrite Rmult_1_l, Rdiv_1. apply Rmult_lt_0_compat; [apply exp_pos|]. apply area_pos. lra.
Qed.
Section Cosmo.
Variables sol Om h0 rel : R.
Hypothesis Hsol : 0 < sol.
Hypothesis HOm : 0 < Om < 1.
Hypothesis Hh : 0 < h0.
Hypothesis Hrel : 0 <= rel < 1.
Lemma zpow_cosmo_curve rate delta b : 0 < b -> curve (dens_zpow_cosmo sol rel Om h0 rate 1 delta) b.
Proof.
  intros Hb x Hx. split.
  - unfold dens_zpow_cosmo, Rdiv. apply (continuous_mult (K := R_AbsRing)); [|apply ta_continuous; lra].
    apply (continuous_mult (K := R_AbsRing) (fun x => 1 * Rpower (x + 1) delta)); [|apply volume_continuous; lra].
    apply derives. unfold Rpower. auto_derive. lra.
  - unfold dens_zpow_cosmo. apply Rdiv_lt_0_compat; [|apply ta_pos; lra]. rewrite Rmult_1_l. apply Rmult_lt_0_compat; [apply exp_pos|].
    apply volume_pos; auto; lra.
Qed.
Lemma sfr_curve rate a rise decay peak b : 0 <= a -> 0 <= rise -> 0 < a + rise -> 0 < decay -> 0 < peak -> 0 < b ->
  curve (dens_sfr sol rel Om h0 rate 1 a rise decay peak) b.
Proof.
  intros Ha Hr Har Hd Hp Hb x Hx.
  set (g := fun z => 1 * (a + rise * z) / (1 + Rpower (z / peak) decay) * differential_comoving_volume sol rel Om h0 z / time_adjustment rate z).
  assert (E : forall z, 0 < z -> g z = dens_sfr sol rel Om h0 rate 1 a rise decay peak z).
  { intros z Hz. unfold g, dens_sfr, np_power. assert (P : 0 < z / peak) by (apply Rdiv_lt_0_compat; lra).
    destruct (Req_EM_T (z / peak) 0); [lra|reflexivity]. }
  assert (PX : 0 < Rpower (x / peak) decay) by apply exp_pos. assert (P : 0 < x / peak) by (apply Rdiv_lt_0_compat; lra). split.
  - apply (continuous_ext_loc _ g).
    + assert (P0 : 0 < x) by lra. exists (mkposreal x P0). intros z Hz. unfold ball in Hz; cbn in Hz; unfold AbsRing_ball, abs, minus, plus, opp in Hz; cbn in Hz.
      apply Rabs_def2 in Hz. apply E. lra.
    + unfold g. apply (continuous_mult (K := R_AbsRing) (fun x => 1 * (a + rise * x) / (1 + Rpower (x / peak) decay) * differential_comoving_volume sol rel Om h0 x)); [|apply ta_continuous; lra].
      apply (continuous_mult (K := R_AbsRing) (fun x => 1 * (a + rise * x) / (1 + Rpower (x / peak) decay))); [|apply volume_continuous; lra].
      apply derives. unfold Rpower in *. auto_derive. unfold Rdiv in P, PX. repeat split; lra.
  - rewrite <- E by lra. unfold g. apply Rdiv_lt_0_compat; [|apply ta_pos; lra]. apply Rmult_lt_0_compat; [|apply volume_pos; auto; lra].
    apply Rdiv_lt_0_compat; [|lra]. assert (0 <= rise * x) by nra. destruct (Rle_lt_or_eq_dec 0 a Ha) as [|<-]; [lra|]. assert (0 < rise * x) by (apply Rmult_lt_0_compat; lra). lra.
Qed.
End Cosmo.

Section Draw.
Variable m : machine.
Notation E := (real_env m).
Hypothesis Q : quad_exact m.
Hypothesis F : fair m.

Lemma max_above l : forall x0 x, (x = x0 \/ In x l) -> x <= fold_left Rmax l x0.
Proof.
  induction l as [|y l IH]; intros x0 x H; cbn [fold_left].
  - destruct H as [->|[]]. lra.
  - destruct H as [->|[->|H]].
    + apply Rle_trans with (Rmax x0 y); [apply Rmax_l|apply IH; now left].
    + apply Rle_trans with (Rmax x0 x); [apply Rmax_r|apply IH; now left].
    + apply IH. now right.
Qed.
Lemma grid_max (f : R -> R) b : 0 < b -> curve f b -> exists ymax, np_max E (map f (grid E b)) = Ok ymax /\ 0 < ymax.
Proof.
  intros Hb C. assert (P : 0 < INR 499) by (apply lt_0_INR; lia).
  assert (I : In (INR 1 * (b / INR 499)) (grid E b)).
  { unfold grid. apply in_or_app. left. apply in_map_iff. exists 1%nat. split; [reflexivity|]. apply in_seq. lia. }
  assert (R : 0 < INR 1 * (b / INR 499) < b).
  { change (INR 1) with 1. rewrite Rmult_1_l. split; [now apply Rdiv_lt_0_compat|]. apply (Rmult_lt_reg_r (INR 499)); [exact P|].
    replace (b / INR 499 * INR 499) with b by (field; lra). assert (1 < INR 499) by (change 1 with (INR 1); apply lt_INR; lia). nra. }
  destruct (C _ R) as [_ PF]. apply (in_map f) in I. destruct (map f (grid E b)) as [|x0 l]; [easy|].
  cbn [np_max]. eexists. split; [reflexivity|]. eapply Rlt_le_trans; [exact PF|]. apply max_above. cbn in I. destruct I; auto.
Qed.
Lemma rmapM_fun {A B} (f : A -> res B) (g : A -> B) l : (forall x, f x = Ok (g x)) -> rmapM f l = Ok (map g l).
Proof. intros H. induction l as [|x l IH]; [reflexivity|]. cbn [rmapM map]. rewrite H, IH. reflexivity. Qed.
Lemma accepts_ext k (f f' : R -> res R) hi b : (forall r, f r = f' r) -> forall s, accepts_within E k f hi b s -> accepts_within E k f' hi b s.
Proof.
  intros X. induction k as [|k IH]; intros s H; [easy|]. cbn [accepts_within] in *. destruct (proposal E hi b s) as [[y r] g2].
  destruct H as (d & D & H). exists d. rewrite <- X. split; [exact D|]. destruct H; [now left|right; now apply IH].
Qed.

Lemma draws (c : spcls E) rm L vals uvals (g : R -> R) d prog size norm s :
  instance m c rm d -> norm_used c -> norm_stored E (sc_params c) (sd_par d) ->
  values E (sc_params c) (sd_par d) (sc_reads c) vals -> unit_values E (sc_params c) (sd_par d) (sc_reads c) uvals ->
  (forall r, sc_dens c uvals r = Ok (g r)) -> (forall r, sc_dens c vals r = Ok (L * g r)) -> 0 < L ->
  curve g rm -> ex_RInt g 0 rm /\ 0 < RInt g 0 rm ->
  exists fuel d' s', draw_distance prog fuel size norm (d, s) = (Ok tt, (d', s')).
Proof.
  intros (C & W & P & R) NU NS VV UV D1 D2 HL CG (I & PI). subst c.
  set (i := RInt g 0 rm) in *.
  set (h := fun r => if norm then L * g r / i else L * g r).
  assert (CH : curve h rm).
  { unfold h. destruct norm.
    - apply (curve_scale _ g (L / i)); [now apply Rdiv_lt_0_compat|intros; field; lra|exact CG].
    - apply (curve_scale _ g L); auto. }
  assert (CL : curve (fun r => L * g r) rm) by (apply (curve_scale _ g L); auto).
  assert (DN : forall r, dens_norm (sd_cls d) (if norm then Some i else None) vals r = Ok (h r)).
  { intros r. unfold dens_norm, h. rewrite D2. destruct norm; reflexivity. }
  destruct (grid_max h rm P CH) as (ymax & HM & PM).
  apply (draw_distance_returns E prog size norm d s rm vals uvals (if norm then Some i else None) (map h (grid E rm)) ymax); auto.
  - intros r. eauto.
  - destruct norm; [|reflexivity]. exists i. split; [reflexivity|]. apply (Q _ g); auto.
  - now apply rmapM_fun.
  - intros s0. destruct prog.
    + destruct (F h rm ymax P PM CH s0) as (k & A). exists k. eapply accepts_ext; [|exact A]. intros; symmetry; apply DN.
    + destruct (F _ rm ymax P PM CL s0) as (k & A). exists k. eapply accepts_ext; [|exact A]. intros; symmetry; apply D2.
Qed.
End Draw.

(** ** The population classes *)
Section Pops.
Variable m : machine.
Notation E := (real_env m).
Hypothesis Q : quad_exact m.
Hypothesis F : fair m.
Hypothesis B : takes_probabilities m.
Variable ginv : R -> R -> R.
Variable gam : R -> R.
Variables (sol rel Om h0 : R) (form : string -> string).
(** Only the Milky Way has its own sky positions. *)
Variable sky : string -> option (list R -> nat -> mc_st m -> res (spvals E) * mc_st m).
Hypothesis usual_sky : forall cls, cls <> "SpiralGalaxyDistribution" -> sky cls = None.
Hypothesis physical : 0 < sol /\ 0 < Om < 1 /\ 0 < h0 /\ 0 <= rel < 1.
Notation fo := (full_lib m ginv gam sol rel Om h0 sky form).
Variable w : world E.

Definition good_space (d : sdist E) : Prop :=
  wf_par E (sc_params (sd_cls d)) (sd_par d) /\ (forall n, places (sd_cls d) n) /\
  forall prog n norm s, exists fuel d' s', draw_distance prog fuel n norm (d, s) = (Ok tt, (d', s')).
Definition good_lum (l : ldist E) : Prop := forall n, draws_luminosities l n.

Lemma fresh_plain sp lum seed : plain (population_synth w sp lum seed).
Proof.
  split; [reflexivity|]. split; [reflexivity|]. split; [|apply Forall_nil]. split; [reflexivity|]. split; [cbn; lia|].
  intros i [-> | ->]; cbn [population_synth synth_new y_flux y_dsel y_w w_sels w_set_sels].
  - exists (unity E "unity flux selector"). split; [|split; reflexivity]. rewrite nth_error_app2 by lia. replace (Datatypes.S (length (w_sels w)) - length (w_sels w))%nat with 1%nat by lia. reflexivity.
  - exists (unity E "unity distance selector"). split; [|split; reflexivity]. rewrite nth_error_app2, Nat.sub_diag by lia. reflexivity.
Qed.
Lemma population_drawn sp l seed prog rl fs l10 n norm : good_space (fst sp) -> good_lum (fst l) ->
  exists fuel p y', draw_survey prog fuel rl fs l10 (Some n) norm (population_synth w sp (Some l) seed) = (Ok p, y') /\ p_nobj p = n /\ all_detected p.
Proof.
  intros (W & SK & D) G. destruct (D prog n norm (r_seed E seed)) as (fuel & d' & s' & H). exists fuel.
  eapply plain_returns; [apply fresh_plain|reflexivity|apply G|exact W|exact (SK n)|exact H].
Qed.

Ltac wf N := split; [|split]; clear - m;
  [ intros k1 k2 d1 d2; cbn [dget]; intros H1 H2 N1 N2; cbn in H1, H2;
    repeat match type of H1 with context [String.eqb k1 ?s] => destruct (String.eqb_spec k1 s); [injection H1 as <-; try discriminate N1|] end; try discriminate;
    repeat match type of H2 with context [String.eqb k2 ?s] => destruct (String.eqb_spec k2 s); [injection H2 as <-; try discriminate N2|] end; try discriminate; congruence
  | intros k Hk; cbn in Hk; injection Hk as <-; eexists; split; reflexivity
  | let e := fresh in let HH := fresh in intros e HH; cbn in HH; injection HH as <-; reflexivity ].
Ltac nu := clear - m; intros k d; cbn; repeat match goal with |- context [String.eqb k ?s] => destruct (String.eqb_spec k s); [intros H; injection H as <-; try discriminate; intros _; subst; cbn; tauto|] end; discriminate.
Lemma le0 x : 0 < x -> leb 0 x = true.
Proof. intros. unfold leb. destruct (Rle_dec 0 x); [reflexivity|lra]. Qed.

Lemma sphere_good L rm d : 0 < L -> 0 < rm -> assign_sp (ConstantSphericalDistribution fo None) [("Lambda", L); ("r_max", rm)] = Ok d -> good_space (fst d).
Proof.
  intros HL HR. unfold assign_sp. cbn. rewrite !le0 by assumption. cbn. intros [= <-]. split; [wf tt|]. split; [intros k; unfold places; cbn; now rewrite usual_sky by discriminate|]. intros prog n norm s.
  eapply (draws m Q F _ rm L [L] [1] (dens_sphere 1)); [split; [reflexivity|]; split; [wf tt|]; split; [exact HR|reflexivity]|nu| | | | | |exact HL| |].
  - left. exists "Lambda", (Some L). split; reflexivity.
  - repeat constructor.
  - repeat constructor.
  - reflexivity.
  - intros r. cbn. f_equal. unfold dens_sphere. lra.
  - now apply sphere_curve.
  - now apply sphere_int.
Qed.
Ltac go rm L vs us g HL := intros prog n norm s;
  eapply (draws m Q F _ rm L vs us g); [split; [reflexivity|]; split; [wf tt|]; split; [eassumption|reflexivity]|nu|left; eexists _, (Some L); split; reflexivity
    |repeat constructor|repeat constructor|reflexivity|intros r; cbn; f_equal|exact HL| |].
Lemma zpow_sphere_good L delta rm d : 0 < L -> 0 < rm ->
  assign_sp (ZPowerSphericalDistribution fo None) [("Lambda", L); ("r_max", rm); ("delta", delta)] = Ok d -> good_space (fst d).
Proof.
  intros HL HR. unfold assign_sp. cbn. rewrite !le0 by assumption. cbn. intros [= <-]. split; [wf tt|]. split; [intros k; unfold places; cbn; now rewrite usual_sky by discriminate|].
  go rm L [L; delta] [1; delta] (dens_zpow_sphere 1 delta) HL; [unfold dens_zpow_sphere; lra|now apply zpow_sphere_curve|now apply zpow_sphere_int].
Qed.
Lemma zpow_cosmo_good L delta rm rate d : 0 < L -> 0 < rm ->
  assign_sp (ZPowerCosmoDistribution fo rate) [("Lambda", L); ("r_max", rm); ("delta", delta)] = Ok d -> good_space (fst d).
Proof.
  destruct physical as (P1 & P2 & P3 & P4).
  intros HL HR. unfold assign_sp. cbn. rewrite !le0 by assumption. cbn. intros [= <-]. split; [wf tt|]. split; [intros k; unfold places; cbn; now rewrite usual_sky by discriminate|].
  go rm L [L; delta] [1; delta] (dens_zpow_cosmo sol rel Om h0 rate 1 delta) HL; [unfold dens_zpow_cosmo, Rdiv; ring|now apply zpow_cosmo_curve|now apply zpow_cosmo_int].
Qed.
Lemma le0' x : 0 <= x -> leb 0 x = true.
Proof. intros. unfold leb. destruct (Rle_dec 0 x); [reflexivity|lra]. Qed.
Lemma sfr_good r0 a rise decay peak rm rate d : 0 < rm -> 0 < r0 -> 0 <= a -> 0 <= rise -> 0 < a + rise -> 0 < decay -> 0 < peak ->
  assign_sp (SFRDistribution fo rate) [("r0", r0); ("a", a); ("rise", rise); ("decay", decay); ("peak", peak); ("r_max", rm)] = Ok d -> good_space (fst d).
Proof.
  destruct physical as (P1 & P2 & P3 & P4).
  intros HR HL Ha Hr Har Hd Hp. unfold assign_sp. cbn. repeat (rewrite le0' by lra; cbn). intros [= <-]. split; [wf tt|]. split; [intros k; unfold places; cbn; now rewrite usual_sky by discriminate|].
  go rm r0 [r0; a; rise; decay; peak] [1; a; rise; decay; peak] (dens_sfr sol rel Om h0 rate 1 a rise decay peak) HL; [unfold dens_sfr, Rdiv; ring|now apply sfr_curve|now apply sfr_int].
Qed.

(** *** Luminosities *)
Lemma pareto_good x y l : 0 <= x -> 0 < y -> assign_lum (ParetoDistribution fo) [("Lmin", x); ("alpha", y)] = Ok l -> good_lum (fst l).
Proof.
  intros H1 H2. unfold assign_lum. cbn. rewrite le0' by lra. cbn. intros [= <-]. intros n. exists [y; x], [x; y]. split; [repeat constructor|]. split; [repeat constructor|].
  intros g. cbn -[rdraws]. unfold leb. destruct (Rle_dec y 0); [lra|]. assert (LN := rdraws_length (unit1 m) n g). destruct (rdraws (unit1 m) n g) as [u g'].
  eexists _, _. split; [reflexivity|]. split; [now rewrite map_length|]. intros z _. eexists. reflexivity.
Qed.
Lemma schechter_good x y l : 0 <= x -> assign_lum (SchechterDistribution fo) [("Lmin", x); ("alpha", y)] = Ok l -> good_lum (fst l).
Proof.
  intros H1. unfold assign_lum. cbn. rewrite le0' by lra. cbn. intros [= <-]. intros n. exists [x; y], [y; x]. split; [repeat constructor|]. split; [repeat constructor|].
  intros g. cbn -[rdraws]. assert (LN := rdraws_length (unit1 m) n g). destruct (rdraws (unit1 m) n g) as [u g'].
  eexists _, _. split; [reflexivity|]. split; [now rewrite map_length|]. intros z _. eexists. reflexivity.
Qed.
Lemma normal_drawn mu tau n g : 0 <= tau -> exists z g', np_normal m mu tau n g = (Ok z, g') /\ length z = n.
Proof.
  intros H. unfold np_normal, ltb. destruct (Rlt_dec tau 0); [lra|]. assert (LN := rdraws_length (mc_norm m mu tau) n g). destruct (rdraws (mc_norm m mu tau) n g) as [u g']. eauto.
Qed.
Lemma lognormal_good x y l : 0 <= y -> assign_lum (LogNormalDistribution fo) [("mu", x); ("tau", y)] = Ok l -> good_lum (fst l).
Proof.
  intros H1. unfold assign_lum. cbn. rewrite le0' by lra. cbn. intros [= <-]. intros n. exists [x; y], [y; x]. split; [repeat constructor|]. split; [repeat constructor|].
  intros g. cbn -[np_normal]. destruct (normal_drawn x y n g H1) as (z & g' & -> & LN).
  eexists _, _. split; [reflexivity|]. split; [now rewrite map_length|]. intros v _. eexists. reflexivity.
Qed.
Lemma log10normal_good x y l : 0 <= y -> assign_lum (Log10NormalDistribution fo) [("mu", x); ("tau", y)] = Ok l -> good_lum (fst l).
Proof.
  intros H1. unfold assign_lum. cbn. rewrite le0' by lra. cbn. intros [= <-]. intros n. exists [x; y], [y; x]. split; [repeat constructor|]. split; [repeat constructor|].
  intros g. cbn -[np_normal]. destruct (normal_drawn x y n g H1) as (z & g' & -> & LN).
  eexists _, _. split; [reflexivity|]. split; [now rewrite map_length|]. intros v _. eexists. reflexivity.
Qed.
Lemma bpl_good x0 a1 x1 a2 x2 l : 0 < x0 < x1 -> x1 < x2 -> a1 <> -1 -> a2 <> -1 ->
  assign_lum (BPLDistribution fo) [("Lmin", x0); ("alpha", a1); ("Lbreak", x1); ("beta", a2); ("Lmax", x2)] = Ok l -> good_lum (fst l).
Proof.
  intros H1 H2 N1 N2. unfold assign_lum. cbn. repeat (rewrite le0' by lra; cbn). intros [= <-]. intros n.
  exists [x0; x1; x2; a1; a2], [x0; x1; x2; a1; a2]. split; [repeat constructor|]. split; [repeat constructor|].
  intros g. cbn -[rdraws weight1 sample_bpl bpl]. assert (LN := rdraws_length (unit1 m) n g). destruct (rdraws (unit1 m) n g) as [u g1].
  destruct (Req_EM_T a1 (-1)); [easy|]. destruct (Req_EM_T a2 (-1)); [easy|].
  destruct (weights x0 x1 x2 a1 a2) as (W1 & W2 & W3); try lra; try assumption. rewrite B by lra.
  assert (LB := rdraws_length (mc_bern m (weight1 x0 x1 x2 a1 a2)) n g1). destruct (rdraws (mc_bern m (weight1 x0 x1 x2 a1 a2)) n g1) as [s g2].
  eexists _, _. split; [reflexivity|]. split; [rewrite map_length, combine_length; cbn in *; lia|]. intros v _.
  rewrite (Q _ (fun ll => bpl ll x0 x1 x2 a1 a2)); [eexists; reflexivity|reflexivity|]. eexists. apply bpl_one; try lra; assumption.
Qed.

Lemma population_parts c arg seed rate (y : synth E) lum d :
  build fo w c arg seed lum rate = Ok y -> fst (documented c) <> milky_way -> snd (documented c) = Some d ->
  positive_density (fst (documented c)) arg -> drawable d arg ->
  exists sp l, y = population_synth w sp (Some l) seed /\ good_space (fst sp) /\ good_lum (fst l).
Proof.
  intros H NM HD PD DR.
  destruct (LibPopProofs.build_spec E fo w c arg seed lum rate) as [_ H2]. rewrite H in H2.
  match type of H2 with ?b = false -> _ => assert (A : b = true) by (destruct b; [reflexivity|specialize (H2 eq_refl); discriminate]) end.
  rewrite (LibPopProofs.accepted_in E) in A. clear H2.
  destruct c; cbn in HD; try discriminate HD; injection HD as <-; cbn in A; cbn [build] in H;
    unfold ParetoHomogeneousSphericalPopulation, ParetoZPowerSphericalPopulation, ParetoZPowerCosmoPopulation, ParetoSFRPopulation,
      BPLHomogeneousSphericalPopulation, BPLZPowerSphericalPopulation, BPLZPowerCosmoPopulation, BPLSFRPopulation,
      LogNormalHomogeneousSphericalPopulation, LogNormalZPowerSphericalPopulation, LogNormalZPowerCosmoPopulation, LogNormalSFRPopulation,
      Log10NormalHomogeneousSphericalPopulation, Log10NormalZPowerSphericalPopulation, Log10NormalZPowerCosmoPopulation, Log10NormalSFRPopulation,
      SchechterHomogeneousSphericalPopulation, SchechterZPowerSphericalPopulation, SchechterZPowerCosmoPopulation, SchechterSFRPopulation,
      SphericalPopulation, ZPowerSphericalPopulation, ZPowerCosmoPopulation, SFRPopulation in H;
    match type of H with rbind ?a _ = _ => destruct a as [l|] eqn:AL; [|discriminate H] end; cbn [rbind] in H;
    match type of H with rbind ?a _ = _ => destruct a as [sp|] eqn:AS; [|discriminate H] end; cbn [rbind] in H; injection H as <-;
    exists sp, l; (split; [reflexivity|]);
    destruct PD as [R0 PD]; cbn in PD; cbn in DR;
    (split;
     [ first [ eapply sphere_good; [| |exact AS] | eapply zpow_sphere_good; [| |exact AS] | eapply zpow_cosmo_good; [| |exact AS] | eapply sfr_good; [..|exact AS] ]; tauto
     | first [ eapply pareto_good; [|exact DR|exact AL]; apply RealSize.leb_iff, A; tauto
             | eapply schechter_good; [|exact AL]; apply RealSize.leb_iff, A; tauto
             | eapply lognormal_good; [|exact AL]; apply RealSize.leb_iff, A; tauto
             | eapply log10normal_good; [|exact AL]; apply RealSize.leb_iff, A; tauto
             | eapply bpl_good; [..|exact AL]; tauto ] ]).
Qed.
Theorem population_can_be_drawn c arg seed rate prog rl fs l10 n norm (y : synth E) lum d :
  build fo w c arg seed lum rate = Ok y -> fst (documented c) <> milky_way -> snd (documented c) = Some d ->
  positive_density (fst (documented c)) arg -> drawable d arg ->
  exists fuel p y', draw_survey prog fuel rl fs l10 (Some n) norm y = (Ok p, y') /\ p_nobj p = n /\ all_detected p.
Proof.
  intros H NM HD PD DR. destruct (population_parts _ _ _ _ _ _ _ H NM HD PD DR) as (sp & l & -> & G1 & G2). now apply population_drawn.
Qed.
(** With independent auxiliary samplers, and possibly another seed. *)
Theorem population_with_samplers c arg seed rate prog rl fs l10 n norm (y0 y : synth E) lum d :
  build fo w c arg seed lum rate = Ok y0 -> fst (documented c) <> milky_way -> snd (documented c) = Some d ->
  positive_density (fst (documented c)) arg -> drawable d arg ->
  y_sp y = y_sp y0 -> y_lum y = y_lum y0 -> flat y n -> (0 < rl)%nat ->
  exists fuel p y', draw_survey prog fuel rl fs l10 (Some n) norm y = (Ok p, y') /\ p_nobj p = n /\ all_detected p.
Proof.
  intros H NM HD PD DR ES EL FL RL. destruct (population_parts _ _ _ _ _ _ _ H NM HD PD DR) as (sp & l & -> & (W & SK & D) & G2).
  destruct (D prog n norm (r_seed E (y_seed y))) as (fuel & d' & s' & HD'). exists fuel.
  change (y_sp (population_synth w sp (Some l) seed)) with (fst sp) in ES.
  change (y_lum (population_synth w sp (Some l) seed)) with (Some (fst l)) in EL.
  eapply flat_returns; [exact FL|exact RL|exact EL|apply G2| | |rewrite ES; exact HD']; rewrite ES; [exact W|exact (SK n)].
Qed.
End Pops.
