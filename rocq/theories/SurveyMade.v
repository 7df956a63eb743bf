(** After a survey on samplers not drawn before, the values of each come from the
    methods of its class. *)
From Verif Require Import Base BaseFacts Keeps Env ParamModel SelModel SelSpec SelProofs SimVarModel DistModel DistSpec DistProofs
  AuxModel AuxSpec AuxProofs AuxProps AuxMore Tree AuxRunSpec AuxRuns PopModel SynthModel SynthSpec SynthFrame SynthInv.
From Verif Require SurveyProofs SurveyTree SurveyLoop SurveyFinal SurveyEnd SurveyTop.
Open Scope nat_scope.
Open Scope list_scope.

Section P.
Variable E : env.
Notation V := (V E).
Notation sampler := (sampler E).
Notation world := (world E).
Notation synth := (synth E).
Implicit Types w : world.
Implicit Types a b : sampler.
Notation quiet := (SurveyTree.quiet E).
Notation frozen := (SurveyTree.frozen E).
Notation hushed := (SurveyTree.hushed E).
Notation wd := (SurveyTree.well_drawn E).

Lemma given_same a : given_lum (a_lum (a_dy a)) a = a.
Proof. destruct a as [s l d]. destruct d. reflexivity. Qed.
Lemma made_some size w a : made_by_methods size w a -> made_for_some_lum size w a.
Proof. intros M. exists (a_lum (a_dy a)). now rewrite given_same. Qed.

(** Other values are kept and the parameters read the same. *)
Lemma made_keep size w w' a a' : SurveyTree.same_vals E a a' -> same_reads E (k_params (kind_of a)) (a_par (a_dy a)) (a_par (a_dy a')) ->
  steady E w w' a -> made_for_some_lum size w a -> made_for_some_lum size w' a'.
Proof.
  intros (V1 & V2 & V4 & V5 & V6 & V7) SR S (lum & tv & tview & g0 & g1 & x & H1 & H2 & H3 & H4 & H5 & pv & pview & P1 & P2 & P3 & P4 & P5).
  exists lum. assert (K : kind_of a' = kind_of a) by (unfold kind_of; now rewrite V1).
  assert (RE : forall ks l, Forall2 (reads_as (given_lum lum a)) ks l -> Forall2 (reads_as (given_lum lum a')) ks l).
  { intros ks l F. eapply Forall2_impl; [|exact F]. unfold reads_as. intros k v. change (kind_of (given_lum lum a')) with (kind_of a'). change (kind_of (given_lum lum a)) with (kind_of a).
    cbn. rewrite K. now rewrite (SR k). }
  assert (SE : forall v, sees w (given_lum lum a) v -> sees w' (given_lum lum a') v).
  { intros v. apply sees_steady; [now cbn|reflexivity|exact S]. }
  exists tv, tview, g0, g1, x. change (kind_of (given_lum lum a')) with (kind_of a'). change (kind_of (given_lum lum a)) with (kind_of a) in *.
  cbn [given_lum upd_dy a_dy a_st a_true a_obs a_prob] in *. rewrite K, <- V5, <- V6, <- V7, <- V1. split; [auto|]. split; [auto|]. split; [auto|]. split; [auto|]. split.
  - destruct (a_observed (a_st a)); [|exact H5]. destruct H5 as (ov & oview & g2 & y & O1 & O2 & O3 & O4 & O5). exists ov, oview, g2, y. auto.
  - exists pv, pview. auto 10.
Qed.

Definition all_made n w : Prop := forall j a, at_ w j a -> a_sampled (a_dy a) = true -> made_for_some_lum n w a.

Lemma made_quiet_draw prog fuel n i w w1 w2 : acyclic w -> all_made n w -> quiet w w1 -> aux_draw prog fuel i n w1 = (Ok tt, w2) -> all_made n w2.
Proof.
  intros AC M Q H. assert (FQ := SurveyTree.quiet_frozen _ _ _ Q). destruct Q as (W & Q2 & Q3).
  assert (AC1 : acyclic w1) by (eapply wiring_acyclic; eauto).
  destruct (draw_exactly _ _ _ _ _ _ _ AC1 H) as (t & D & _).
  assert (F : frozen w w2) by (eapply SurveyTree.frozen_trans; [exact FQ|]; eapply SurveyTree.drew_frozen; exact D).
  intros j a A SA. assert (W2 : same_wiring w w2) by apply F. destruct (wiring_at _ _ _ _ _ (wiring_sym _ _ _ W2) A) as (a0 & A0 & _).
  destruct (a_sampled (a_dy a0)) eqn:S0.
  - destruct (proj2 F j a0 A0 S0) as (b & B & O). assert (b = a) by (eapply at_fun; eauto). subst b.
    destruct O as (O1 & O2 & O3 & O4 & O5 & O6 & O7).
    apply (made_keep n w w2 a0 a); [unfold SurveyTree.same_vals; auto 10|rewrite O3; apply same_refl| |exact (M j a0 A0 S0)].
    intros k x b _ B' SB. destruct (proj2 F x b B' SB) as (b' & B2 & P1 & P2 & P3 & P4 & P5 & P6 & P7). exists b'. split; [exact B2|]. split; [congruence|]. split; congruence.
  - destruct AC1 as (r & RK). destruct (draw_made _ _ _ _ _ _ _ r RK H j) as (b & B & MB).
    + intros (c & C & SC). destruct (Q2 j a0 A0) as (c' & C' & O). assert (c' = c) by (eapply at_fun; eauto). subst c'. destruct O as (_ & _ & _ & O & _). congruence.
    + exists a. auto.
    + assert (b = a) by (eapply at_fun; eauto). subst b. now apply made_some.
Qed.
Lemma made_reads n w w' : hushed w w' -> SurveyEnd.wreads E w w' -> all_made n w -> all_made n w'.
Proof.
  intros HU WR M j a A SA. destruct (SurveyTree.hushed_at _ _ _ _ _ HU A) as (a0 & A0 & SV).
  destruct (WR j a0 A0) as (a1 & A1 & _ & SR). assert (a1 = a) by (eapply at_fun; eauto). subst a1.
  apply (made_keep n w w' a0 a SV SR); [|apply (M j a0 A0); destruct SV as (_ & _ & SV & _); congruence].
  intros k x b _ B SB. destruct (proj1 (proj2 HU) x b B) as (b' & B' & S1 & S2 & S3 & S4 & S5 & S6). exists b'. split; [exact B'|]. split; [congruence|]. split; congruence.
Qed.

Lemma made_fold prog rl n lum l : forall (y : synth) acc acc2 y2, acyclic (y_w y) -> all_made n (y_w y) ->
  foldM (survey_aux prog rl n lum) acc l y = (Ok acc2, y2) -> same_wiring (y_w y) (y_w y2) /\ all_made n (y_w y2).
Proof.
  induction l as [|[k i] l IH]; intros y [tr st] [tr2 st2] y2 AC M H; cbn [foldM] in H.
  - unfold ret in H. injection H as <- <- <-. split; [reflexivity|exact M].
  - apply bind_inv_ok in H. destruct H as ([tr1 st1] & y1 & H1 & H). assert (KP := survey_aux_keeps _ prog rl n lum (tr, st) (k, i) y). rewrite H1 in KP. cbn [snd] in KP.
    assert (W1 : same_wiring (y_w y) (y_w y1)) by apply KP.
    apply SurveyTree.survey_aux_inv in H1. destruct H1 as (a & w1 & s & A & SEC & Q & DR & YE & _).
    assert (M1 : all_made n (y_w y1)) by (eapply made_quiet_draw; eauto).
    destruct (IH y1 (tr1, st1) (tr2, st2) y2) as [W2 M2]; [eapply wiring_acyclic; eauto|exact M1|exact H|]. split; [eapply wiring_trans; eauto|exact M2].
Qed.

Lemma calm_made n (y y1 : synth) : SurveyFinal.calm E y y1 -> same_wiring (y_w y) (y_w y1) -> all_made n (y_w y) -> all_made n (y_w y1).
Proof.
  intros [C1 C2] W. assert (Q : forall j a, at_ (y_w y) j a <-> at_ (y_w y1) j a) by (intros; unfold at_; now rewrite C1).
  apply made_reads.
  - split; [exact W|]. split; [|exact C2]. intros j a A. exists a. split; [now apply Q|repeat split].
  - now apply SurveyEnd.same_auxs_reads.
Qed.

Variables (prog : bool) (fuel rl : nat) (fs : option V) (l10 : bool) (ns : option nat) (norm : bool) (y : synth) (p : population E) (y' : synth).
Hypothesis H : draw_survey prog fuel rl fs l10 ns norm y = (Ok p, y').

Lemma survey_made : acyclic (y_w y) -> all_made (p_nobj p) (y_w y) -> all_made (p_nobj p) (y_w y').
Proof.
  intros AC M. destruct (SynthInv.survey_steps _ _ _ _ _ _ _ _ _ _ _ H) as (t & S).
  rewrite (sz_nobj (SurveyProofs.all_sized _ _ _ _ _ _ _ _ _ _ _ _ S)) in *.
  assert (M1 : all_made (tr_n E t) (y_w (tr_sky E t))).
  { eapply calm_made; [eapply SurveyFinal.sky_calm; exact S|eapply SurveyFinal.sky_frame; exact S|exact M]. }
  assert (AC1 : acyclic (y_w (tr_sky E t))) by (eapply wiring_acyclic; [eapply SurveyFinal.sky_frame; exact S|exact AC]).
  assert (W1 : same_wiring (y_w (tr_sky E t)) (y_w (tr_lumd E t))) by (eapply SurveyFinal.lumd_frame; exact S).
  assert (M2 : all_made (tr_n E t) (y_w (tr_lumd E t))).
  { assert (H1 := sp_lum _ _ _ _ _ _ _ _ _ _ _ _ S). assert (DE := SurveyFinal.sky_der _ _ _ _ _ _ _ _ _ _ _ _ S). destruct (y_der y) as [i|] eqn:D.
    - destruct (SurveyLoop.survey_lum_der _ _ _ _ _ _ _ _ _ _ _ _ _ DE H1) as (_ & [YE (sp & w1 & w2 & a & a' & f & vals & SP & H2 & H3 & A & H4 & _)]).
      apply (made_reads _ w2).
      + eapply SurveyLoop.reads_hushed; exact H4.
      + assert (KR := SurveyEnd.aux_reads_reads _ i (k_lreads (kind_of a)) w2). rewrite H4 in KR. exact KR.
      + eapply made_quiet_draw; [exact AC1|exact M1| |exact H3]. eapply SurveyLoop.set_sp_quiet; exact H2.
    - eapply calm_made; [|exact W1|exact M1].
      unfold survey_lum in H1. apply bind_inv_ok in H1. destruct H1 as (y0 & z & G & H1). unfold get in G. injection G as <- <-.
      rewrite DE in H1. destruct (y_lum (tr_sky E t)) as [l|]; [|discriminate].
      apply bind_inv_ok in H1. destruct H1 as (x1 & z1 & L1 & H1). apply bind_inv_ok in H1. destruct H1 as (x2 & z2 & L2 & H1).
      apply bind_inv_ok in H1. destruct H1 as (x3 & z3 & G3 & H1). unfold get in G3. injection G3 as _ <-.
      apply bind_inv_ok in H1. destruct H1 as (x4 & z4 & L4 & H1). apply lift_inv in L4. destruct L4 as [_ ->].
      apply bind_inv_ok in H1. destruct H1 as (x5 & z5 & L5 & H1). apply SurveyProofs.times_inv in L5. destruct L5 as [-> _].
      unfold ret in H1. injection H1 as _ _ _ _ Z. rewrite <- Z.
      eapply SurveyFinal.calm_trans; [eapply SurveyFinal.calm_ok; [|exact L1]|eapply SurveyFinal.calm_ok; [|exact L2]]; apply SurveyFinal.in_lum_calm. }
  assert (H2 := sp_aux _ _ _ _ _ _ _ _ _ _ _ _ S).
  destruct (made_fold _ _ _ _ _ _ _ _ _ (wiring_acyclic _ _ _ W1 AC1) M2 H2) as [W2 M3].
  intros j a A SA. assert (Q := SurveyFinal.auxs_final _ _ _ _ _ _ _ _ _ _ _ _ S).
  assert (A' : at_ (y_w (tr_auxd E t)) j a) by (unfold at_ in *; congruence).
  apply (made_keep _ (y_w (tr_auxd E t)) _ a a); [repeat split|apply same_refl| |exact (M3 j a A' SA)].
  intros k x b _ B SB. exists b. split; [unfold at_ in *; congruence|auto].
Qed.
End P.

Section Top.
Variable E : env.
Notation V := (V E).
Notation synth := (synth E).
Variables (prog : bool) (fuel rl : nat) (fs : option V) (l10 : bool) (ns : option nat) (norm : bool) (y : synth) (p : population E) (y' : synth).
Hypothesis H : draw_survey prog fuel rl fs l10 ns norm y = (Ok p, y').

(** Every sampler of the survey, at the end. *)
Lemma parts_made : acyclic (y_w y) -> distinct_names y -> never_drawn (y_w y) ->
  forall j a, part y j -> at_ (y_w y) j a ->
  exists b tv ov, at_ (y_w y') j b /\ a_st b = a_st a /\ same_reads E (k_params (kind_of a)) (a_par (a_dy a)) (a_par (a_dy b)) /\
    a_true (a_dy b) = Some tv /\ a_obs (a_dy b) = Some ov /\ length tv = p_nobj p /\ length ov = p_nobj p /\
    dget (p_aux p) (name_of a) = Some (SimVar ov tv (MB (pa_sel (p_args p))) DFloat) /\
    made_for_some_lum (p_nobj p) (y_w y') b.
Proof.
  intros AC DN ND j a PJ A. assert (WD : SynthSpec.well_drawn (y_w y)) by (intros i k SA; now destruct (ND i)).
  destruct (SurveyTop.values_recorded _ _ _ _ _ _ _ _ _ _ _ H AC DN WD) as [VR _].
  assert (M : all_made E (p_nobj p) (y_w y')).
  { eapply survey_made; [exact H|exact AC|]. intros k b B SB. destruct (ND k). now exists b. }
  destruct (SynthInv.survey_steps _ _ _ _ _ _ _ _ _ _ _ H) as (t & S).
  destruct (SurveyPop.reads_end _ _ _ _ _ _ _ _ _ _ _ _ S j a A) as (b & B & KB & SR).
  destruct (wiring_at _ _ _ _ _ (SurveyPop.wiring_last _ _ _ _ _ _ _ _ _ _ _ _ S) A) as (b' & B' & E1 & _). assert (b' = b) by (eapply at_fun; eauto). subst b'.
  destruct (VR j b PJ B) as (tv & ov & T & O & G). exists b, tv, ov. split; [exact B|]. split; [exact E1|]. split; [exact SR|]. split; [exact T|]. split; [exact O|].
  destruct (SurveyTop.all_sized _ _ _ _ _ _ _ _ _ _ _ H) as [SZ _]. destruct (sz_aux SZ _ _ (dget_In _ _ G)) as [L1 L2]. cbn in L1, L2.
  split; [exact L2|]. split; [exact L1|]. split; [unfold name_of in *; now rewrite <- E1|].
  apply (M j b B). destruct (SurveyFinal.loop_end _ _ _ _ _ _ _ _ _ _ _ _ S AC DN WD) as (L & _).
  destruct (SurveyLoop.lp_sampled _ _ _ _ _ _ _ _ _ _ L j PJ) as (c & C & SC).
  apply (SurveyFinal.end_at _ _ _ _ _ _ _ _ _ _ _ _ S) in C. assert (c = b) by (eapply at_fun; eauto). now subst c.
Qed.

(** Luminosities of a synth without derived luminosity. *)
Lemma drawn_luminosity : y_der y = None -> exists l vals g g', y_lum y = Some l /\
  values E (lc_params (ld_cls l)) (ld_par l) (lc_dreads (ld_cls l)) vals /\
  lc_draw (ld_cls l) vals (p_nobj p) g = (Ok (sv_lat (p_lum p)), g') /\ sv_obs (p_lum p) = sv_lat (p_lum p).
Proof.
  intros DE. destruct (SynthInv.survey_steps _ _ _ _ _ _ _ _ _ _ _ H) as (t & S).
  assert (DS := SurveyFinal.sky_der _ _ _ _ _ _ _ _ _ _ _ _ S). rewrite DE in DS.
  destruct (SurveyPop.lum_source _ _ _ _ _ _ _ _ _ _ _ _ DS (sp_lum _ _ _ _ _ _ _ _ _ _ _ _ S)) as (l & l' & q & vals & g & g' & dvals & YL & _ & _ & _ & _ & V & D & _).
  destruct (SurveyPop.sky_dists _ _ _ _ _ _ _ _ _ _ _ _ S) as [Q _]. rewrite Q in YL.
  rewrite (sz_nobj (SurveyProofs.all_sized _ _ _ _ _ _ _ _ _ _ _ _ S)).
  destruct (SurveyProofs.steps_built _ _ _ _ _ _ _ _ _ _ _ _ S) as (ar & B & _ & _ & _ & _ & Hl & _).
  assert (BL := SurveyProofs.bu_lum _ _ _ B). destruct BL as [BL _]. rewrite BL, Hl. cbn. exists l, dvals, g, g'. auto.
Qed.
End Top.
