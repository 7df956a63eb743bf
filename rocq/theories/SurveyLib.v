(** The predefined samplers in a survey. *)
From Coq Require Import Reals List String Lra Lia.
From Verif Require Import Base BaseFacts Env ParamModel SelModel SimVarModel DistModel DistSpec AuxModel AuxSpec AuxProofs AuxRunSpec AuxRuns PopModel SynthModel SynthSpec
  LibModel RealModel AuxLibModel AuxLibSpec AuxLibProofs PopSpec.
From Verif Require SurveyMade SynthInv SurveyProofs PopProofs.
Import ListNotations.
Open Scope R_scope.
Open Scope string_scope.

(** The names of the quantities of a population are not taken by its attributes. *)
Section Names.
Variable E : env.
Lemma aux_names prog fuel rl fs l10 ns norm (y : synth E) p y' : draw_survey prog fuel rl fs l10 ns norm y = (Ok p, y') ->
  forall k v, In (k, v) (p_aux p) -> ~ In k taken.
Proof.
  intros H k v I. destruct (SynthInv.survey_steps _ _ _ _ _ _ _ _ _ _ _ H) as (t & S).
  destruct (SurveyProofs.steps_built _ _ _ _ _ _ _ _ _ _ _ _ S) as (a & B & _ & _ & _ & _ & _ & _ & _ & _ & _ & _ & _ & PA & _).
  assert (N := SynthInv.sp_pop _ _ _ _ _ _ _ _ _ _ _ _ S). assert (QA := SurveyProofs.bu_args _ _ _ (SurveyProofs.pop_new_built _ _ _ N)).
  assert (QB := SurveyProofs.bu_args _ _ _ B). assert (AQ := eq_trans (eq_sym QB) QA). rewrite <- AQ in N. apply PopProofs.new_free in N.
  assert (BA := SurveyProofs.bu_aux _ _ _ B). rewrite PA in BA. destruct BA as [L BA]. apply In_nth_error in I. destruct I as (i & I).
  destruct (nth_error (SynthInv.tr_aux E t) i) as [[k' v']|] eqn:Q.
  - destruct (BA i k' v' Q) as (_ & X & _). assert (k' = k) by congruence. subst k'. eapply N; [exact PA|]. eapply nth_error_In, Q.
  - exfalso. apply nth_error_None in Q. assert (Z : nth_error (p_aux p) i <> None) by congruence. apply nth_error_Some in Z. lia.
Qed.
Theorem part_names prog fuel rl fs l10 ns norm (y : synth E) : acyclic (y_w y) -> distinct_names y -> SynthSpec.never_drawn (y_w y) ->
  forall j a, part y j -> at_ (y_w y) j a -> In (name_of a) taken ->
  forall p, fst (draw_survey prog fuel rl fs l10 ns norm y) <> Ok p.
Proof.
  intros AC DN ND j a PJ A T p H. destruct (draw_survey prog fuel rl fs l10 ns norm y) as [r y'] eqn:D. cbn in H. subst r.
  destruct (SurveyMade.parts_made _ _ _ _ _ _ _ _ _ _ _ D AC DN ND j a PJ A) as (b & tv & ov & _ & _ & _ & _ & _ & _ & _ & G & _).
  exact (aux_names _ _ _ _ _ _ _ _ _ _ D _ _ (dget_In _ _ G) T).
Qed.
End Names.

Section P.
Variable m : machine.
Notation E := (real_env m).
Variable tnorm : R -> R -> mc_st m -> R * mc_st m.
Variable nunif : mc_nst m -> R * mc_nst m.
Variable ppf : R.
Notation kind := (aux_kind m tnorm nunif ppf).

Variables (prog : bool) (fuel rl : nat) (fs : option (V E)) (l10 : bool) (ns : option nat) (norm : bool).
Variables (y : synth E) (p : population E) (y' : synth E).
Hypothesis H : draw_survey prog fuel rl fs l10 ns norm y = (Ok p, y').
Hypothesis AC : acyclic (y_w y).
Hypothesis DN : distinct_names y.
Hypothesis ND : SynthSpec.never_drawn (y_w y).

(** What a sampler of the survey reads at the end is what it read at the beginning. *)
Lemma survey_part j a : part y j -> at_ (y_w y) j a ->
  exists b tv ov, kind_of b = kind_of a /\ a_observed (a_st b) = a_observed (a_st a) /\ (forall k v, reads_as b k v -> reads_as a k v) /\
    a_true (a_dy b) = Some tv /\ a_obs (a_dy b) = Some ov /\ length tv = p_nobj p /\ length ov = p_nobj p /\
    dget (p_aux p) (name_of a) = Some (SimVar ov tv (MB (pa_sel (p_args p))) DFloat) /\ made_by_methods (p_nobj p) (y_w y') b.
Proof.
  intros PJ A. destruct (SurveyMade.parts_made _ _ _ _ _ _ _ _ _ _ _ H AC DN ND j a PJ A) as (b & tv & ov & _ & ES & SR & T & O & L1 & L2 & G & lum & M).
  exists (given_lum lum b), tv, ov. assert (K : kind_of b = kind_of a) by (unfold kind_of; now rewrite ES).
  split; [exact K|]. split; [change (a_observed (a_st b) = a_observed (a_st a)); now rewrite ES|]. split.
  - intros k v. unfold reads_as. change (kind_of (given_lum lum b)) with (kind_of b). rewrite K. cbn. now rewrite (SR k).
  - repeat (split; [assumption|]). exact M.
Qed.

Theorem survey_range (U : unit_uniform m nunif) c : c <> Dec ->
  forall j a q, part y j -> at_ (y_w y) j a -> kind_of a = kind c -> has_parameters m a q -> sensible c q ->
  exists x, dget (p_aux p) (name_of a) = Some x /\ length (sv_lat x) = p_nobj p /\ Forall (documented_range c q) (sv_lat x).
Proof.
  intros NDEC j a q PJ A K HP SE. destruct (survey_part j a PJ A) as (b & tv & ov & KB & _ & RB & T & O & L1 & L2 & G & M).
  eexists. split; [exact G|]. cbn. split; [exact L1|]. destruct M as (vals & tview & g0 & g1 & x & F & _ & KT & AS & _). rewrite KB, K in F, KT.
  destruct (true_in_range m tnorm nunif ppf U c q vals tview (p_nobj p) g0 x g1 NDEC SE) as (t' & -> & R); [|exact KT|].
  - eapply Forall2_impl; [|exact F]. intros k v Q. apply HP. now apply RB.
  - cbn in AS. rewrite T in AS. injection AS as <-. exact R.
Qed.

Theorem survey_observed c : angle_name c = None ->
  forall j a, part y j -> at_ (y_w y) j a -> kind_of a = kind c ->
  exists x, dget (p_aux p) (name_of a) = Some x /\ length (sv_lat x) = p_nobj p /\
    if a_observed (a_st a) then exists s, reads_as a "sigma" s /\ 0 <= s /\ measured_from m (sv_lat x) (sv_obs x) s /\ (s = 0 -> sv_obs x = sv_lat x)
    else sv_obs x = sv_lat x.
Proof.
  intros NA j a PJ A K. destruct (survey_part j a PJ A) as (b & tv & ov & KB & OBS & RB & T & O & L1 & L2 & G & M).
  eexists. split; [exact G|]. cbn. split; [exact L1|]. destruct M as (vals & tview & g0 & g1 & x & _ & _ & _ & _ & OB & _). rewrite OBS in OB.
  destruct (a_observed (a_st a)); [|congruence].
  destruct OB as (vals' & oview & g2 & yy & F & _ & V & KO & AS). rewrite KB, K in F, KO. rewrite (oreads m tnorm nunif ppf c NA) in F.
  inversion F as [|? s ? l RS F' Q1 Q2]. subst. inversion F'. subst.
  rewrite T in V. destruct (obs_measured m tnorm nunif ppf c _ _ _ _ _ _ s tv NA V eq_refl KO) as (o' & -> & P & Z1 & Z2). cbn in AS. rewrite O in AS. injection AS as <-.
  exists s. split; [now apply RB|]. auto.
Qed.
End P.
