(** The predefined samplers with valid parameters can be drawn. *)
From Coq Require Import Reals ZArith List String Lra Lia.
From Verif Require Import Base BaseFacts Env ParamModel DistModel DistSpec AuxModel AuxSpec AuxRunSpec PopModel SynthModel LibModel LibProofs LibGeo RealModel AuxLibModel AuxLibSpec AuxLibProofs RealRunSpec RealSize FlatSpec FlatLibSpec.
From Verif Require DistProofs.
Import ListNotations.
Open Scope R_scope.
Open Scope string_scope.

Section P.
Variable m : machine.
Notation E := (real_env m).
Notation st := (mc_st m).
Variable tnorm : R -> R -> st -> R * st.
Variable nunif : mc_nst m -> R * mc_nst m.
Variable ppf : R.
Hypothesis B : takes_probabilities m.
Hypothesis T : truncated m tnorm.

Lemma norm_ok loc scale n g : 0 <= scale -> length loc = n -> exists l g', norm_rvs m loc scale n g = (Ok l, g') /\ length l = n.
Proof.
  intros H L. unfold norm_rvs. destruct (ltb scale 0) eqn:X; [apply ltb_iff in X; lra|]. rewrite L, Nat.eqb_refl. cbn [negb].
  destruct (Req_EM_T scale 0); [eauto|]. assert (LN := rdraws_length (norm1 m) n g). destruct (rdraws (norm1 m) n g) as [z g'].
  eexists _, _. split; [reflexivity|]. rewrite map_length, combine_length. cbn in LN. lia.
Qed.
Lemma trunc_ok a b loc scale n g : a < b -> exists l g', truncnorm_rvs m tnorm a b loc scale n g = (Ok l, g') /\ length l = n /\
  Forall (fun v => exists z, a <= z <= b /\ v = tn_value loc scale z) l.
Proof.
  intros H. unfold truncnorm_rvs. rewrite (proj2 (ltb_iff a b) H). assert (LN := rdraws_length (tnorm a b) n g).
  assert (F : Forall (fun z => a <= z <= b) (fst (rdraws (tnorm a b) n g))) by (apply rdraws_all; intros; now apply T).
  destruct (rdraws (tnorm a b) n g) as [z g']. cbn in *.
  eexists _, _. split; [reflexivity|]. split; [now rewrite map_length|]. apply Forall_map. eapply Forall_impl; [|exact F]. cbn. eauto.
Qed.
Lemma in_range_ok lower upper l : Forall (fun v => lower <= v <= upper) l -> in_range lower upper (Ok l) = Ok l.
Proof.
  intros F. unfold in_range. cbn [rbind].
  rewrite (proj2 (forallb_forall _ _)); [|intros x I; apply leb_iff; now apply (proj1 (Forall_forall _ _) F)].
  rewrite (proj2 (forallb_forall _ _)); [reflexivity|intros x I; apply leb_iff; now apply (proj1 (Forall_forall _ _) F)].
Qed.

Lemma values_map (a : sampler E) p ks : parameters_are m a p -> incl ks (dkeys (k_params (kind_of a))) ->
  values E (k_params (kind_of a)) (a_par (a_dy a)) ks (map p ks).
Proof.
  intros P. induction ks as [|k ks IH]; intros I; [constructor|]. constructor; [apply P, I; now left|]. apply IH. intros x X. apply I. now right.
Qed.
Definition returns (f : list R -> view E -> nat -> gens E -> res (option (list R)) * gens E) (vals : list R) (n : nat) : Prop :=
  forall v g, exists t g', f vals v n g = (Ok (Some t), g') /\ length t = n.
Lemma numpy_returns (f : draws m) vals n : (forall g, exists l g', f vals n g = (Ok l, g') /\ length l = n) -> returns (from_numpy m f) vals n.
Proof. intros H v g. unfold from_numpy. destruct (H (fst g)) as (l & g' & -> & L). eexists _, _. split; [reflexivity|exact L]. Qed.
Lemma measured_samples ps reads f (a : sampler E) p n : kind_of a = measured m ps reads f -> parameters_are m a p -> incl reads (dkeys ps) ->
  (a_observed (a_st a) = true -> In "sigma" (dkeys ps) /\ 0 <= p "sigma") -> returns f (map p reads) n -> samples a n.
Proof.
  intros K P I O F. exists (map p reads), [p "sigma"], []. rewrite K. cbn [k_params k_treads k_oreads k_preads k_true k_obs k_prob measured].
  assert (V := values_map a p). rewrite K in V. cbn [k_params measured] in V.
  split; [now apply V|]. split; [intros OB; apply (V ["sigma"]); [exact P|]; destruct (O OB) as [J _]; intros x [<-|[]]; exact J|].
  split; [constructor|]. intros v g. destruct (F v g) as (t & g' & H & L). exists t, g'. split; [exact H|]. split; [exact L|].
  intros v' TV. split; [|eauto]. intros OB g1. destruct (O OB) as [_ S]. unfold normal_obs. rewrite TV.
  destruct (norm_ok t (p "sigma") n (fst g1) S L) as (l & g2 & -> & LL). eexists _, _. split; [reflexivity|exact LL].
Qed.
Lemma latent_samples ps reads f preads prob (a : sampler E) p n : kind_of a = latent m ps reads f preads prob -> parameters_are m a p ->
  incl reads (dkeys ps) -> incl preads (dkeys ps) -> a_observed (a_st a) = false ->
  returns (from_numpy m f) (map p reads) n -> (forall v t, vw_true v = Some t -> exists q, prob (map p preads) v = Ok q) -> samples a n.
Proof.
  intros K P I J O F Q. exists (map p reads), [], (map p preads). rewrite K. cbn [k_params k_treads k_oreads k_preads k_true k_obs k_prob latent].
  assert (V := values_map a p). rewrite K in V. cbn [k_params latent] in V.
  split; [now apply V|]. split; [intros _; constructor|]. split; [now apply V|].
  intros v g. destruct (F v g) as (t & g' & H & L). exists t, g'. split; [exact H|]. split; [exact L|]. intros v' TV. split; [congruence|]. now apply Q with t.
Qed.
Lemma quot_lt a b c : 0 < c -> a < b -> a / c < b / c.
Proof. intros C H. apply Rmult_lt_compat_r; [now apply Rinv_0_lt_compat|exact H]. Qed.

Lemma trunc_lognormal_ok lower mu tau upper n g : 0 < tau -> 0 <= lower < upper -> (lower = 0 -> mu + tau * ppf < ln upper) ->
  exists l g', trunc_lognormal_true m tnorm ppf [lower; mu; tau; upper] n g = (Ok l, g') /\ length l = n.
Proof.
  intros T0 [L0 LU] Z. unfold trunc_lognormal_true.
  destruct (ltb lower 0) eqn:X1; [apply ltb_iff in X1; lra|]. destruct (leb upper 0) eqn:X2; [apply leb_iff in X2; lra|].
  destruct (Req_EM_T tau 0); [lra|]. destruct (tln_bounds ppf mu tau lower upper) as [a b] eqn:TB.
  assert (AB : a < b).
  { unfold tln_bounds in TB. injection TB as <- <-. apply quot_lt; [exact T0|]. destruct (Req_EM_T lower 0) as [e|e]; [specialize (Z e); lra|].
    assert (ln lower < ln upper) by (apply ln_increasing; lra). lra. }
  destruct (trunc_ok a b mu tau n g AB) as (l & g' & -> & L & F). cbn [rmap].
  rewrite in_range_ok; [eexists _, _; split; [reflexivity|now rewrite map_length]|].
  apply Forall_map. eapply Forall_impl; [|exact F]. cbn. intros v (z & HZ & ->).
  destruct (Req_EM_T lower 0) as [e|e].
  - subst lower. destruct (tln_zero ppf mu tau upper z T0) as (I & _); [lra|rewrite TB; exact HZ|]. exact I.
  - destruct (tln_iff ppf mu tau lower upper z) as [I _]; [lra..|]. rewrite TB in I. exact (I HZ).
Qed.
Lemma trunc_log10normal_ok lower mu tau upper n g : 0 < tau -> 0 < upper ->
  ((1 <= lower /\ Rpower 10 (ln lower) < upper) \/ (lower = 0 /\ mu + tau * ppf < ln upper / ln 10)) ->
  exists l g', trunc_log10normal_true m tnorm ppf [lower; mu; tau; upper] n g = (Ok l, g') /\ length l = n.
Proof.
  intros T0 U0 C. unfold trunc_log10normal_true.
  destruct (ltb lower 0) eqn:X1; [apply ltb_iff in X1; lra|]. destruct (leb upper 0) eqn:X2; [apply leb_iff in X2; lra|].
  destruct (Req_EM_T tau 0); [lra|]. destruct (tl10_bounds ppf mu tau lower upper) as [a b] eqn:TB.
  assert (L10 : 0 < ln 10) by (rewrite <- ln_1; apply ln_increasing; lra).
  assert (AB : a < b).
  { unfold tl10_bounds, log10 in TB. injection TB as <- <-. apply quot_lt; [exact T0|]. destruct (Req_EM_T lower 0) as [e|e].
    - destruct C as [C|C]; lra.
    - destruct C as [[C1 C2]|C]; [|lra]. assert (X : ln (Rpower 10 (ln lower)) < ln upper) by (apply ln_increasing; [apply exp_pos|exact C2]).
      unfold Rpower in X. rewrite ln_exp in X. assert (ln lower < ln upper / ln 10); [|lra]. apply Rmult_lt_reg_r with (ln 10); [exact L10|].
      unfold Rdiv. rewrite Rmult_assoc, Rinv_l by lra. lra. }
  destruct (trunc_ok a b mu tau n g AB) as (l & g' & -> & L & F). cbn [rmap].
  rewrite in_range_ok; [eexists _, _; split; [reflexivity|now rewrite map_length]|].
  apply Forall_map. eapply Forall_impl; [|exact F]. cbn. intros v (z & HZ & ->). change (lower <= tl10_value mu tau z <= upper).
  destruct C as [[C1 C2]|[-> C2]].
  - destruct (tl10_iff ppf mu tau lower upper z) as [I _]; [lra..|]. rewrite TB in I. specialize (I HZ).
    assert (lower <= Rpower 10 (ln lower)); [|lra]. destruct (Req_dec lower 1) as [->|]; [rewrite ln_1, Rpower_O; lra|].
    assert (X := ten_ln_gt lower ltac:(lra)). lra.
  - unfold tl10_bounds, log10 in TB. injection TB as <- <-. destruct HZ as [_ HZ]. unfold tl10_value. split; [apply Rlt_le, exp_pos|].
    assert (X : (mu + tau * z) <= ln upper / ln 10).
    { apply Rmult_le_compat_l with (r := tau) in HZ; [|lra]. replace (tau * ((ln upper / ln 10 - mu) / tau)) with (ln upper / ln 10 - mu) in HZ by (field; lra). lra. }
    unfold Rpower. apply Rmult_le_compat_r with (r := ln 10) in X; [|lra]. replace (ln upper / ln 10 * ln 10) with (ln upper) in X by (field; lra).
    rewrite <- (exp_ln upper U0). destruct (Req_dec ((mu + tau * z) * ln 10) (ln upper)) as [->|]; [lra|]. left. apply exp_increasing. lra.
Qed.

Ltac sub := let x := fresh in intros x; cbn; tauto.
Theorem class_samples c (a : sampler E) p n : kind_of a = aux_kind m tnorm nunif ppf c -> parameters_are m a p -> valid ppf c p ->
  (a_observed (a_st a) = true -> observable c /\ 0 <= p "sigma") -> samples a n.
Proof.
  intros K P W O.
  assert (O' : forall b : Prop, a_observed (a_st a) = true -> (observable c -> b) -> b /\ 0 <= p "sigma") by (intros b A H; destruct (O A); auto).
  destruct c; cbn in W; cbn [aux_kind] in K;
    try (eapply measured_samples; [exact K|exact P|sub|intros OB; apply (O' _ OB); cbn; tauto|]);
    try (eapply latent_samples; [exact K|exact P|sub|sub|destruct (a_observed (a_st a)); [destruct (O eq_refl) as [[] _]|reflexivity]| |]).
  - apply numpy_returns. intros g. cbn. eexists _, _. split; [reflexivity|apply repeat_length].
  - apply numpy_returns. intros g. cbn [map normal_true]. apply norm_ok; [exact W|apply repeat_length].
  - apply numpy_returns. intros g. cbn [map lognormal_true]. destruct (norm_ok (repeat (p "mu") n) (p "tau") n g W (repeat_length _ _)) as (l & g' & -> & L).
    eexists _, _. split; [reflexivity|now rewrite map_length].
  - apply numpy_returns. intros g. cbn [map log10normal_true]. destruct (norm_ok (repeat (p "mu") n) (p "tau") n g W (repeat_length _ _)) as (l & g' & -> & L).
    eexists _, _. split; [reflexivity|now rewrite map_length].
  - apply numpy_returns. intros g. cbn [map trunc_normal_true]. destruct W as [T0 LU]. destruct (Req_EM_T (p "tau") 0); [lra|].
    destruct (tn_bounds (p "mu") (p "tau") (p "lower") (p "upper")) as [x y] eqn:TB.
    destruct (trunc_ok x y (p "mu") (p "tau") n g) as (l & g' & -> & L & F).
    { unfold tn_bounds in TB. injection TB as <- <-. apply quot_lt; lra. }
    rewrite in_range_ok; [eexists _, _; split; [reflexivity|exact L]|]. eapply Forall_impl; [|exact F]. cbn. intros v (z & HZ & ->).
    destruct (tn_iff (p "mu") (p "tau") (p "lower") (p "upper") z T0) as [I _]. rewrite TB in I. exact (I HZ).
  - apply numpy_returns. intros g. now apply trunc_lognormal_ok.
  - apply numpy_returns. intros g. now apply trunc_log10normal_ok.
  - apply numpy_returns. intros g. cbn [map pareto_true]. destruct (leb (p "alpha") 0) eqn:X; [apply leb_iff in X; lra|].
    assert (LN := rdraws_length (unit1 m) n g). destruct (rdraws (unit1 m) n g). eexists _, _. split; [reflexivity|now rewrite map_length].
  - intros v g. cbn [map plaw_true]. assert (LN := rdraws_length nunif n (snd g)). destruct (rdraws nunif n (snd g)).
    eexists _, _. split; [reflexivity|now rewrite map_length].
  - apply numpy_returns. intros g. cbn [map bpl_true]. assert (LN := rdraws_length (unit1 m) n g). destruct (rdraws (unit1 m) n g) as [u g1].
    destruct W as (W1 & W2 & N1 & N2). destruct (Req_EM_T (p "alpha") (-1)); [easy|]. destruct (Req_EM_T (p "beta") (-1)); [easy|].
    destruct (weights (p "xmin") (p "xbreak") (p "xmax") (p "alpha") (p "beta")) as (G1 & G2 & G3); try lra; try assumption. rewrite B by lra.
    match goal with |- context [rdraws (mc_bern m ?w) n g1] => assert (LB := rdraws_length (mc_bern m w) n g1); destruct (rdraws (mc_bern m w) n g1) as [s g2] end.
    eexists _, _. split; [reflexivity|]. rewrite map_length, combine_length. cbn in *. lia.
  - apply numpy_returns. intros g. unfold ra_true. assert (LN := rdraws_length (unit1 m) n g). destruct (rdraws (unit1 m) n g). eexists _, _. split; [reflexivity|now rewrite map_length].
  - eauto.
  - apply numpy_returns. intros g. unfold dec_true. assert (LN := rdraws_length (unit1 m) n g). destruct (rdraws (unit1 m) n g). eexists _, _. split; [reflexivity|now rewrite map_length].
  - eauto.
  - apply numpy_returns. intros g. cbn [map va_truth]. assert (LN := rdraws_length (unit1 m) n g). destruct (rdraws (unit1 m) n g). eexists _, _. split; [reflexivity|now rewrite map_length].
  - intros v t TV. cbn. rewrite TV. eauto.
Qed.

Theorem predefined_flat (y : synth E) n : with_predefined_samplers m tnorm nunif ppf y -> flat y n.
Proof.
  intros (H & R). split; [|exact R]. intros k i I. destruct (H k i I) as (a & s & c & p & H1 & H2 & H3 & H4 & H5 & H6 & H7 & H8 & H9 & K & PA & VA & OB).
  exists a, s. repeat (split; [assumption|]). eapply class_samples; eassumption.
Qed.
End P.
