(** Surveys that differ in their selections only (C78). *)
From Verif Require Import Base BaseFacts Env ParamModel SelModel SelSpec SelProofs SimVarModel DistModel AuxModel AuxSpec AuxProofs PopModel SynthModel SynthSpec Sim OtherSpec OtherSim.
From Verif Require Import SynthInv.
From Verif Require SurveyProofs SurveyTree SurveyFinal SurveyKeep SurveyTop SynthFrame SurveyPop.
Open Scope nat_scope.

Lemma sim_two S S' A B (R : S -> S' -> Prop) (Q : A -> B -> Prop) m m' s s' a b t t' : sim R Q m m' -> R s s' -> m s = (Ok a, t) -> m' s' = (Ok b, t') -> Q a b /\ R t t'.
Proof. intros H HR X Y. specialize (H s s' HR). now rewrite X, Y in H. Qed.

Lemma ok_inj {A} (x y : A) : Ok x = Ok y -> x = y. Proof. now intros [= ->]. Qed.

Section P.
Variable E : env.
Notation V := (V E).
Notation synth := (synth E).
Variables (prog : bool) (fuel rl : nat) (fs : option V) (l10 : bool) (ns : option nat) (norm : bool).
Variables (y1 y2 z1 z2 : synth) (p1 p2 : population E) (t1 t2 : trace E).
Hypothesis S1 : steps E prog fuel rl fs l10 ns norm y1 p1 z1 t1.
Hypothesis S2 : steps E prog fuel rl fs l10 ns norm y2 p2 z2 t2.
Hypothesis B : but_selections y1 y2.
Variable G : nat -> Prop.
Hypothesis GA : forall a, In a (w_auxs (y_w y1)) -> G (a_sel (a_ln a)).
Hypothesis GE : forall q, G q -> nth_error (w_sels (y_w y1)) q = nth_error (w_sels (y_w y2)) q.
Notation same := (yr E G).

Definition seeded (y : synth) : synth := with_w y (w_set_gens (r_seed E (y_seed y), w_n (y_w y)) (y_w y)).
Lemma size_seeded y : survey_size ns norm (seeded y) = survey_size ns norm y. Proof. reflexivity. Qed.
Lemma seeded_same : same (seeded y1) (seeded y2).
Proof. destruct B. split; cbn; try assumption. split; cbn; try assumption; congruence. Qed.

Lemma y_samplers n lum acc l : sim same eq (foldM (survey_aux prog rl n lum) acc l) (foldM (survey_aux prog rl n lum) acc l).
Proof. apply sim_fold. intros b a _. apply y_sampler. Qed.
Lemma upto_flux : tr_n E t1 = tr_n E t2 /\ tr_sp E t1 = tr_sp E t2 /\ tr_lum E t1 = tr_lum E t2 /\ tr_flux E t1 = tr_flux E t2 /\ tr_p1 E t1 = tr_p1 E t2 /\
  tr_t2 E t1 = tr_t2 E t2 /\ tr_st2 E t1 = tr_st2 E t2 /\ same (tr_auxd E t1) (tr_auxd E t2).
Proof.
  assert (A1 := sp_size _ _ _ _ _ _ _ _ _ _ _ _ S1). assert (A2 := sp_size _ _ _ _ _ _ _ _ _ _ _ _ S2). rewrite <- size_seeded in A1, A2.
  destruct (sim_two _ _ _ _ _ _ _ _ _ _ _ _ _ _ (y_size E G ns norm) seeded_same A1 A2) as [N Q1].
  assert (C1 := sp_dist _ _ _ _ _ _ _ _ _ _ _ _ S1). assert (C2 := sp_dist _ _ _ _ _ _ _ _ _ _ _ _ S2). rewrite N in C1.
  destruct (sim_two _ _ _ _ _ _ _ _ _ _ _ _ _ _ (y_in_sp E G _ _) Q1 C1 C2) as [_ Q2].
  assert (P0 : tr_p0 E t1 = tr_p0 E t2).
  { destruct (sp_p0 _ _ _ _ _ _ _ _ _ _ _ _ S1) as (q1 & D1 & F1). destruct (sp_p0 _ _ _ _ _ _ _ _ _ _ _ _ S2) as (q2 & D2 & F2).
    rewrite (yr_sp _ _ _ _ Q2), D2 in D1. injection D1 as ->. rewrite N, F2 in F1. now injection F1. }
  assert (D1 := sp_sky _ _ _ _ _ _ _ _ _ _ _ _ S1). assert (D2 := sp_sky _ _ _ _ _ _ _ _ _ _ _ _ S2). rewrite N in D1.
  destruct (sim_two _ _ _ _ _ _ _ _ _ _ _ _ _ _ (y_in_sp E G _ _) Q2 D1 D2) as [_ Q3].
  assert (SP : tr_sp E t1 = tr_sp E t2).
  { assert (F1 := sp_sp _ _ _ _ _ _ _ _ _ _ _ _ S1). assert (F2 := sp_sp _ _ _ _ _ _ _ _ _ _ _ _ S2). rewrite (yr_sp _ _ _ _ Q3), F2 in F1. now injection F1. }
  assert (L1 := sp_lum _ _ _ _ _ _ _ _ _ _ _ _ S1). assert (L2 := sp_lum _ _ _ _ _ _ _ _ _ _ _ _ S2). rewrite N, P0, (bs_sp B) in L1.
  destruct (sim_two _ _ _ _ _ _ _ _ _ _ _ _ _ _ (y_lumin E G _ _ _ _ _) Q3 L1 L2) as [L Q4]. injection L as LU LP LT LS.
  assert (FL : tr_flux E t1 = tr_flux E t2).
  { assert (F1 := sp_flux _ _ _ _ _ _ _ _ _ _ _ _ S1). assert (F2 := sp_flux _ _ _ _ _ _ _ _ _ _ _ _ S2). rewrite (bs_sp B), LU, SP, F2 in F1. now injection F1. }
  assert (X1 := sp_aux _ _ _ _ _ _ _ _ _ _ _ _ S1). assert (X2 := sp_aux _ _ _ _ _ _ _ _ _ _ _ _ S2). rewrite N, LU, LT, LS, (bs_aux B) in X1.
  destruct (sim_two _ _ _ _ _ _ _ _ _ _ _ _ _ _ (y_samplers _ _ _ _) Q4 X1 X2) as [L Q5]. injection L as LT2 LS2.
  repeat (split; [assumption|]). exact Q5.
Qed.


Lemma objects : same_objects p1 p2.
Proof.
  destruct upto_flux as (N & SP & LU & FL & _ & T2 & ST2 & _).
  destruct (SurveyProofs.steps_built _ _ _ _ _ _ _ _ _ _ _ _ S1) as (a1 & B1 & U1 & _ & _ & _ & U2 & U3 & U4 & U5 & _ & _ & U6 & U7 & U8 & U9).
  destruct (SurveyProofs.steps_built _ _ _ _ _ _ _ _ _ _ _ _ S2) as (a2 & B2 & W1 & _ & _ & _ & W2 & W3 & W4 & W5 & _ & _ & W6 & W7 & W8 & W9).
  assert (Z1 := SurveyProofs.all_sized _ _ _ _ _ _ _ _ _ _ _ _ S1). assert (Z2 := SurveyProofs.all_sized _ _ _ _ _ _ _ _ _ _ _ _ S2).
  destruct (SurveyPop.end_positions _ _ _ _ _ _ _ _ _ _ _ _ S1) as (_ & _ & _ & E1). destruct (SurveyPop.end_positions _ _ _ _ _ _ _ _ _ _ _ _ S2) as (_ & _ & _ & E2).
  rewrite E1, E2 in SP. injection SP as P1 P2 P3. rewrite (SurveyProofs.bu_args _ _ _ B1), (SurveyProofs.bu_args _ _ _ B2) in P1, P2, P3.
  split.
  - rewrite (sz_nobj Z1), (sz_nobj Z2). exact N.
  - rewrite (proj1 (SurveyProofs.bu_lum _ _ _ B1)), (proj1 (SurveyProofs.bu_lum _ _ _ B2)). cbn. congruence.
  - rewrite (proj1 (SurveyProofs.bu_dist _ _ _ B1)), (proj1 (SurveyProofs.bu_dist _ _ _ B2)). exact P1.
  - rewrite (proj1 (SurveyProofs.bu_theta _ _ _ B1)), (proj1 (SurveyProofs.bu_theta _ _ _ B2)). exact P2.
  - rewrite (proj1 (SurveyProofs.bu_phi _ _ _ B1)), (proj1 (SurveyProofs.bu_phi _ _ _ B2)). exact P3.
  - rewrite (proj1 (SurveyProofs.bu_flux _ _ _ B1)), (proj1 (SurveyProofs.bu_flux _ _ _ B2)). cbn. congruence.
  - rewrite (SurveyProofs.bu_args _ _ _ B1), (SurveyProofs.bu_args _ _ _ B2), U7, W7.
    assert (Q1 := sp_quant _ _ _ _ _ _ _ _ _ _ _ _ S1). assert (Q2 := sp_quant _ _ _ _ _ _ _ _ _ _ _ _ S2). rewrite ST2, Q2 in Q1. f_equal. symmetry. now apply ok_inj.
  - rewrite (SurveyProofs.bu_args _ _ _ B1), (SurveyProofs.bu_args _ _ _ B2). congruence.
Qed.

(** ** Observed fluxes *)
Lemma flux_at (y : synth) p z t : steps E prog fuel rl fs l10 ns norm y p z t -> exists s s0, nth_error (w_sels (y_w y)) (y_flux y) = Some s /\
  nth_error (w_sels (y_w (tr_auxd E t))) (y_flux y) = Some s0 /\ SurveyKeep.same_setup E s s0 /\ y_flux (tr_auxd E t) = y_flux y.
Proof.
  intros S. assert (F := SurveyProofs.static_yframe _ _ _ _ _ _ _ _ _ _ _ _ S).
  assert (FX : y_flux (tr_auxd E t) = y_flux y) by (destruct F as [_ Q]; unfold SynthFrame.conf_static in Q; congruence).
  destruct (SurveyFinal.fsel_inv _ _ _ _ _ _ _ _ _ _ _ _ S) as (s0 & _ & _ & _ & N0 & _).
  destruct F as [[_ F] _]. assert (X : nth_error (map (SynthFrame.sel_static E) (w_sels (y_w y))) (y_flux y) = Some (SynthFrame.sel_static E s0)).
  { rewrite <- F. now apply map_nth_error. }
  rewrite nth_error_map in X. destruct (nth_error (w_sels (y_w y)) (y_flux y)) as [s|] eqn:N; [|discriminate].
  destruct (SurveyFinal.auxd_kept _ _ _ _ _ _ _ _ _ _ _ _ S _ _ N) as (s0' & N0' & SU). rewrite N0 in N0'. injection N0' as <-. exists s, s0. auto.
Qed.
Lemma setup_kind s s0 : SurveyKeep.same_setup E s s0 -> s_kind s0 = s_kind s.
Proof. intros (X & _). unfold SynthFrame.sel_static in X. congruence. Qed.

(** Both synths add errors to the fluxes, or neither does. *)
Definition alike (y y' : synth) : Prop := fs = None \/ forall s s', nth_error (w_sels (y_w y)) (y_flux y) = Some s -> nth_error (w_sels (y_w y')) (y_flux y') = Some s' ->
  is_unity (s_kind s) = is_unity (s_kind s').
Lemma flux_step : alike y1 y2 -> tr_fobs E t1 = tr_fobs E t2 /\ same (tr_fluxd E t1) (tr_fluxd E t2).
Proof.
  intros AL. destruct upto_flux as (N & _ & _ & FL & _ & _ & _ & Q).
  destruct (flux_at _ _ _ _ S1) as (s1 & s01 & N1 & M1 & U1 & F1). destruct (flux_at _ _ _ _ S2) as (s2 & s02 & N2 & M2 & U2 & F2).
  assert (H1 := sp_fobs _ _ _ _ _ _ _ _ _ _ _ _ S1). assert (H2 := sp_fobs _ _ _ _ _ _ _ _ _ _ _ _ S2). rewrite N, FL in H1. unfold survey_flux in H1, H2.
  apply bind_inv_ok in H1. destruct H1 as (x1 & x & X & H1). unfold get in X. injection X as <- <-.
  apply bind_inv_ok in H2. destruct H2 as (x2 & x & X & H2). unfold get in X. injection X as <- <-.
  apply bind_inv_ok in H1. destruct H1 as (k1 & x & X & H1). apply in_w_get_sel in X. destruct X as [-> X]. rewrite F1, M1 in X. injection X as <-.
  apply bind_inv_ok in H2. destruct H2 as (k2 & x & X & H2). apply in_w_get_sel in X. destruct X as [-> X]. rewrite F2, M2 in X. injection X as <-.
  rewrite (setup_kind _ _ U1) in H1. rewrite (setup_kind _ _ U2) in H2.
  assert (Z : forall a b (y y' : synth) (r : list V * V), ret (a, b) y = (Ok r, y') -> r = (a, b) /\ y' = y) by (intros; unfold ret in *; injection H as <- <-; auto).
  case_eq fs; [intros sg FS|intros FS]; rewrite FS in H1, H2.
  - destruct AL as [AL|AL]; [congruence|]. rewrite (AL _ _ N1 N2) in H1. destruct (is_unity (s_kind s2)).
    + apply Z in H1. apply Z in H2. destruct H1 as [R1 ->], H2 as [R2 ->]. split; [congruence|exact Q].
    + destruct (vlt E sg (vofnat E 0)); [discriminate|].
      assert (C : sim same eq
        (let! es := in_g (fun g => let (l, g') := rdraws (r_norm E (vofnat E 0) sg) (tr_n E t2) g in (Ok l, g')) in
         let! logs := lift (bcast2 (vadd E) (map (if l10 then vlog10 E else vln E) (tr_flux E t2)) es) in
         lift (rassert (forallb (vfinite E) logs)) ;; ret (map (if l10 then vexp10 E else vexp E) logs, sg))
        (let! es := in_g (fun g => let (l, g') := rdraws (r_norm E (vofnat E 0) sg) (tr_n E t2) g in (Ok l, g')) in
         let! logs := lift (bcast2 (vadd E) (map (if l10 then vlog10 E else vln E) (tr_flux E t2)) es) in
         lift (rassert (forallb (vfinite E) logs)) ;; ret (map (if l10 then vexp10 E else vexp E) logs, sg))).
      { apply sim_eq; [apply y_in_g|]. intros es. apply sim_eq; [apply sim_lift|]. intros logs. apply sim_eq; [apply sim_lift|]. intros _. now apply sim_ret. }
      destruct (sim_two _ _ _ _ _ _ _ _ _ _ _ _ _ _ C Q H1 H2) as [R Q']. split; [congruence|exact Q'].
  - assert (R1 : (tr_fobs E t1, tr_sigma E t1) = (tr_flux E t2, vsub E (vofnat E 0) (vofnat E 1)) /\ tr_fluxd E t1 = tr_auxd E t1) by (destruct (is_unity (s_kind s1)); now apply Z in H1).
    assert (R2 : (tr_fobs E t2, tr_sigma E t2) = (tr_flux E t2, vsub E (vofnat E 0) (vofnat E 1)) /\ tr_fluxd E t2 = tr_auxd E t2) by (destruct (is_unity (s_kind s2)); now apply Z in H2).
    destruct R1 as [R1 ->], R2 as [R2 ->]. split; [congruence|exact Q].
Qed.
Lemma observed : alike y1 y2 -> sv_obs (p_flux p1) = sv_obs (p_flux p2).
Proof.
  intros AL. destruct (flux_step AL) as [X _].
  destruct (SurveyProofs.steps_built _ _ _ _ _ _ _ _ _ _ _ _ S1) as (a1 & B1 & _ & _ & _ & _ & _ & _ & _ & U & _).
  destruct (SurveyProofs.steps_built _ _ _ _ _ _ _ _ _ _ _ _ S2) as (a2 & B2 & _ & _ & _ & _ & _ & _ & _ & W & _).
  rewrite (proj1 (SurveyProofs.bu_flux _ _ _ B1)), (proj1 (SurveyProofs.bu_flux _ _ _ B2)). cbn. congruence.
Qed.

(** ** Judgements of samplers and spatial selection, once the states before them agree *)
Lemma part_same j : part y1 j <-> part y2 j.
Proof.
  assert (R := SurveyFinal.reaches_eq E _ _ (bs_auxs B)).
  unfold part. rewrite (bs_aux B), (bs_der B). split; (intros [(k & i & I & H)|(i & I & H)]; [left; exists k, i; split; [exact I|now apply R]|right; exists i; split; [exact I|now apply R]]).
Qed.
Lemma at_same j b : at_ (y_w y1) j b <-> at_ (y_w y2) j b.
Proof. apply SurveyFinal.at_auxs_eq. apply (bs_auxs B). Qed.

Lemma sampler_same : same (tr_fsel E t1) (tr_fsel E t2) -> selectors_apart y1 -> selectors_apart y2 ->
  forall j b, part y1 j -> at_ (y_w y1) j b -> nth_error (w_sels (y_w z1)) (a_sel (a_ln b)) = nth_error (w_sels (y_w z2)) (a_sel (a_ln b)).
Proof.
  intros Q (A1 & _ & D1) (A2 & _ & D2) j b P AT. assert (P2 := proj1 (part_same j) P). assert (AT2 := proj1 (at_same j b) AT).
  rewrite (SurveyFinal.sels_final _ _ _ _ _ _ _ _ _ _ _ _ S1), (SurveyFinal.sels_final _ _ _ _ _ _ _ _ _ _ _ _ S2).
  - apply (wr_sels _ _ _ _ (yr_w _ _ _ _ Q)). apply GA. now apply nth_error_In in AT.
  - intros X. apply A2 in X. destruct X as (_ & _ & X). exact (X _ _ P2 AT2 eq_refl).
  - exact (D2 _ _ P2 AT2).
  - intros X. apply A1 in X. destruct X as (_ & _ & X). exact (X _ _ P AT eq_refl).
  - exact (D1 _ _ P AT).
Qed.

Lemma spatial_exact (y : synth) p z t k : steps E prog fuel rl fs l10 ns norm y p z t -> y_ssel y = Some k -> k <> y_dsel y ->
  exists sp s0 s1 s2 g1, spatial_values (y_sp (tr_fsel E t)) = Ok sp /\ nth_error (w_sels (y_w (tr_fsel E t))) k = Some s0 /\ set_spatial_distribution s0 sp = Ok s1 /\
    sel_select prog (tr_n E t) (s1, w_g (y_w (tr_fsel E t))) = (Ok tt, (s2, g1)) /\ nth_error (w_sels (y_w z)) k = Some s2.
Proof.
  intros S YS ND. assert (H := sp_s3 _ _ _ _ _ _ _ _ _ _ _ _ S). unfold spatial_step in H. rewrite YS in H.
  destruct (SurveyFinal.final_inv _ _ _ _ _ _ _ _ _ _ _ _ S) as (_ & FI & _). rewrite FI by exact ND.
  apply bind_inv_ok in H. destruct H as (sp & x & H1 & H). apply get_sp_inv in H1. destruct H1 as [-> H1].
  apply bind_inv_ok in H. destruct H as (s0 & x & H2 & H). apply in_w_get_sel in H2. destruct H2 as [-> H2].
  apply bind_inv_ok in H. destruct H as (s1 & x & H3 & H). apply lift_inv in H3. destruct H3 as [H3 ->].
  apply bind_inv_ok in H. destruct H as ([] & x & H4 & H). apply SurveyTree.in_w_inv in H4. destruct H4 as (w1 & H4 & ->).
  unfold put_sel, modify in H4. injection H4 as <-.
  apply bind_inv_ok in H. destruct H as ([] & x & H5 & H). apply SurveyTree.in_w_inv in H5. destruct H5 as (w2 & H5 & ->). cbn [y_w with_w] in *.
  apply on_sel_inv in H5. destruct H5 as (x & x' & g' & NX & M & ->). cbn [w_g w_sels w_auxs w_set_sels w_set_gens] in *.
  apply bind_inv_ok in H. destruct H as (s2 & u & H6 & H). apply in_w_get_sel in H6. destruct H6 as [-> H6]. cbn [y_w with_w w_sels w_auxs w_set_sels w_set_gens] in *.
  apply lift_inv in H. destruct H as [H Q]. rewrite Q. cbn [y_w with_w w_sels w_auxs w_set_sels w_set_gens].
  assert (L : k < length (w_sels (y_w (tr_fsel E t)))) by (apply nth_error_Some; congruence).
  rewrite nth_lset_eq in NX by easy. injection NX as <-.
  exists sp, s0, s1, x', g'. repeat (split; [assumption|]). apply nth_lset_eq. now rewrite lset_length.
Qed.
Lemma spatial_same : same (tr_fsel E t1) (tr_fsel E t2) -> y_ssel y1 = y_ssel y2 -> (forall k, y_ssel y1 = Some k -> G k) -> selectors_apart y1 -> selectors_apart y2 ->
  forall k, y_ssel y1 = Some k -> nth_error (w_sels (y_w z1)) k = nth_error (w_sels (y_w z2)) k.
Proof.
  intros Q YS GK (A1 & _) (A2 & _) k K. assert (K2 : y_ssel y2 = Some k) by congruence. destruct upto_flux as (N & _).
  destruct (spatial_exact _ _ _ _ _ S1 K (proj1 (A1 _ K))) as (sp & s0 & s1 & s2 & g1 & H1 & H2 & H3 & H4 & ->).
  destruct (spatial_exact _ _ _ _ _ S2 K2 (proj1 (A2 _ K2))) as (sp' & s0' & s1' & s2' & g1' & H1' & H2' & H3' & H4' & ->).
  rewrite (yr_sp _ _ _ _ Q), H1' in H1. apply ok_inj in H1. subst sp'.
  rewrite (wr_sels _ _ _ _ (yr_w _ _ _ _ Q) k (GK k K)), H2' in H2. injection H2 as ->. rewrite H3' in H3. apply ok_inj in H3. subst s1'.
  rewrite N, (wr_g _ _ _ _ (yr_w _ _ _ _ Q)), H4' in H4. injection H4 as -> _. reflexivity.
Qed.

(** ** The flux selection *)
Lemma flux_exact (y : synth) p z t : steps E prog fuel rl fs l10 ns norm y p z t -> exists s0 s1 g1, nth_error (w_sels (y_w (tr_auxd E t))) (y_flux y) = Some s0 /\
  w_sels (y_w (tr_fluxd E t)) = w_sels (y_w (tr_auxd E t)) /\
  sel_select prog (tr_n E t) (set_observed_flux s0 (tr_fobs E t), w_g (y_w (tr_fluxd E t))) = (Ok tt, (s1, g1)) /\
  tr_fsel E t = with_w (tr_fluxd E t) (w_set_gens (g1, w_n (y_w (tr_fluxd E t))) (w_set_sels (lset (lset (w_sels (y_w (tr_fluxd E t))) (y_flux y) (set_observed_flux s0 (tr_fobs E t))) (y_flux y) s1) (y_w (tr_fluxd E t)))).
Proof.
  intros S. assert (C := SurveyFinal.calm_ok _ _ _ _ _ _ (SurveyFinal.survey_flux_calm _ _ _ _ _) (sp_fobs _ _ _ _ _ _ _ _ _ _ _ _ S)). destruct C as [C1 C2].
  destruct (sp_fsel _ _ _ _ _ _ _ _ _ _ _ _ S) as (x & H1 & H2).
  apply SurveyTree.in_w_inv in H1. destruct H1 as (w1 & H1 & ->). apply SurveyTree.in_w_inv in H2. destruct H2 as (w2 & H2 & Q2). cbn [y_w with_w] in *.
  apply upd_sel_inv in H1. destruct H1 as (s0 & N0 & ->). apply on_sel_inv in H2. destruct H2 as (x & x' & g' & NX & M & ->).
  cbn [w_g w_n w_sels w_auxs w_set_sels w_set_gens] in *.
  rewrite nth_lset_eq in NX by (apply nth_error_Some; congruence). injection NX as <-.
  exists s0, x', g'. split; [congruence|]. split; [congruence|]. split; [exact M|]. exact Q2.
Qed.

(** A selection of the same fluxes that does not use the generator. *)
Lemma fsel_same : same (tr_fluxd E t1) (tr_fluxd E t2) -> ~ G (y_flux y1) -> ~ G (y_flux y2) -> w_g (y_w (tr_fsel E t1)) = w_g (y_w (tr_fluxd E t1)) -> w_g (y_w (tr_fsel E t2)) = w_g (y_w (tr_fluxd E t2)) ->
  same (tr_fsel E t1) (tr_fsel E t2).
Proof.
  intros Q N1 N2 G1 G2. destruct (flux_exact _ _ _ _ S1) as (a1 & b1 & c1 & _ & _ & _ & F1). destruct (flux_exact _ _ _ _ S2) as (a2 & b2 & c2 & _ & _ & _ & F2).
  rewrite F1 in G1 |- *. rewrite F2 in G2 |- *. cbn [y_w with_w w_g w_set_gens fst] in G1, G2.
  destruct Q as [[W1 W2 W3 W4 W5] Q2 Q3 Q4 Q5 Q6]. split; cbn; try assumption. split; cbn; try assumption; [congruence|].
  intros q GQ. rewrite !nth_lset_neq by (intros X; subst; contradiction). now apply W4.
Qed.
Lemma fsel_equal : same (tr_fluxd E t1) (tr_fluxd E t2) -> tr_fobs E t1 = tr_fobs E t2 -> y_flux y1 = y_flux y2 -> G (y_flux y1) -> same (tr_fsel E t1) (tr_fsel E t2).
Proof.
  intros Q FO YF GF. destruct upto_flux as (N & _).
  destruct (sp_fsel _ _ _ _ _ _ _ _ _ _ _ _ S1) as (u1 & H1 & K1). destruct (sp_fsel _ _ _ _ _ _ _ _ _ _ _ _ S2) as (u2 & H2 & K2).
  rewrite <- FO, <- YF in H2. rewrite <- N, <- YF in K2.
  destruct (sim_two _ _ _ _ _ _ _ _ _ _ _ _ _ _ (y_in_w E G _ _ _ _ _ (w_upd_sel E G _ _ GF)) Q H1 H2) as [_ Q1].
  destruct (sim_two _ _ _ _ _ _ _ _ _ _ _ _ _ _ (y_in_w E G _ _ _ _ _ (w_on_sel E G _ _ _ GF)) Q1 K1 K2) as [_ Q2]. exact Q2.
Qed.
End P.

Section Top.
Variable E : env.
Notation V := (V E).
Notation synth := (synth E).
Variables (prog : bool) (fuel rl : nat) (fs : option V) (l10 : bool) (ns : option nat) (norm : bool).
Variables (y y' z z' : synth) (p p' : population E).
Hypothesis H : draw_survey prog fuel rl fs l10 ns norm y = (Ok p, z).
Hypothesis H' : draw_survey prog fuel rl fs l10 ns norm y' = (Ok p', z').
Hypothesis B : but_selections y y'.
Definition own (q : nat) : Prop := exists a, In a (w_auxs (y_w y)) /\ a_sel (a_ln a) = q.
Lemma own_all a : In a (w_auxs (y_w y)) -> own (a_sel (a_ln a)). Proof. intros I. exists a. auto. Qed.
Lemma own_same q : own q -> nth_error (w_sels (y_w y)) q = nth_error (w_sels (y_w y')) q. Proof. intros (a & I & <-). exact (bs_sels B a I). Qed.

Theorem the_same_objects : same_objects p p'.
Proof.
  destruct (survey_steps _ _ _ _ _ _ _ _ _ _ _ H) as (t & S). destruct (survey_steps _ _ _ _ _ _ _ _ _ _ _ H') as (t' & S').
  exact (objects E prog fuel rl fs l10 ns norm y y' z z' p p' t t' S S' B own own_all own_same).
Qed.
Theorem the_same_fluxes : (fs = None \/ forall s s', nth_error (w_sels (y_w y)) (y_flux y) = Some s -> nth_error (w_sels (y_w y')) (y_flux y') = Some s' ->
  is_unity (s_kind s) = is_unity (s_kind s')) -> sv_obs (p_flux p) = sv_obs (p_flux p').
Proof.
  destruct (survey_steps _ _ _ _ _ _ _ _ _ _ _ H) as (t & S). destruct (survey_steps _ _ _ _ _ _ _ _ _ _ _ H') as (t' & S').
  exact (observed E prog fuel rl fs l10 ns norm y y' z z' p p' t t' S S' B own own_all own_same).
Qed.

Lemma distinct_same : distinct_names y -> distinct_names y'.
Proof.
  assert (PS := part_same E y y' B). assert (AS := at_same E y y' B). intros [D1 D2]. split.
  - intros j b P A. apply PS in P. apply AS in A. eauto.
  - intros j j' b b' P P' A A'. apply PS in P, P'. apply AS in A, A'. eauto.
Qed.
Lemma bools (a b : list bool) : length a = length b -> (forall i, i < length a -> (nth_error a i = Some true <-> nth_error b i = Some true)) -> a = b.
Proof.
  revert b. induction a as [|x a IH]; intros [|x' b] L Q; try discriminate; [reflexivity|]. cbn in L. f_equal.
  - assert (X := Q 0 ltac:(cbn; lia)). cbn in X. destruct x, x'; intuition congruence.
  - apply IH; [lia|]. intros i I. exact (Q (S i) ltac:(cbn; lia)).
Qed.
Lemma passes_same (w w' : world E) k i : nth_error (w_sels w) k = nth_error (w_sels w') k -> passes w k i -> passes w' k i.
Proof. intros X (s & N & P). exists s. split; [congruence|exact P]. Qed.
Lemma mask_same (w w' : world E) k i : nth_error (w_sels w) k = nth_error (w_sels w') k -> (exists m, mask_at w k m /\ accepts m i) -> exists m, mask_at w' k m /\ accepts m i.
Proof. intros X (m & (s & N & P) & A). exists m. split; [|exact A]. exists s. split; [congruence|exact P]. Qed.

Lemma sel_length : length (pa_sel (p_args p)) = p_nobj p.
Proof.
  destruct (survey_steps _ _ _ _ _ _ _ _ _ _ _ H) as (t & S). destruct (SurveyProofs.steps_built _ _ _ _ _ _ _ _ _ _ _ _ S) as (a & Q & _).
  rewrite (SurveyProofs.bu_args _ _ _ Q). symmetry. exact (proj1 (SurveyProofs.bu_counts _ _ _ Q)).
Qed.
Lemma obs_length : length (sv_obs (p_flux p)) = p_nobj p.
Proof.
  destruct (survey_steps _ _ _ _ _ _ _ _ _ _ _ H) as (t & S). destruct (SurveyProofs.steps_built _ _ _ _ _ _ _ _ _ _ _ _ S) as (a & Q & _).
  rewrite (proj1 (SurveyProofs.bu_counts _ _ _ Q)), (proj1 (SurveyProofs.bu_flux _ _ _ Q)). exact (proj1 (proj2 (SurveyProofs.bu_flux _ _ _ Q))).
Qed.
End Top.

(** A hard flux selection that was not used yet. *)
Section Hard.
Variable E : env.
Variables (prog : bool) (fuel rl : nat) (fs : option (V E)) (l10 : bool) (ns : option nat) (norm : bool) (y z : synth E) (p : population E) (s : selector E) (b : V E).
Hypothesis H : draw_survey prog fuel rl fs l10 ns norm y = (Ok p, z).
Hypotheses (N : nth_error (w_sels (y_w y)) (y_flux y) = Some s) (U : s_sampled s = false) (K : s_kind s = KLower E) (FF : s_fflux s = true) (PB : par_is s "boundary" b).

Lemma hard_mask : selectors_apart y -> exists m, mask_at (y_w z) (y_flux y) m /\ length m = p_nobj p /\ forall i f, nth_error (sv_obs (p_flux p)) i = Some f -> (nth_error m i = Some true <-> vle E b f = true).
Proof.
  intros SA. destruct (SurveyTop.flux_judged _ _ _ _ _ _ _ _ _ _ _ H s SA N U) as (s0 & g0 & s1 & g1 & m & SU & OF & D & M & MA).
  destruct SU as (SK & _ & _ & _ & _ & _ & SF & PI).
  destruct (lower_exact E prog (p_nobj p) s0 g0 (sv_obs (p_flux p)) b) as (m' & (s3 & D3 & M3) & (L & MI)); [congruence|left; split; [congruence|now rewrite OF]|now apply PI|].
  rewrite D in D3. injection D3 as <- _. assert (m' = m) by congruence. subst m'. exists m. split; [exact MA|]. split; [|exact MI].
  rewrite L. exact (obs_length _ _ _ _ _ _ _ _ _ _ _ H).
Qed.
Lemma hard_still t : steps E prog fuel rl fs l10 ns norm y p z t -> w_g (y_w (tr_fsel E t)) = w_g (y_w (tr_fluxd E t)).
Proof.
  intros S. destruct (flux_exact _ _ _ _ _ _ _ _ _ _ _ _ S) as (s0 & s1 & g1 & N0 & _ & SEL & ->). cbn.
  destruct (flux_at _ _ _ _ _ _ _ _ _ _ _ _ S) as (s' & s0' & N' & N0' & (ST & SS & PI) & _). rewrite N in N'. injection N' as <-. rewrite N0 in N0'. injection N0' as <-.
  unfold SynthFrame.sel_static in ST.
  apply SurveyFinal.select_fresh in SEL; [|cbn; congruence]. destruct SEL as (s2 & D & _).
  destruct (lower_exact E prog (tr_n E t) (set_observed_flux s0 (tr_fobs E t)) (w_g (y_w (tr_fluxd E t))) (tr_fobs E t) b) as (m & (s3 & D3 & _) & _).
  - cbn. congruence.
  - left. split; [cbn; congruence|reflexivity].
  - destruct (proj1 (PI _ _) PB) as (d & X). exists d. exact X.
  - rewrite D in D3. now injection D3 as _ ->.
Qed.
End Hard.

Section Two.
Variable E : env.
Notation V := (V E).
Notation synth := (synth E).
Variables (prog : bool) (fuel rl : nat) (fs : option V) (l10 : bool) (ns : option nat) (norm : bool).
Variables (y y' z z' : synth) (p p' : population E).
Hypothesis H : draw_survey prog fuel rl fs l10 ns norm y = (Ok p, z).
Hypothesis H' : draw_survey prog fuel rl fs l10 ns norm y' = (Ok p', z').
Hypothesis B : but_selections y y'.
Hypotheses (SA : selectors_apart y) (SA' : selectors_apart y') (DN : distinct_names y) (SS : same_spatial y y').

Theorem deeper_detects_more s s' b b' :
  nth_error (w_sels (y_w y)) (y_flux y) = Some s -> s_sampled s = false -> s_kind s = KLower E -> s_fflux s = true -> par_is s "boundary" b ->
  nth_error (w_sels (y_w y')) (y_flux y') = Some s' -> s_sampled s' = false -> s_kind s' = KLower E -> s_fflux s' = true -> par_is s' "boundary" b' ->
  (forall a, In a (w_auxs (y_w y)) -> a_sel (a_ln a) <> y_flux y /\ a_sel (a_ln a) <> y_flux y') ->
  (forall f, vle E b' f = true -> vle E b f = true) -> forall i, detected p' i -> detected p i.
Proof.
  intros N U K FF PB N' U' K' FF' PB' AP LE i D'.
  set (G := fun q => own E y q \/ y_ssel y = Some q).
  assert (GA : forall a, In a (w_auxs (y_w y)) -> G (a_sel (a_ln a))) by (intros a I; left; now apply own_all).
  assert (GE : forall q, G q -> nth_error (w_sels (y_w y)) q = nth_error (w_sels (y_w y')) q) by (intros q [O|Q]; [now apply (own_same E y y' B)|now apply SS]).
  assert (NF : ~ G (y_flux y)). { intros [(a & I & Q)|Q]; [now apply (proj1 (AP a I))|]. apply SA in Q. now destruct Q as (_ & Q & _). }
  assert (NF' : ~ G (y_flux y')). { intros [(a & I & Q)|Q]; [now apply (proj2 (AP a I))|]. rewrite (proj1 SS) in Q. apply SA' in Q. now destruct Q as (_ & Q & _). }
  destruct (survey_steps _ _ _ _ _ _ _ _ _ _ _ H) as (t & S). destruct (survey_steps _ _ _ _ _ _ _ _ _ _ _ H') as (t' & S').
  assert (AL : alike E fs y y'). { right. intros a a' X X'. assert (a = s) by congruence. assert (a' = s') by congruence. subst. now rewrite K, K'. }
  destruct (flux_step E prog fuel rl fs l10 ns norm y y' z z' p p' t t' S S' B G GA GE AL) as [_ Q].
  assert (Q2 := fsel_same E prog fuel rl fs l10 ns norm y y' z z' p p' t t' S S' G Q NF NF' (hard_still _ _ _ _ _ _ _ _ _ _ _ _ _ N U K FF PB _ S) (hard_still _ _ _ _ _ _ _ _ _ _ _ _ _ N' U' K' FF' PB' _ S')).
  assert (OB := the_same_fluxes E prog fuel rl fs l10 ns norm y y' z z' p p' H H' B AL). assert (OJ := the_same_objects E prog fuel rl fs l10 ns norm y y' z z' p p' H H' B).
  assert (I' : i < p_nobj p'). { rewrite <- (sel_length _ _ _ _ _ _ _ _ _ _ _ H'). apply nth_error_Some. unfold detected in D'. congruence. }
  assert (I : i < p_nobj p) by (rewrite (so_n OJ); exact I').
  apply (SurveyTop.selected_iff _ _ _ _ _ _ _ _ _ _ _ H' (distinct_same E y y' B DN) SA' i I') in D'. destruct D' as (D1 & D2 & D3).
  apply (SurveyTop.selected_iff _ _ _ _ _ _ _ _ _ _ _ H DN SA i I). split; [|split].
  - destruct (hard_mask _ _ _ _ _ _ _ _ _ _ _ _ _ H N U K FF PB SA) as (m & MA & L & MI). destruct (hard_mask _ _ _ _ _ _ _ _ _ _ _ _ _ H' N' U' K' FF' PB' SA') as (m' & MA' & L' & MI').
    destruct D1 as (m2 & MA2 & A). assert (m2 = m') by (destruct MA2 as (? & ? & ?), MA' as (? & ? & ?); congruence). subst m2.
    exists m. split; [exact MA|]. apply SurveyProofs.accepts_full; [lia|]. apply SurveyProofs.accepts_full in A; [|lia].
    destruct (nth_error (sv_obs (p_flux p)) i) as [f|] eqn:F; [|apply nth_error_None in F; rewrite (obs_length _ _ _ _ _ _ _ _ _ _ _ H) in F; lia].
    apply (MI i f F). apply LE. apply (MI' i f); [congruence|exact A].
  - intros k KK. destruct (D2 k) as (m & X); [rewrite <- (proj1 SS); exact KK|]. apply (mask_same E (y_w z') (y_w z)); [|now exists m].
    symmetry. exact (spatial_same E prog fuel rl fs l10 ns norm y y' z z' p p' t t' S S' B G GA GE Q2 (proj1 SS) (fun k0 X => or_intror X) SA SA' k KK).
  - intros j a P A. apply (passes_same E (y_w z')); [symmetry; exact (sampler_same E prog fuel rl fs l10 ns norm y y' z z' p p' t t' S S' B G GA Q2 SA SA' j a P A)|].
    apply D3 with j; [now apply (part_same E y y' B)|now apply (at_same E y y' B)].
Qed.

Theorem distance_selection_irrelevant : same_flux_selection y y' -> pa_sel (p_args p) = pa_sel (p_args p') /\ sv_obs (p_flux p) = sv_obs (p_flux p').
Proof.
  intros [YF SF].
  set (G := fun q => own E y q \/ y_ssel y = Some q \/ q = y_flux y).
  assert (GA : forall a, In a (w_auxs (y_w y)) -> G (a_sel (a_ln a))) by (intros a I; left; now apply own_all).
  assert (GE : forall q, G q -> nth_error (w_sels (y_w y)) q = nth_error (w_sels (y_w y')) q) by (intros q [O|[Q| ->]]; [now apply (own_same E y y' B)|now apply SS|congruence]).
  destruct (survey_steps _ _ _ _ _ _ _ _ _ _ _ H) as (t & S). destruct (survey_steps _ _ _ _ _ _ _ _ _ _ _ H') as (t' & S').
  assert (AL : alike E fs y y'). { right. intros a a' X X'. rewrite SF, X' in X. now injection X as ->. }
  destruct (flux_step E prog fuel rl fs l10 ns norm y y' z z' p p' t t' S S' B G GA GE AL) as [FO Q].
  assert (Q2 := fsel_equal E prog fuel rl fs l10 ns norm y y' z z' p p' t t' S S' B G GA GE Q FO YF (or_intror (or_intror eq_refl))).
  assert (OJ := the_same_objects E prog fuel rl fs l10 ns norm y y' z z' p p' H H' B).
  split; [|exact (the_same_fluxes E prog fuel rl fs l10 ns norm y y' z z' p p' H H' B AL)].
  assert (FM : nth_error (w_sels (y_w z)) (y_flux y) = nth_error (w_sels (y_w z')) (y_flux y)).
  { rewrite (SurveyFinal.sels_final _ _ _ _ _ _ _ _ _ _ _ _ S), (SurveyFinal.sels_final _ _ _ _ _ _ _ _ _ _ _ _ S').
    - apply (wr_sels _ _ _ _ (yr_w _ _ _ _ Q2)). right. now right.
    - intros X. apply SA' in X. rewrite YF in X. now destruct X as (_ & X & _).
    - rewrite YF. destruct SA' as (_ & X & _). auto.
    - intros X. apply SA in X. now destruct X as (_ & X & _).
    - destruct SA as (_ & X & _). auto. }
  assert (SP := spatial_same E prog fuel rl fs l10 ns norm y y' z z' p p' t t' S S' B G GA GE Q2 (proj1 SS) (fun k0 X => or_intror (or_introl X)) SA SA').
  assert (SM := sampler_same E prog fuel rl fs l10 ns norm y y' z z' p p' t t' S S' B G GA Q2 SA SA').
  apply bools.
  - rewrite (sel_length _ _ _ _ _ _ _ _ _ _ _ H), (sel_length _ _ _ _ _ _ _ _ _ _ _ H'). apply (so_n OJ).
  - rewrite (sel_length _ _ _ _ _ _ _ _ _ _ _ H). intros i I.
    rewrite (SurveyTop.selected_iff _ _ _ _ _ _ _ _ _ _ _ H DN SA i I), (SurveyTop.selected_iff _ _ _ _ _ _ _ _ _ _ _ H' (distinct_same E y y' B DN) SA' i ltac:(rewrite <- (so_n OJ); exact I)).
    rewrite <- YF, <- (proj1 SS). split; intros (D1 & D2 & D3); (split; [|split]).
    + now apply (mask_same E (y_w z)).
    + intros k X. apply (mask_same E (y_w z)); [now apply SP|now apply D2].
    + intros j a P A. apply (part_same E y y' B) in P. apply (at_same E y y' B) in A. apply (passes_same E (y_w z)); [now apply (SM j)|now apply (D3 j)].
    + now apply (mask_same E (y_w z')).
    + intros k X. apply (mask_same E (y_w z')); [symmetry; now apply SP|now apply D2].
    + intros j a P A. apply (passes_same E (y_w z')); [symmetry; now apply (SM j)|]. apply (D3 j); [now apply (part_same E y y' B)|now apply (at_same E y y' B)].
Qed.
End Two.
