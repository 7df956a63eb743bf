(** A survey without auxiliary samplers and with the default selections returns. *)
From Verif Require Import Base BaseFacts Keeps Env ParamModel SelModel SimVarModel DistModel DistSpec DistProofs AuxModel AuxSpec AuxProofs PopModel SynthModel SynthSpec RunSpec.
From Verif Require SurveyProofs SurveyFinal.
Import ListNotations.
Open Scope nat_scope.
Open Scope list_scope.

Section Steps.
Variables (S A B : Type).
Lemma bind_get (k : S -> M S B) s : bind get k s = k s s. Proof. reflexivity. Qed.
Lemma bind_lift (r : res A) a (k : A -> M S B) s : r = Ok a -> bind (lift r) k s = k a s. Proof. intros ->. reflexivity. Qed.
End Steps.

Ltac pr := cbn [y_w y_sp y_spm y_lum y_lumm y_seed y_name y_nmodel y_spaces y_aux y_der y_flux y_fluxset y_dsel y_dset y_ssel y_graph
  with_w with_spd with_lumd with_graph w_g w_n w_sels w_auxs w_log w_set_gens w_set_sels fst snd sd_cls sd_par sd_dist sd_prob sd_theta sd_phi sd_name
  with_spar with_dist with_prob with_sky ld_cls ld_par ld_name ld_prob sv_dist sv_theta sv_phi of_opt] in *.

Section P.
Variable E : env.
Notation V := (V E).
Notation Rst := (Rst E).
Notation synth := (synth E).
Notation selector := (selector E).
Notation one := (vofnat E 1).
Notation zero := (vofnat E 0).

Lemma count_true n : count (repeat true n) = n.
Proof. induction n; cbn; [reflexivity|]. now rewrite <- IHn at 2. Qed.
Lemma and_true n : np_logical_and (repeat true n) (repeat true n) = Ok (repeat true n).
Proof.
  unfold np_logical_and, bcast2. rewrite Nat.eqb_refl. f_equal. induction n; cbn; [reflexivity|]. now rewrite IHn.
Qed.
Lemma select_unity prog n (s : selector) g : s_kind s = KUnity E -> s_sampled s = false ->
  sel_select prog n (s, g) = (Ok tt, (with_sampled (with_mask s (Some (repeat true n))) true, g)).
Proof. intros K U. unfold sel_select, here, bind, gets. cbn [fst]. rewrite U. unfold sel_draw, here, bind, gets. cbn [fst]. rewrite K. reflexivity. Qed.
Lemma select_all n (l : list V) : length l = n -> np_mask l (repeat true n) = Ok l.
Proof.
  intros <-. unfold np_mask. rewrite repeat_length, Nat.eqb_refl. f_equal. induction l; cbn; [reflexivity|]. now f_equal.
Qed.
Lemma not_true n : mnot (repeat true n) = repeat false n.
Proof. unfold mnot. induction n; cbn; [reflexivity|]. now f_equal. Qed.
Lemma where_false n : np_where (repeat false n) = [].
Proof. rewrite <- length_zero_iff_nil, np_where_length. induction n; cbn; auto. Qed.

Lemma theta_lengths n g t ph g' : @sample_theta_phi E n g = (t, ph, g') -> length t = n /\ length ph = n.
Proof.
  unfold sample_theta_phi. destruct (rdraws (r_unif E zero one) n g) as [us g1] eqn:D1. destruct (rdraws (r_unif E zero (vtwopi E)) n g1) as [ps g2] eqn:D2.
  intros [= <- <- <-]. rewrite map_length.
  split; [assert (L := rdraws_length (r_unif E zero one) n g)|assert (L := rdraws_length (r_unif E zero (vtwopi E)) n g1)]; rewrite ?D1, ?D2 in L; exact L.
Qed.
Lemma sky_step (d : sdist E) n rs g : places (sd_cls d) n -> sd_dist d = Some rs -> length rs = n ->
  exists rs2 th ph g', draw_sky_positions n (d, g) = (Ok tt, (with_sky (with_dist d rs2) th ph, g')) /\ length rs2 = n /\ length th = n /\ length ph = n.
Proof.
  intros PL D L. unfold draw_sky_positions, places in *. cbn [fst snd]. destruct (sc_sky (sd_cls d)) as [f|].
  - rewrite D. destruct (PL rs g L) as ([rs2 th ph] & g' & -> & L1 & L2 & L3). cbn [sv_dist sv_theta sv_phi] in *. exists rs2, th, ph, g'. auto.
  - destruct (@sample_theta_phi E n g) as [[th ph] g2] eqn:TP. destruct (theta_lengths _ _ _ _ _ TP) as [LT LPH]. exists rs, th, ph, g2.
    split; [|auto]. unfold with_dist. rewrite <- D. destruct d. reflexivity.
Qed.
Lemma fvar_ok (o l : list V) sel : length o = length sel -> length l = length sel -> @fvar E o l sel = Ok (SimVar o l (MB sel) DFloat).
Proof. intros L1 L2. unfold fvar, sv_new. cbn [mask_len]. rewrite L1, L2, !Nat.eqb_refl. reflexivity. Qed.
Lemma bcast_ok A B C (f : A -> B -> C) a b : length a = length b -> exists c, bcast2 f a b = Ok c /\ length c = length a.
Proof. intros L. unfold bcast2. rewrite L, Nat.eqb_refl. eexists. split; [reflexivity|]. rewrite map_length, combine_length. lia. Qed.
Lemma inplace_ok A B (f : A -> B -> A) a b : length a = length b -> exists c, bcast2_inplace f a b = Ok c /\ length c = length a.
Proof. intros L. unfold bcast2_inplace. rewrite L, Nat.eqb_refl. eexists. split; [reflexivity|]. rewrite map_length, combine_length. lia. Qed.
Lemma accept_many_len (f : V -> res V) fuel ymax rm size g rs g' : accept_many E fuel f ymax rm size g = (Ok rs, g') -> length rs = size.
Proof.
  unfold accept_many. revert g rs g'. induction size as [|n IH]; intros g rs g' H; cbn [repeatM] in H; [unfold ret in H; now injection H as <- _|].
  apply bind_inv_ok in H. destruct H as (x & g1 & _ & H). apply bind_inv_ok in H. destruct H as (xs & g2 & H1 & H2). unfold ret in H2. injection H2 as <- _.
  cbn. f_equal. eapply IH. exact H1.
Qed.
Lemma spaces_ok A (l : dict (list A)) n : Forall (fun kv => length (snd kv) = n) l -> exists u, rmapM (fun kv : string * list A => rassert (Nat.eqb (length (snd kv)) n)) l = Ok u.
Proof.
  induction 1 as [|kv l K F (u & IH)]; [eexists; reflexivity|]. cbn [rmapM]. rewrite K, Nat.eqb_refl. cbn. rewrite IH. cbn. eauto.
Qed.

Variables (prog : bool) (fuel rl : nat) (fs : option V) (l10 norm : bool) (n : nat) (y : synth) (l : ldist E).

Theorem plain_returns d1 g1 : plain y -> y_lum y = Some l -> draws_luminosities l n ->
  wf_par E (sc_params (sd_cls (y_sp y))) (sd_par (y_sp y)) -> places (sd_cls (y_sp y)) n ->
  draw_distance prog fuel n norm (y_sp y, r_seed E (y_seed y)) = (Ok tt, (d1, g1)) ->
  exists p y', draw_survey prog fuel rl fs l10 (Some n) norm y = (Ok p, y') /\ p_nobj p = n /\ all_detected p.
Proof.
  intros (NA & ND & (NS & NE & SE) & SP) YL (vals & pvals & VA & VP & DR) W SK H.
  destruct (draw_distance_ok _ _ _ _ _ _ _ _ _ W H) as (rs & ps & o & DW & -> & SR & WO).
  destruct DW as (rm & dv & uv & ig & ys & ym & RM & _ & _ & _ & _ & _ & AM & PS).
  assert (LR := accept_many_len _ _ _ _ _ _ _ _ AM). assert (LP := rmapM_length _ _ PS). rewrite LR in LP.
  destruct (SE _ (or_introl eq_refl)) as (sf & SF & KF & UF). destruct (SE _ (or_intror eq_refl)) as (sd & SD & KD & UD).
  destruct y as [[g0 n0 sels auxs log] sp spm lum lumm seed nm nmod spaces aux der fi fset di dset ss gr].
  pr. subst aux der ss lum.
  match goal with |- exists p y', ?m = _ /\ _ => destruct m as [r y'] eqn:Q end.
  unfold draw_survey, survey_size in Q. rewrite bind_get in Q.
  erewrite bind_ok in Q; [|unfold modify, bind, ret; reflexivity]. pr.
  erewrite bind_ok in Q; [|unfold in_sp; pr; rewrite H; reflexivity]. rewrite bind_get in Q.
  destruct (inplace_ok _ _ (vmul E) (repeat one n) ps) as (p0 & P0 & L0); [now rewrite repeat_length|]. rewrite repeat_length in L0.
  erewrite bind_ok in Q; [|unfold times, lift; pr; cbn [of_opt rbind]; rewrite P0; reflexivity].
  destruct (sky_step (with_prob (with_dist (with_spar sp o) rs) ps) n rs g1 SK eq_refl LR) as (rs2 & th & ph & g2 & SKY & LR2 & LT & LPH).
  erewrite bind_ok in Q; [|unfold in_sp; pr; rewrite SKY; reflexivity]. pr.
  erewrite bind_ok in Q; [|unfold get_sp; rewrite bind_get; unfold lift, spatial_values; pr; reflexivity]. pr.
  (* luminosities *)
  destruct (DR g2) as (ls & g3 & DL & LL & PL).
  destruct (preads_succeeds _ _ _ _ _ VA) as (o1 & R1). destruct (preads_ok _ _ _ _ _ _ R1) as [_ S1].
  assert (VP1 : values E (lc_params (ld_cls l)) o1 (lc_preads (ld_cls l)) pvals) by (eapply values_same; [exact S1|exact VP]).
  destruct (preads_succeeds _ _ _ _ _ VP1) as (o2 & R2).
  assert (QS : exists qs, rmapM (lc_phi (ld_cls l) pvals) ls = Ok qs).
  { clear - PL. induction ls as [|x ls IH]; [eexists; reflexivity|]. cbn [rmapM]. destruct (PL x (or_introl eq_refl)) as (q & ->).
    destruct IH as (qs & ->); [intros; apply PL; now right|]. cbn. eauto. }
  destruct QS as (qs & QS). assert (LQ := rmapM_length _ _ QS). rewrite LL in LQ.
  destruct (inplace_ok _ _ (vmul E) p0 qs) as (p1 & P1 & L1); [congruence|].
  erewrite bind_ok in Q.
  2:{ unfold survey_lum. rewrite bind_get. pr.
    erewrite bind_ok; [|unfold in_lum; pr; unfold draw_luminosity, bind, gets, in_lpar; pr; rewrite R1; pr; rewrite DL; pr; reflexivity].
    erewrite bind_ok; [|unfold in_lum; pr; unfold compute_probability, bind, gets, in_lpar; pr; rewrite R2; pr; unfold lift; rewrite QS; unfold modify; pr; reflexivity].
    rewrite bind_get. erewrite bind_lift; [|pr; reflexivity]. erewrite bind_ok; [|unfold times, lift; pr; cbn [of_opt rbind]; rewrite P1; reflexivity]. pr. reflexivity. }
  pr.
  erewrite bind_ok in Q; [|unfold in_sp, cls, gets; pr; reflexivity]. pr.
  destruct (bcast_ok _ _ _ (sc_transform (sd_cls sp)) ls rs2) as (fl & FL & LF); [congruence|]. rewrite LL in LF.
  erewrite bind_lift in Q; [|exact FL]. rewrite bind_get in Q. pr.
  erewrite bind_ok in Q; [|cbn [foldM]; unfold ret; reflexivity]. pr.
  erewrite bind_ok in Q.
  2:{ unfold survey_flux. rewrite bind_get. pr. erewrite bind_ok; [|unfold in_w, get_sel; pr; rewrite SF; pr; reflexivity]. rewrite KF. cbn [is_unity]. unfold ret. reflexivity. }
  pr. set (sf1 := set_observed_flux sf fl) in *. set (sels1 := lset sels fi sf1).
  assert (SF1 : nth_error sels1 fi = Some sf1) by (apply nth_lset_eq, nth_error_Some; congruence).
  assert (SD1 : nth_error sels1 di = Some sd) by (unfold sels1; rewrite nth_lset_neq; auto).
  erewrite bind_ok in Q; [|unfold in_w, upd_sel, put_sel, modify, bind, get_sel; pr; rewrite SF; pr; reflexivity]. pr. fold sf1 sels1 in Q.
  set (sf2 := with_sampled (with_mask sf1 (Some (repeat true n))) true). set (sels2 := lset sels1 fi sf2).
  assert (SF2 : nth_error sels2 fi = Some sf2) by (apply nth_lset_eq, nth_error_Some; congruence).
  assert (SD2 : nth_error sels2 di = Some sd) by (unfold sels2; rewrite nth_lset_neq; auto).
  erewrite bind_ok in Q; [|unfold in_w, on_sel, bind, get_sel; pr; rewrite SF1; pr; rewrite select_unity by assumption; reflexivity]. pr. fold sf2 sels2 in Q.
  erewrite bind_ok in Q; [|cbn [foldM]; unfold ret; reflexivity]. pr.
  erewrite bind_lift in Q; [|unfold sel_add; cbn [sel_selection s_mask all_selected with_sampled with_mask of_opt rbind]; rewrite and_true; reflexivity].
  erewrite bind_ok in Q; [|unfold in_w, get_sel; pr; rewrite SF2; pr; reflexivity].
  erewrite bind_lift in Q; [|unfold sel_add; cbn [sel_selection s_mask sf2 with_sampled with_mask of_opt rbind dummy new_selector]; rewrite and_true; reflexivity].
  erewrite bind_ok in Q; [|unfold ret; reflexivity].
  erewrite bind_lift in Q; [|unfold n_selected, sel_mask; cbn [s_mask with_mask of_opt rmap]; rewrite count_true; reflexivity].
  set (sd2 := with_sampled (with_mask sd (Some (repeat true n))) true). set (sels3 := lset sels2 di sd2).
  assert (SD3 : nth_error sels3 di = Some sd2) by (apply nth_lset_eq, nth_error_Some; congruence).
  erewrite bind_ok in Q; [|unfold in_w, on_sel, bind, get_sel; pr; rewrite SD2; pr; rewrite select_unity by assumption; reflexivity]. pr. fold sd2 sels3 in Q.
  erewrite bind_ok in Q; [|unfold in_w, get_sel; pr; rewrite SD3; pr; reflexivity].
  erewrite bind_lift in Q; [|unfold sel_selection; cbn [s_mask with_mask]; pr; reflexivity].
  erewrite bind_lift in Q; [|unfold sel_selection; cbn [s_mask with_mask with_sampled sd2]; pr; reflexivity].
  erewrite bind_lift in Q; [|apply select_all; exact LR2]. erewrite bind_lift in Q; [|apply select_all; exact LR2].
  assert (KN : forall s : synth, (if Nat.ltb 0 n then match rs2 with [] => raise ValueError | _ => ret tt end else ret tt) s = (Ok tt, s)).
  { intros s. destruct (Nat.ltb 0 n) eqn:LN; [|reflexivity]. apply Nat.ltb_lt in LN. destruct rs2; [cbn in LR2; lia|reflexivity]. }
  erewrite bind_ok in Q; [|apply KN].
  set (d2 := with_sky (with_dist (with_prob (with_dist (with_spar sp o) rs) ps) rs2) th ph) in *.
  destruct (rd_rmax_fwd _ d2 g3 rm) as (o3 & RX & _); [cbn; rewrite <- (SR "r_max"%string); exact RM|].
  erewrite bind_ok in Q; [|unfold in_sp; pr; rewrite RX; reflexivity]. pr.
  erewrite bind_ok in Q; [|unfold read_graph; pr; unfold build_graph, bind, gnode, gedge, modify; cbn [option_map iterM ret]; unfold ret; cbn [rmap]; reflexivity].
  rewrite bind_get in Q. pr. erewrite bind_lift in Q; [|reflexivity]. erewrite bind_lift in Q; [|reflexivity].
  assert (TD : forall z : synth, nth_error (w_sels (y_w z)) (y_flux z) <> None -> nth_error (w_sels (y_w z)) (y_dsel z) <> None -> y_ssel z = None -> y_aux z = [] -> y_der z = None ->
    exists c, to_dict rl z = Ok c).
  { intros z Z1 Z2 Z3 Z4 Z5. unfold to_dict, selection_entry. rewrite Z3, Z4, Z5. destruct (nth_error (w_sels (y_w z)) (y_flux z)); [|easy].
    destruct (nth_error (w_sels (y_w z)) (y_dsel z)); [|easy]. destruct (y_fluxset z), (y_dset z); cbn; eauto. }
  match type of Q with context [to_dict rl ?z] => destruct (TD z) as (cf & CF) end; pr; try reflexivity.
  { unfold sels3. rewrite nth_lset_neq by auto. congruence. }
  { congruence. }
  erewrite bind_lift in Q; [|exact CF]. erewrite bind_lift in Q; [|reflexivity].
  unfold lift, pop_new in Q. cbn [pa_lum pa_sel pa_dist pa_theta pa_phi pa_known pa_uidx pa_fobs pa_flux pa_prob pa_aux pa_spaces pa_nmodel] in Q.
  rewrite !fvar_ok in Q by (rewrite repeat_length; congruence). cbn [rbind rmap] in Q.
  rewrite not_true, where_false, count_true, LR2 in Q. cbn [length] in Q. rewrite Nat.add_0_r, Nat.eqb_refl in Q. cbn [rassert rbind rmapM] in Q.
  destruct (spaces_ok _ _ _ SP) as (u & SU). rewrite SU in Q. cbn [rbind] in Q. injection Q as <- <-.
  eexists _, _. split; [reflexivity|]. cbn. rewrite repeat_length. split; [reflexivity|]. split; [reflexivity|]. split; [cbn; lia|]. split; reflexivity.
Qed.
End P.
