(** Surveys with flux and spatial selections return (C77). *)
From Verif Require Import Base BaseFacts Keeps Env ParamModel SelModel SimVarModel DistModel DistSpec DistProofs AuxModel AuxSpec AuxProofs PopModel SynthModel SynthSpec RunSpec FlatSpec ChosenSpec SurveyRuns FlatRuns.
From Verif Require SurveyProofs SurveyFinal SynthFrame.
Import ListNotations.
Open Scope nat_scope.
Open Scope list_scope.

Section P.
Variable E : env.
Notation V := (V E).
Notation synth := (synth E).
Notation selector := (selector E).
Notation one := (vofnat E 1).
Notation zero := (vofnat E 0).
Variables (prog : bool) (fuel rl : nat) (fs : option V) (l10 norm : bool) (n : nat) (y : synth) (l : ldist E).

Lemma and_left m : np_logical_and (repeat true (length m)) m = Ok m.
Proof.
  unfold np_logical_and, bcast2. rewrite repeat_length, Nat.eqb_refl. f_equal. induction m; cbn; [reflexivity|]. now rewrite IHm.
Qed.
Lemma and_ok a b : length a = length b -> exists m, np_logical_and a b = Ok m /\ length m = length a.
Proof. intros L. unfold np_logical_and. destruct (bcast_ok _ _ _ andb a b L) as (c & H & Q). eauto. Qed.
Lemma select_done (s s' : selector) g g' m : s_sampled s = false -> sel_draw prog n (s, g) = (Ok tt, (s', g')) -> s_mask s' = Some m ->
  sel_select prog n (s, g) = (Ok tt, (with_sampled s' true, g')).
Proof. intros U H Q. unfold sel_select, here, bind, gets. cbn [fst]. rewrite U, H. cbn [fst]. rewrite Q. reflexivity. Qed.
Lemma draw_kind (s s' : selector) g g' u k : sel_draw prog k (s, g) = (u, (s', g')) -> s_kind s' = s_kind s.
Proof. intros H. assert (K := SynthFrame.sel_draw_keeps E prog k (s, g)). rewrite H in K. unfold SynthFrame.Rsel, SynthFrame.sel_static in K. cbn in K. now injection K. Qed.
Lemma attrs_mask mk (q : list (string * (list V * list V))) : length mk = n -> Forall (good_quantity E n) q ->
  exists v, rmapM (fun kv => rmap (pair (fst kv)) (aux_attr E mk (fst kv) (snd kv))) q = Ok v.
Proof.
  intros LK. induction 1 as [|[k [t o]] q (U & L1 & L2) F (v & IH)]; [eexists; reflexivity|]. cbn [rmapM fst snd] in *.
  unfold usable_name in U. rewrite !in_app_iff in U.
  assert (X : aux_attr E mk k (t, o) = Ok (SimVar o t (MB mk) DFloat)).
  { unfold aux_attr. cbn [fst snd]. rewrite fvar_ok by congruence. cbn [rbind]. rewrite !mem_out by tauto. reflexivity. }
  rewrite X. cbn [rmap rbind]. rewrite IH. cbn [rbind]. eauto.
Qed.
Lemma flux_step fluxes (z : synth) s : nth_error (w_sels (y_w z)) (y_flux z) = Some s -> length fluxes = n -> errors_possible E fs ->
  exists fobs sg z', survey_flux fs l10 n fluxes z = (Ok (fobs, sg), z') /\ length fobs = n /\ exists g, z' = with_w z (w_set_gens (g, w_n (y_w z)) (y_w z)).
Proof.
  intros S L EP. unfold survey_flux. rewrite bind_get. 
  erewrite bind_ok; [|unfold in_w, get_sel; rewrite S; reflexivity].
  destruct (is_unity (s_kind s)).
  - exists fluxes. eexists _, _. split; [reflexivity|]. split; [exact L|]. exists (w_g (y_w z)). destruct z as [[] ? ? ? ? ? ? ? ? ? ? ? ? ? ? ? ?]; reflexivity.
  - destruct fs as [sg|]; [|exists fluxes; eexists _, _; split; [reflexivity|]; split; [exact L|]; exists (w_g (y_w z)); destruct z as [[] ? ? ? ? ? ? ? ? ? ? ? ? ? ? ? ?]; reflexivity].
    destruct (EP sg eq_refl) as [E1 E2]. rewrite E1.
    destruct (rdraws (r_norm E zero sg) n (w_g (y_w z))) as [es g'] eqn:D.
    assert (LE : length es = n) by (assert (X := rdraws_length (r_norm E zero sg) n (w_g (y_w z))); rewrite D in X; exact X).
    erewrite bind_ok; [|unfold in_g; cbn [y_w with_w]; rewrite D; reflexivity].
    destruct (bcast_ok _ _ _ (vadd E) (map (if l10 then vlog10 E else vln E) fluxes) es) as (lg & B & LB); [rewrite map_length; congruence|]. rewrite map_length in LB.
    erewrite bind_lift; [|exact B]. erewrite bind_lift; [|rewrite (proj2 (forallb_forall (vfinite E) lg) (fun x _ => E2 x)); reflexivity].
    eexists _, _, _. split; [reflexivity|]. split; [rewrite map_length; congruence|]. exists g'. destruct z as [[] ? ? ? ? ? ? ? ? ? ? ? ? ? ? ? ?]; reflexivity.
Qed.

Theorem selective_returns d1 g1 : selective y n -> errors_possible E fs -> 0 < rl -> y_lum y = Some l -> draws_luminosities l n ->
  wf_par E (sc_params (sd_cls (y_sp y))) (sd_par (y_sp y)) -> places (sd_cls (y_sp y)) n ->
  draw_distance prog fuel n norm (y_sp y, r_seed E (y_seed y)) = (Ok tt, (d1, g1)) ->
  exists p y', draw_survey prog fuel rl fs l10 (Some n) norm y = (Ok p, y') /\ p_nobj p = n /\ length (pa_known (p_args p)) = p_ndet p.
Proof.
  intros (FS & NDI & ND & SP & NE & (sf & SF & UF & DF) & (sd & SD & KD & UD) & SS) EP RL YL (vals & pvals & VA & VP & DR) W SK H.
  destruct (draw_distance_ok _ _ _ _ _ _ _ _ _ W H) as (rs & ps & o & DW & -> & SR & WO).
  destruct DW as (rm & dv & uv & ig & ys & ym & RM & _ & _ & _ & _ & _ & AM & PS).
  assert (LR := accept_many_len E _ _ _ _ _ _ _ _ AM). assert (LP := rmapM_length _ _ PS). rewrite LR in LP.
  destruct y as [[g0 n0 sels auxs log] sp spm lum lumm seed nm nmod spaces aux der fi fset di dset ss gr].
  pr. subst der lum. destruct rl as [|rl0]; [lia|].
  match goal with |- exists p y', ?m = _ /\ _ => destruct m as [r y'] eqn:Q end.
  unfold draw_survey, survey_size in Q. rewrite bind_get in Q.
  erewrite bind_ok in Q; [|unfold modify, bind, ret; reflexivity]. pr.
  erewrite bind_ok in Q; [|unfold in_sp; pr; rewrite H; reflexivity]. rewrite bind_get in Q.
  destruct (inplace_ok _ _ (vmul E) (repeat one n) ps) as (p0 & P0 & L0); [now rewrite repeat_length|]. rewrite repeat_length in L0.
  erewrite bind_ok in Q; [|unfold times, lift; pr; cbn [of_opt rbind]; rewrite P0; reflexivity].
  destruct (sky_step E (with_prob (with_dist (with_spar sp o) rs) ps) n rs g1 SK eq_refl LR) as (rs2 & th & ph & g2 & SKY & LR2 & LT & LPH).
  erewrite bind_ok in Q; [|unfold in_sp; pr; rewrite SKY; reflexivity]. pr.
  erewrite bind_ok in Q; [|unfold get_sp; rewrite bind_get; unfold lift, spatial_values; pr; reflexivity]. pr.
  (* luminosities *)
  destruct (DR g2) as (ls & g3 & DL & LL & PL).
  destruct (preads_succeeds _ _ _ _ _ VA) as (o1 & R1). destruct (preads_ok _ _ _ _ _ _ R1) as [_ S1].
  assert (VP1 : values E (lc_params (ld_cls l)) o1 (lc_preads (ld_cls l)) pvals) by (eapply values_same; [exact S1|exact VP]).
  destruct (preads_succeeds _ _ _ _ _ VP1) as (o2 & R2).
  assert (QS : exists qs, rmapM (lc_phi (ld_cls l) pvals) ls = Ok qs).
  { clear - PL. induction ls as [|x ls IH]; [eexists; reflexivity|]. cbn [rmapM]. destruct (PL x (or_introl eq_refl)) as (q & ->).
    destruct IH as (qs & ->); [intros; apply PL; now right|]. cbn. eauto. }
  destruct QS as (qs & QS). assert (LQ := rmapM_length _ _ QS). rewrite LL in LQ.
  destruct (inplace_ok _ _ (vmul E) p0 qs) as (p1 & P1 & L1); [congruence|].
  erewrite bind_ok in Q.
  2:{ unfold survey_lum. rewrite bind_get. pr.
    erewrite bind_ok; [|unfold in_lum; pr; unfold draw_luminosity, bind, gets, in_lpar; pr; rewrite R1; pr; rewrite DL; pr; reflexivity].
    erewrite bind_ok; [|unfold in_lum; pr; unfold compute_probability, bind, gets, in_lpar; pr; rewrite R2; pr; unfold lift; rewrite QS; unfold modify; pr; reflexivity].
    rewrite bind_get. erewrite bind_lift; [|pr; reflexivity]. erewrite bind_ok; [|unfold times, lift; pr; cbn [of_opt rbind]; rewrite P1; reflexivity]. pr. reflexivity. }
  pr.
  erewrite bind_ok in Q; [|unfold in_sp, cls, gets; pr; reflexivity]. pr.
  destruct (bcast_ok _ _ _ (sc_transform (sd_cls sp)) ls rs2) as (fl & FL & LF); [congruence|]. rewrite LL in LF.
  erewrite bind_lift in Q; [|exact FL]. rewrite bind_get in Q. pr.
  match type of Q with bind (foldM (survey_aux prog (S rl0) n ls) ?acc aux) _ ?z = _ =>
    destruct (aux_fold E prog rl0 n (SpVals E rs2 th ph) ls aux z acc) as (acc' & w' & RA & GA & KA & XF & XD & WA & XS) end;
    [reflexivity|exact NDI| |constructor|].
  { intros k i I. destruct (FS k i I) as ((a & s & H1) & _). exists a, s. exact H1. }
  assert (WR : forall k i, In (k, i) aux -> wired E w' fi di i).
  { intros k i I. apply WA. destruct (FS k i I) as ((a & s & A1 & A2 & A3 & A4 & A5 & A6 & A7 & A8 & _) & _). exists a, s. auto 10. }
  erewrite bind_ok in Q; [|exact RA]. destruct acc' as [t2 st2]. cbn [snd] in GA. clear RA WA. destruct w' as [g4 n4 sels' auxs' log']. pr.
  rewrite SF in XF. rewrite SD in XD.
  assert (SS' : forall k, ss = Some k -> k <> fi /\ k <> di /\ exists s, nth_error sels' k = Some s /\ decides_places s n).
  { intros k K. destruct (SS k K) as (Z1 & Z2 & s & Z3 & Z4). split; [exact Z1|]. split; [exact Z2|]. exists s. split; [|exact Z4]. rewrite XS; [exact Z3|].
    intros k0 i a I A EQ. destruct (FS k0 i I) as [_ F]. apply (F a A). congruence. }
  clear SS XS. clear KA FS. rename sels into sels0. rename sels' into sels. rename XF into SF'. rename XD into SD'. clear SF SD. rename SF' into SF. rename SD' into SD.
  match type of Q with bind (survey_flux fs l10 n fl) _ ?z = _ => destruct (flux_step fl z sf SF LF EP) as (fobs & sgm & z' & FX & LO & g5 & ->) end.
  erewrite bind_ok in Q; [|exact FX]. clear FX.
  pr. set (sf1 := set_observed_flux sf fobs) in *. set (sels1 := lset sels fi sf1).
  assert (SF1 : nth_error sels1 fi = Some sf1) by (apply nth_lset_eq, nth_error_Some; congruence).
  assert (SD1 : nth_error sels1 di = Some sd) by (unfold sels1; rewrite nth_lset_neq; auto).
  erewrite bind_ok in Q; [|unfold in_w, upd_sel, put_sel, modify, bind, get_sel; pr; rewrite SF; pr; reflexivity]. pr. fold sf1 sels1 in Q.
  destruct (DF prog fobs g5 LO) as (sfd & g6 & mf & DRF & MF & LMF). fold sf1 in DRF.
  set (sf2 := with_sampled sfd true). set (sels2 := lset sels1 fi sf2).
  assert (SF2 : nth_error sels2 fi = Some sf2) by (apply nth_lset_eq, nth_error_Some; congruence).
  assert (SD2 : nth_error sels2 di = Some sd) by (unfold sels2; rewrite nth_lset_neq; auto).
  assert (KF : s_kind sf2 = s_kind sf) by (unfold sf2; cbn [s_kind with_sampled]; rewrite (draw_kind _ _ _ _ _ _ DRF); reflexivity).
  erewrite bind_ok in Q; [|unfold in_w, on_sel, bind, get_sel; pr; rewrite SF1; pr; erewrite select_done by eassumption; reflexivity]. pr. fold sf2 sels2 in Q.
  erewrite bind_ok in Q.
  2:{ match goal with |- foldM _ _ _ ?z = _ => assert (UN : forall kv, In kv st2 -> exists s, nth_error (w_sels (y_w z)) (c_sel (snd kv)) = Some s /\ s_kind s = KUnity E) end.
      { intros kv I. destruct (proj1 (Forall_forall _ _) GA kv I) as (_ & tx & ox & s & _ & _ & _ & _ & S & KS). pr.
        unfold sels2, sels1. destruct (Nat.eq_dec (c_sel (snd kv)) fi) as [EQ|EQ].
        - rewrite EQ. exists sf2. split; [exact SF2|]. rewrite EQ in S. rewrite KF. congruence.
        - exists s. rewrite !nth_lset_neq by auto. auto. }
      apply unity_fold. exact UN. }
  pr.
  erewrite bind_lift in Q; [|unfold sel_add; cbn [sel_selection s_mask all_selected with_sampled with_mask of_opt rbind]; rewrite and_true; reflexivity].
  erewrite bind_ok in Q; [|unfold in_w, get_sel; pr; rewrite SF2; pr; reflexivity].
  assert (AL : np_logical_and (repeat true n) mf = Ok mf) by (rewrite <- LMF; apply and_left).
  erewrite bind_lift in Q; [|unfold sel_add, sel_selection; cbn [s_mask sf2 with_sampled with_mask]; rewrite MF; cbn [of_opt rbind s_mask with_mask]; rewrite AL; reflexivity].
  (* the spatial selection *)
  match type of Q with bind ?stp _ ?z = _ =>
    assert (SPS : exists mk sels3 g7, stp z = (Ok (with_mask (dummy E) (Some mk)), with_w z (w_set_gens (g7, w_n (y_w z)) (w_set_sels sels3 (y_w z)))) /\ length mk = n /\
      nth_error sels3 di = Some sd /\ (forall k, nth_error sels2 k <> None -> nth_error sels3 k <> None) /\ (forall k, ss = Some k -> nth_error sels3 k <> None)) end.
  { destruct ss as [k|]; [|exists mf, sels2, g6; split; [reflexivity|]; split; [exact LMF|]; split; [exact SD2|]; split; [auto|discriminate]].
    destruct (SS' k eq_refl) as (K1 & K2 & s & Y1 & Y2 & Y3 & Y4).
    assert (Y1p : nth_error sels2 k = Some s) by (unfold sels2, sels1; rewrite !nth_lset_neq by auto; exact Y1).
    destruct (set_spatial_distribution s (SpVals E rs2 th ph)) as [s0|] eqn:SET; [|unfold set_spatial_distribution in SET; rewrite Y3 in SET; discriminate].
    destruct (Y4 prog (SpVals E rs2 th ph) s0 g6 LR2 LT LPH SET) as (s' & g7 & m7 & D7 & M7 & L7).
    destruct (and_ok mf m7) as (mk & AK & LK); [congruence|].
    assert (U0 : s_sampled s0 = false). { unfold set_spatial_distribution in SET. rewrite Y3 in SET. injection SET as <-. exact Y2. }
    exists mk, (lset (lset sels2 k s0) k (with_sampled s' true)), g7. split; [|split; [congruence|]; split; [rewrite !nth_lset_neq by auto; exact SD2|]; split].
    - erewrite bind_ok; [|unfold get_sp; rewrite bind_get; unfold lift, spatial_values; pr; reflexivity]. pr.
      erewrite bind_ok; [|unfold in_w, get_sel; pr; rewrite Y1p; pr; reflexivity].
      erewrite bind_lift; [|exact SET].
      erewrite bind_ok; [|unfold in_w, put_sel, modify; pr; reflexivity]. pr.
      assert (N0 : nth_error (lset sels2 k s0) k = Some s0) by (apply nth_lset_eq, nth_error_Some; congruence).
      erewrite bind_ok; [|unfold in_w, on_sel, bind, get_sel; pr; rewrite N0; pr; erewrite select_done by eassumption; reflexivity]. pr.
      assert (N1 : nth_error (lset (lset sels2 k s0) k (with_sampled s' true)) k = Some (with_sampled s' true)) by (apply nth_lset_eq, nth_error_Some; congruence).
      erewrite bind_ok; [|unfold in_w, get_sel; pr; rewrite N1; pr; reflexivity].
      unfold lift, sel_add, sel_selection. cbn [s_mask with_sampled with_mask]. rewrite M7. cbn [of_opt rbind]. rewrite AK. reflexivity.
    - intros q NQ. destruct (Nat.eq_dec q k) as [->|NK]; [rewrite nth_lset_eq; [discriminate|]; apply nth_error_Some; rewrite nth_lset_eq; [discriminate|]; apply nth_error_Some; congruence|].
      rewrite !nth_lset_neq by auto. exact NQ.
    - intros q EQ. injection EQ as <-. rewrite nth_lset_eq; [discriminate|]. apply nth_error_Some. rewrite nth_lset_eq; [discriminate|]. apply nth_error_Some. congruence. }
  destruct SPS as (mk & sels3 & g7 & SPS & LMK & SD3 & KP & KS). erewrite bind_ok in Q; [|exact SPS]. clear SPS. pr.
  erewrite bind_lift in Q; [|unfold n_selected, sel_mask; cbn [s_mask with_mask of_opt rmap]; reflexivity].
  set (sd2 := with_sampled (with_mask sd (Some (repeat true (count mk)))) true). set (sels4 := lset sels3 di sd2).
  assert (SD4 : nth_error sels4 di = Some sd2) by (apply nth_lset_eq, nth_error_Some; congruence).
  erewrite bind_ok in Q; [|unfold in_w, on_sel, bind, get_sel; pr; rewrite SD3; pr; rewrite select_unity by assumption; reflexivity]. pr. fold sd2 sels4 in Q.
  erewrite bind_ok in Q; [|unfold in_w, get_sel; pr; rewrite SD4; pr; reflexivity].
  erewrite bind_lift in Q; [|unfold sel_selection; cbn [s_mask with_mask]; pr; reflexivity].
  erewrite bind_lift in Q; [|unfold sel_selection; cbn [s_mask with_mask with_sampled sd2]; pr; reflexivity].
  assert (NM : np_mask rs2 mk = Ok (mselect rs2 mk)) by (unfold np_mask; rewrite LR2, LMK, Nat.eqb_refl; reflexivity).
  assert (LM : length (mselect rs2 mk) = count mk) by (apply mselect_length; congruence).
  erewrite bind_lift in Q; [|exact NM]. erewrite bind_lift in Q; [|apply select_all; exact LM].
  assert (KN : forall s : synth, (if Nat.ltb 0 (count mk) then match mselect rs2 mk with [] => raise ValueError | _ => ret tt end else ret tt) s = (Ok tt, s)).
  { intros s. destruct (Nat.ltb 0 (count mk)) eqn:LN; [|reflexivity]. apply Nat.ltb_lt in LN. destruct (mselect rs2 mk); [cbn in LM; lia|reflexivity]. }
  erewrite bind_ok in Q; [|apply KN].
  set (d2 := with_sky (with_dist (with_prob (with_dist (with_spar sp o) rs) ps) rs2) th ph) in *.
  destruct (rd_rmax_fwd _ d2 g7 rm) as (o3 & RX & _); [cbn; rewrite <- (SR "r_max"%string); exact RM|].
  erewrite bind_ok in Q; [|unfold in_sp; pr; rewrite RX; reflexivity]. pr.
  assert (WF : forall z : synth, y_der z = None -> y_lum z <> None -> y_aux z = aux -> w_auxs (y_w z) = auxs' -> exists gg, read_graph (S rl0) z = (Ok gg, with_graph z gg)).
  { intros z Z1 Z2 Z3 Z4. apply (read_graph_ok E); [exact Z1|exact Z2|]. rewrite Z3, Z4. intros k i I.
    destruct (WR k i I) as (a & s & A1 & A2 & A3 & _). exists a. auto. }
  match type of Q with context [bind (read_graph (S rl0)) _ ?z] => destruct (WF z) as (gg & RG); [reflexivity|discriminate|reflexivity|reflexivity|] end.
  erewrite bind_ok in Q; [|exact RG]. clear RG WF.
  rewrite bind_get in Q. pr. erewrite bind_lift in Q; [|reflexivity]. erewrite bind_lift in Q; [|reflexivity].
  match type of Q with context [to_dict (S rl0) ?z] => destruct (to_dict_ok E (S rl0) z) as (cf & CF) end; pr; try reflexivity; try exact I.
  { unfold sels4. rewrite nth_lset_neq by auto. apply KP. congruence. }
  { congruence. }
  { destruct ss as [k|]; [|exact I]. destruct (SS' k eq_refl) as (_ & K2 & _). unfold sels4. rewrite nth_lset_neq by auto. now apply KS. }
  { intros k i I. destruct (WR k i I) as (a & s & A1 & A2 & A3 & A4 & A5 & A6 & A7). cbn [w_sels] in A4.
    assert (N4 : nth_error sels4 (a_sel (a_ln a)) <> None).
    { unfold sels4. rewrite nth_lset_neq by auto. apply KP. unfold sels2, sels1. rewrite !nth_lset_neq by auto. congruence. }
    destruct (nth_error sels4 (a_sel (a_ln a))) as [s4|] eqn:N5; [|easy]. exists a, s4. auto. }
  erewrite bind_lift in Q; [|exact CF]. destruct (quantities_ok E n _ st2 GA) as (qs2 & QQ & QN). erewrite bind_lift in Q; [|exact QQ].
  unfold lift, pop_new in Q. cbn [pa_lum pa_sel pa_dist pa_theta pa_phi pa_known pa_uidx pa_fobs pa_flux pa_prob pa_aux pa_spaces pa_nmodel] in Q.
  rewrite !fvar_ok in Q by congruence. cbn [rbind rmap] in Q.
  rewrite not_true, where_false, LM in Q. cbn [length] in Q. rewrite Nat.add_0_r, Nat.eqb_refl in Q. cbn [rassert rbind] in Q.
  destruct (attrs_mask mk qs2 LMK QN) as (av & AV).
 rewrite AV in Q. cbn [rbind] in Q.
  destruct (spaces_ok _ _ _ SP) as (u & SU). rewrite SU in Q. cbn [rbind] in Q. injection Q as <- <-.
  eexists _, _. split; [reflexivity|]. cbn [p_nobj p_args p_ndet pa_known]. split; [exact LMK|exact LM].
Qed.
End P.
