(** The population after a survey: probabilities (C60), sampler values (C61),
    luminosities (C31) and truths (C34). *)
From Verif Require Import Base BaseFacts Keeps Env ParamModel SelModel SelSpec SelProofs SimVarModel DistModel DistSpec DistProofs
  AuxModel AuxSpec AuxProofs AuxProps AuxMore Tree PopModel SynthModel SynthSpec SynthFrame SynthInv SurveyProofs SurveyTree SurveyLoop SurveyKeep SurveyFinal SurveyEnd.
Open Scope nat_scope.
Open Scope list_scope.

Section P.
Variable E : env.
Notation V := (V E).
Notation Rst := (Rst E).
Notation selector := (selector E).
Notation sampler := (sampler E).
Notation world := (world E).
Notation synth := (synth E).
Notation one := (vofnat E 1).
Notation zero := (vofnat E 0).
Notation population := (population E).
Notation storage := (storage E).

Lemma sky_inv (d : sdist E) n g u d' g' : draw_sky_positions (E := E) n (d, g) = (Ok u, (d', g')) ->
  sd_cls d' = sd_cls d /\ sd_par d' = sd_par d /\ sd_prob d' = sd_prob d /\ sd_name d' = sd_name d /\
  (sc_sky (sd_cls d) = None -> sd_dist d' = sd_dist d).
Proof.
  unfold draw_sky_positions. cbn [fst snd]. destruct (sc_sky (sd_cls d)) as [f|].
  - destruct (sd_dist d); [|discriminate]. destruct (f _ _ _) as [[s|e] g1]; [|discriminate]. intros H. injection H as _ <- _. repeat (split; [reflexivity|]). discriminate.
  - destruct (sample_theta_phi _ n g) as [[t p] g1]. intros H. injection H as _ <- _. repeat (split; [reflexivity|]). reflexivity.
Qed.
Lemma in_sp_inv A (m : DM E A) (y : synth) r y1 : in_sp m y = (r, y1) ->
  exists d g, m (y_sp y, w_g (y_w y)) = (r, (d, g)) /\ y_sp y1 = d /\ y_lum y1 = y_lum y /\ w_g (y_w y1) = g.
Proof.
  unfold in_sp. destruct (m (y_sp y, w_g (y_w y))) as [r0 [d g]]. intros H. injection H as -> <-. exists d, g. auto.
Qed.
Lemma in_lum_inv A (m : LM E A) (y : synth) r y1 l : y_lum y = Some l -> in_lum m y = (r, y1) ->
  exists d g, m (l, w_g (y_w y)) = (r, (d, g)) /\ y_lum y1 = Some d /\ y_sp y1 = y_sp y.
Proof.
  unfold in_lum. intros ->. destruct (m (l, w_g (y_w y))) as [r0 [d g]]. intros H. injection H as -> <-. exists d, g. auto.
Qed.

(** The luminosity distribution as the source of luminosities. *)
Lemma lum_source prog rl n prob tr0 (y : synth) lum p1 tr st y2 : y_der y = None ->
  survey_lum prog rl n prob tr0 y = (Ok (lum, p1, tr, st), y2) ->
  exists l l' q vals g g' dvals, y_lum y = Some l /\ y_lum y2 = Some l' /\ ld_name l' = ld_name l /\ ld_cls l' = ld_cls l /\
    same_reads E (lc_params (ld_cls l)) (ld_par l) (ld_par l') /\
    values E (lc_params (ld_cls l)) (ld_par l) (lc_dreads (ld_cls l)) dvals /\
    lc_draw (ld_cls l) dvals n g = (Ok lum, g') /\
    values E (lc_params (ld_cls l)) (ld_par l) (lc_preads (ld_cls l)) vals /\
    rmapM (lc_phi (ld_cls l) vals) lum = Ok q /\ ld_prob l' = Some q /\
    bcast2_inplace (vmul E) prob q = Ok p1 /\ tr = dset tr0 (ld_name l) (truth (ld_par l')) /\ st = [] /\ y_sp y2 = y_sp y.
Proof.
  intros DE H. unfold survey_lum in H. apply bind_inv_ok in H. destruct H as (y0 & z & G & H). unfold get in G. injection G as <- <-.
  rewrite DE in H. destruct (y_lum y) as [l|] eqn:YL; [|discriminate].
  apply bind_inv_ok in H. destruct H as (x1 & z1 & L1 & H). apply bind_inv_ok in H. destruct H as (x2 & z2 & L2 & H).
  apply bind_inv_ok in H. destruct H as (x3 & z3 & G3 & H). unfold get in G3. injection G3 as <- <-.
  apply bind_inv_ok in H. destruct H as (x4 & z4 & L4 & H). apply lift_inv in L4. destruct L4 as [L4 ->]. apply of_opt_inv in L4.
  apply bind_inv_ok in H. destruct H as (x5 & z5 & L5 & H). apply times_inv in L5. destruct L5 as (-> & q & Q & PQ).
  unfold ret in H. injection H as <- <- <- <- <-.
  apply (in_lum_inv _ _ _ _ _ _ YL) in L1. destruct L1 as (d1 & g1 & L1 & Y1 & S1).
  apply (in_lum_inv _ _ _ _ _ _ Y1) in L2. destruct L2 as (d2 & g2 & L2 & Y2 & S2).
  assert (d2 = x4) by congruence. subst x4.
  unfold draw_luminosity in L1. apply bind_inv_ok in L1. destruct L1 as (c & s1 & C & L1). unfold gets in C. injection C as <- <-. cbn [fst] in L1.
  apply bind_inv_ok in L1. destruct L1 as (dvals & (da & ga) & R1 & L1). unfold in_lpar in R1. cbn [fst snd] in R1.
  destruct (preads E (lc_params (ld_cls l)) (lc_dreads (ld_cls l)) (ld_par l)) as [r0 o0] eqn:P0. injection R1 as -> <- <-.
  apply preads_ok in P0. destruct P0 as [V0 SR0]. cbn [fst snd] in L1.
  destruct (lc_draw (ld_cls l) dvals n (w_g (y_w y))) as [r1 gx] eqn:DR. injection L1 as -> <- <-.
  unfold compute_probability in L2. apply bind_inv_ok in L2. destruct L2 as (c & s1 & C & L2). unfold gets in C. injection C as <- <-. cbn [fst ld_cls] in L2.
  apply bind_inv_ok in L2. destruct L2 as (vals & (db & gb) & R2 & L2). unfold in_lpar in R2. cbn [fst snd ld_par ld_cls ld_name ld_prob] in R2.
  destruct (preads E (lc_params (ld_cls l)) (lc_preads (ld_cls l)) o0) as [r2 o2] eqn:P2. injection R2 as -> <- <-.
  apply preads_ok in P2. destruct P2 as [V2 SR2].
  apply bind_inv_ok in L2. destruct L2 as (ps & s3 & RM & L2). apply lift_inv in RM. destruct RM as [RM ->].
  unfold modify in L2. injection L2 as <- <-. cbn [ld_cls ld_name ld_par ld_prob fst snd] in *. injection Q as <-.
  eexists l, _, ps, vals, _, gx, dvals. split; [reflexivity|]. split; [exact Y2|]. cbn [ld_cls ld_name ld_par ld_prob].
  split; [easy|]. split; [easy|]. split; [eapply same_trans; eauto|]. split; [easy|]. split; [exact DR|].
  split; [eapply values_same; [apply same_sym; exact SR0|easy]|]. split; [easy|]. split; [easy|]. split; [easy|]. split; [easy|].
  split; [easy|]. congruence.
Qed.

(** ** C30 *)
Definition norm_value (o : pobj V) : Prop := forall k, po_norm o = Some k -> dget (po_store o) k <> Some None.
Lemma reads_ok (d : sdist E) g r d' g' rm db gb : wf_par E (sc_params (sd_cls d)) (sd_par d) ->
  @rd_rmax E (d, g) = (Ok rm, (db, gb)) -> @rd_dens E (db, gb) = (Ok r, (d', g')) ->
  exists o, d' = with_spar d o /\ same_reads E (sc_params (sd_cls d)) (sd_par d) o /\ wf_par E (sc_params (sd_cls d)) o.
Proof.
  intros W H1 H2. apply rd_rmax_inv in H1. destruct H1 as (ob & H1 & -> & ->).
  apply rd_dens_inv in H2. destruct H2 as (oc & H2 & -> & ->). rewrite cls_with_spar, sd_with_spar in H2.
  exists oc. split; [reflexivity|]. apply snd_eq in H1. assert (SB := pread_same E (sc_params (sd_cls d)) "r_max" (sd_par d)).
  assert (WB := wf_pread E (sc_params (sd_cls d)) "r_max" (sd_par d) W). rewrite H1 in SB, WB.
  assert (WC := wf_preads E (sc_params (sd_cls d)) (sc_reads (sd_cls d)) ob WB). rewrite H2 in WC.
  apply preads_ok in H2. destruct H2 as [_ H2]. split; [eapply same_trans; eauto|exact WC].
Qed.
Lemma size_ok ns (norm : bool) (y : synth) n y1 : wf_par E (sc_params (sd_cls (y_sp y))) (sd_par (y_sp y)) ->
  (norm = true -> ns = None -> norm_value (sd_par (y_sp y))) ->
  survey_size ns norm y = (Ok n, y1) ->
  exists o, y_sp y1 = with_spar (y_sp y) o /\ same_reads E (sc_params (sd_cls (y_sp y))) (sd_par (y_sp y)) o /\ wf_par E (sc_params (sd_cls (y_sp y))) o.
Proof.
  intros W NV H. unfold survey_size in H. apply bind_inv_ok in H. destruct H as ([] & z & H1 & H). unfold modify in H1. injection H1 as <-.
  destruct ns as [k|].
  { unfold ret in H. injection H as _ <-. exists (sd_par (y_sp y)). cbn. split; [now destruct (y_sp y)|]. split; [apply same_refl|easy]. }
  apply bind_inv_ok in H. destruct H as (r & z & H1 & H). apply (sd_ok _ _ _ _ _ _ (in_g_sd _ _ _)) in H. destruct H as [-> _].
  apply in_sp_inv in H1. destruct H1 as (d & g & H & -> & _). cbn [y_sp y_w w_g with_w w_set_gens fst] in H.
  apply bind_inv_ok in H. destruct H as (c & s0 & H0 & H). unfold cls, gets in H0. injection H0 as <- <-. cbn [fst] in H.
  destruct norm.
  - apply bind_inv_ok in H. destruct H as (old & (da & ga) & HA1 & H). apply norm_to_one_inv in HA1. destruct HA1 as [-> HA1].
    apply bind_inv_ok in H. destruct H as (rm & (db & gb) & HA2 & H).
    apply bind_inv_ok in H. destruct H as (vals & (dc & gc) & HA3 & H).
    apply bind_inv_ok in H. destruct H as (i0 & (dd & gd) & HA4 & H). apply lift_inv in HA4. destruct HA4 as [_ Q]. injection Q as -> ->.
    apply bind_inv_ok in H. destruct H as ([] & (de & ge) & HA5 & H).
    apply bind_inv_ok in H. destruct H as (rm2 & (df & gf) & HA6 & H).
    apply bind_inv_ok in H. destruct H as (vals2 & (dg & gg) & HA7 & H). apply lift_inv in H. destruct H as [_ Q]. injection Q as -> ->.
    set (pc := sc_params (sd_cls (y_sp y))) in *.
    assert (X : exists o, de = with_spar (y_sp y) o /\ same_reads E pc (sd_par (y_sp y)) o /\ wf_par E pc o).
    { destruct HA1 as [(N & -> & ->)|(kn & v & N & Hv & -> & ->)].
      - unfold ret in HA5. injection HA5 as <- <-. eapply reads_ok; eauto.
      - destruct v as [v|]; [|exfalso; now apply (NV eq_refl eq_refl kn)].
        unfold in_par, modify in HA5. injection HA5 as <- <-.
        apply rd_rmax_inv in HA2. destruct HA2 as (ob & HA2 & -> & ->).
        apply rd_dens_inv in HA3. destruct HA3 as (oc & HA3 & -> & ->). rewrite ?cls_with_spar, ?sd_with_spar in *. fold pc in HA2, HA3.
        set (oa := norm_set (Some one) (sd_par (y_sp y))) in *.
        assert (WA : wf_par E pc oa) by (now apply wf_norm_set).
        assert (NB : po_norm ob = po_norm oa) by (rewrite <- (snd_eq _ _ _ HA2); now apply rmax_norm).
        assert (SB : same_reads E pc oa ob) by (rewrite <- (snd_eq _ _ _ HA2); apply pread_same).
        assert (WB : wf_par E pc ob) by (rewrite <- (snd_eq _ _ _ HA2); now apply wf_pread).
        assert (NA : po_norm oa = Some kn) by (unfold oa; now rewrite norm_set_norm).
        assert (NC : po_norm oc = Some kn).
        { destruct (preads_norm E pc (sc_reads (sd_cls (y_sp y))) ob WB) as [K _]. rewrite HA3 in K. apply K. congruence. }
        exists (norm_set (Some v) oc). split; [reflexivity|].
        destruct (unit_phase E pc (sc_reads (sd_cls (y_sp y))) (sd_par (y_sp y)) oa (Some (Some v)) W) with (o2 := ob) (o3 := oc) (vals := vals) (o4 := norm_set (Some v) oc) as (_ & U2 & U3); auto.
        + right. exists kn, (Some v). auto.
        + right. exists kn, (Some v). auto. }
    destruct X as (o & -> & SO & WO).
    destruct (reads_ok (with_spar (y_sp y) o) _ _ _ _ _ _ _ WO HA6 HA7) as (o2 & -> & SO2 & WO2). rewrite ?cls_with_spar, ?sd_with_spar in *.
    exists o2. split; [reflexivity|]. split; [eapply same_trans; eauto|easy].
  - apply bind_inv_ok in H. destruct H as (rm & (db & gb) & HA2 & H).
    apply bind_inv_ok in H. destruct H as (vals & (dc & gc) & HA3 & H). apply lift_inv in H. destruct H as [_ Q]. injection Q as -> ->.
    eapply reads_ok; eauto.
Qed.

Lemma drawn_same c (o o' : pobj V) pr fu n nm g g' rs ps : same_reads E (sc_params c) o o' ->
  drawn (E := E) c o pr fu n nm g g' rs ps -> drawn (E := E) c o' pr fu n nm g g' rs ps.
Proof.
  intros SR (rm & vals & uvals & i & ys & ym & D1 & D2 & D3 & D4 & D5). exists rm, vals, uvals, i, ys, ym.
  split; [now rewrite <- (SR "r_max")|]. split; [eapply values_same; eauto|]. split; [|easy].
  clear - SR D3. induction D3 as [|k v ks vs H F IH]; constructor; [|exact IH].
  unfold unit_reading in *. destruct (dget (sc_params c) k) as [d|]; [|easy]. destruct (pd_norm d); [easy|]. now rewrite <- (SR k).
Qed.

Section Step.
Variables (prog : bool) (fuel rl : nat) (fs : option V) (l10 : bool) (ns : option nat) (norm : bool) (y : synth) (p : population) (y' : synth) (t : trace E).
Hypothesis S : steps E prog fuel rl fs l10 ns norm y p y' t.

(** ** Distributions after the luminosities *)
Lemma tail_dists : same_dists E (tr_lumd E t) (tr_dsel E t).
Proof.
  assert (X := sdt E).
  assert (A1 : same_dists E (tr_lumd E t) (tr_auxd E t)).
  { eapply sd_ok; [|exact (sp_aux _ _ _ _ _ _ _ _ _ _ _ _ S)]. apply (keeps_fold (sdr E) (sdt E)). intros. apply survey_aux_sd. }
  assert (A2 := sd_ok _ _ _ _ _ _ (survey_flux_sd _ _ _ _ _) (sp_fobs _ _ _ _ _ _ _ _ _ _ _ _ S)).
  destruct (sp_fsel _ _ _ _ _ _ _ _ _ _ _ _ S) as (y1 & H1 & H2).
  assert (A3 := sd_ok _ _ _ _ _ _ (in_w_sd _ _ _) H1). assert (A4 := sd_ok _ _ _ _ _ _ (in_w_sd _ _ _) H2).
  assert (A5 := sd_ok _ _ _ _ _ _ (spatial_step_sd _ _ _ _ _) (sp_s3 _ _ _ _ _ _ _ _ _ _ _ _ S)).
  assert (A6 := sd_ok _ _ _ _ _ _ (in_w_sd _ _ _) (sp_dsel _ _ _ _ _ _ _ _ _ _ _ _ S)).
  eauto 8.
Qed.
Lemma fsel_dists : same_dists E (tr_lumd E t) (tr_fsel E t).
Proof.
  assert (X := sdt E).
  assert (A1 : same_dists E (tr_lumd E t) (tr_auxd E t)).
  { eapply sd_ok; [|exact (sp_aux _ _ _ _ _ _ _ _ _ _ _ _ S)]. apply (keeps_fold (sdr E) (sdt E)). intros. apply survey_aux_sd. }
  assert (A2 := sd_ok _ _ _ _ _ _ (survey_flux_sd _ _ _ _ _) (sp_fobs _ _ _ _ _ _ _ _ _ _ _ _ S)).
  destruct (sp_fsel _ _ _ _ _ _ _ _ _ _ _ _ S) as (y1 & H1 & H2).
  assert (A3 := sd_ok _ _ _ _ _ _ (in_w_sd _ _ _) H1). assert (A4 := sd_ok _ _ _ _ _ _ (in_w_sd _ _ _) H2).
  eauto 8.
Qed.
Lemma end_dists : exists o, y_sp y' = with_spar (y_sp (tr_lumd E t)) o /\
  same_reads E (sc_params (sd_cls (y_sp (tr_lumd E t)))) (sd_par (y_sp (tr_lumd E t))) o /\ y_lum y' = y_lum (tr_lumd E t).
Proof.
  destruct tail_dists as [A B]. assert (C := sd_ok _ _ _ _ _ _ (read_graph_sd _ _) (sp_g _ _ _ _ _ _ _ _ _ _ _ _ S)). destruct C as [C1 C2].
  assert (H := sp_rm _ _ _ _ _ _ _ _ _ _ _ _ S). apply in_sp_inv in H. destruct H as (d & g & H & H1 & H2 & _).
  apply rd_rmax_inv in H. destruct H as (o & PR & -> & _). exists o. rewrite C1, H1, C2, H2, A, B. split; [easy|]. split; [|easy].
  assert (X := pread_same _ (sc_params (sd_cls (y_sp (tr_dsel E t)))) "r_max" (sd_par (y_sp (tr_dsel E t)))). rewrite PR, A in X. exact X.
Qed.
Lemma lumd_dists : y_sp (tr_lumd E t) = y_sp (tr_sky E t) /\ (y_der y <> None -> y_lum (tr_lumd E t) = y_lum (tr_sky E t)).
Proof.
  assert (H1 := sp_lum _ _ _ _ _ _ _ _ _ _ _ _ S). assert (DE := sky_der _ _ _ _ _ _ _ _ _ _ _ _ S).
  destruct (y_der y) as [i|] eqn:D.
  - destruct (survey_lum_der _ _ _ _ _ _ _ _ _ _ _ _ _ DE H1) as (_ & T). rewrite (dt_y _ _ _ _ _ _ _ _ _ _ _ T). auto.
  - apply (lum_source _ _ _ _ _ _ _ _ _ _ _ DE) in H1. destruct H1 as (l & l' & q & vals & g & g' & dv & H). split; [|easy]. apply H.
Qed.
Lemma sky_dists : y_lum (tr_sky E t) = y_lum y /\ sd_prob (y_sp (tr_sky E t)) = sd_prob (y_sp (tr_dists E t)) /\
  (sc_sky (sd_cls (y_sp y)) = None -> sd_dist (y_sp (tr_sky E t)) = sd_dist (y_sp (tr_dists E t))).
Proof.
  assert (H1 : y_lum (tr_sized E t) = y_lum y).
  { assert (H := sp_size _ _ _ _ _ _ _ _ _ _ _ _ S). unfold survey_size in H. apply bind_inv_ok in H. destruct H as ([] & z & H1 & H).
    unfold modify in H1. injection H1 as <-. destruct ns.
    - unfold ret in H. injection H as _ <-. reflexivity.
    - apply bind_inv_ok in H. destruct H as (r & z & H1 & H). apply in_sp_inv in H1. destruct H1 as (d & g & _ & _ & L & _).
      assert (Q := sd_ok _ _ _ _ _ _ (in_g_sd _ _ _) H). destruct Q as [_ Q]. cbn in Q, L. congruence. }
  assert (H := sp_dist _ _ _ _ _ _ _ _ _ _ _ _ S). apply in_sp_inv in H. destruct H as (d & g & H & H2 & H3 & _).
  assert (G := sp_sky _ _ _ _ _ _ _ _ _ _ _ _ S). apply in_sp_inv in G. destruct G as (d' & g' & G & G2 & G3 & _).
  apply sky_inv in G. destruct G as (G4 & G5 & G6 & _ & G7). rewrite G2. split; [congruence|]. split; [easy|].
  intros N. apply G7. assert (F := frame_ok _ _ _ _ _ _ (survey_size_keeps _ _ _) (sp_size _ _ _ _ _ _ _ _ _ _ _ _ S)).
  assert (F2 := frame_ok _ _ _ _ _ _ (in_sp_keeps _ _ _ (draw_distance_keeps _ _ _ _ _)) (sp_dist _ _ _ _ _ _ _ _ _ _ _ _ S)).
  apply conf_eq in F, F2. unfold conf_static in F, F2. assert (Q : sd_cls (y_sp (tr_dists E t)) = sd_cls (y_sp y)) by congruence. now rewrite Q.
Qed.
Lemma end_prob : exists q, sd_prob (y_sp y') = Some q /\ bcast2_inplace (vmul E) (repeat one (tr_n E t)) q = Ok (tr_p0 E t).
Proof.
  destruct (sp_p0 _ _ _ _ _ _ _ _ _ _ _ _ S) as (q & Q1 & Q2). exists q. split; [|easy].
  destruct end_dists as (o & -> & _). cbn. destruct lumd_dists as [-> _]. destruct sky_dists as (_ & -> & _). exact Q1.
Qed.
Lemma end_lum_unused : y_der y <> None -> y_lum y' = y_lum y.
Proof.
  intros N. destruct end_dists as (o & _ & _ & ->). rewrite (proj2 lumd_dists) by easy. apply sky_dists.
Qed.

(** The distances of the population are those stored in the distribution. *)
Lemma end_positions : sd_dist (y_sp y') = Some (pa_dist (p_args p)) /\ sd_theta (y_sp y') = Some (pa_theta (p_args p)) /\
  sd_phi (y_sp y') = Some (pa_phi (p_args p)) /\ tr_sp E t = SpVals E (pa_dist (p_args p)) (pa_theta (p_args p)) (pa_phi (p_args p)).
Proof.
  destruct (steps_built _ _ _ _ _ _ _ _ _ _ _ _ S) as (ar & B & Hs & Hk & Hki & Hui & Hl & Hd & Hf & Hfo & Hsg & Hp & Ht & Ha & Hth & Hph).
  rewrite (bu_args _ _ _ B), Hd, Hth, Hph. assert (H := sp_sp _ _ _ _ _ _ _ _ _ _ _ _ S).
  assert (T := sp_th _ _ _ _ _ _ _ _ _ _ _ _ S). assert (P := sp_ph _ _ _ _ _ _ _ _ _ _ _ _ S).
  destruct end_dists as (o & Q & _). rewrite Q in *. cbn [sd_dist sd_theta sd_phi with_spar] in *. rewrite (proj1 lumd_dists) in *.
  unfold spatial_values in H. destruct (sd_dist (y_sp (tr_sky E t))) as [d|]; [|discriminate].
  rewrite T, P in H. cbn in H. injection H as H. rewrite <- H. cbn. auto.
Qed.

Lemma fsel_frame : yframe E y (tr_fsel E t).
Proof.
  assert (K1 := static_yframe _ _ _ _ _ _ _ _ _ _ _ _ S).
  assert (K2 := frame_ok _ _ _ _ _ _ (survey_flux_keeps _ _ _ _ _) (sp_fobs _ _ _ _ _ _ _ _ _ _ _ _ S)).
  destruct (sp_fsel _ _ _ _ _ _ _ _ _ _ _ _ S) as (y1 & H1 & H2).
  assert (K3 : yframe E (tr_fluxd E t) y1). { eapply frame_ok; [|exact H1]. apply in_w_keeps, upd_sel_keeps. reflexivity. }
  assert (K4 : yframe E y1 (tr_fsel E t)). { eapply frame_ok; [|exact H2]. apply in_w_keeps, on_sel_keeps, sel_select_keeps. }
  eauto using yframe_trans.
Qed.
Lemma unity_static k : (exists s, nth_error (w_sels (y_w (tr_fsel E t))) k = Some s /\ is_unity (s_kind s) = false) <->
                       (exists s, nth_error (w_sels (y_w y)) k = Some s /\ is_unity (s_kind s) = false).
Proof.
  destruct fsel_frame as [[_ M] _].
  assert (X : option_map (sel_static E) (nth_error (w_sels (y_w (tr_fsel E t))) k) = option_map (sel_static E) (nth_error (w_sels (y_w y)) k)).
  { rewrite <- !nth_error_map. now rewrite M. }
  split; intros (s & N & U); rewrite N in X; cbn in X.
  - destruct (nth_error (w_sels (y_w y)) k) as [s0|]; [|discriminate]. exists s0. split; [easy|].
    injection X as X. unfold sel_static in X. congruence.
  - destruct (nth_error (w_sels (y_w (tr_fsel E t))) k) as [s0|]; [|discriminate]. exists s0. split; [easy|].
    injection X as X. unfold sel_static in X. congruence.
Qed.

(** ** C30, and the distances and their density *)
Lemma spatial_from : wf_par E (sc_params (sd_cls (y_sp y))) (sd_par (y_sp y)) ->
  (norm = true -> ns = None -> norm_value (sd_par (y_sp y))) ->
  sd_cls (y_sp y') = sd_cls (y_sp y) /\
  same_reads E (sc_params (sd_cls (y_sp y))) (sd_par (y_sp y)) (sd_par (y_sp y')) /\
  exists rs ps g', drawn (E := E) (sd_cls (y_sp y)) (sd_par (y_sp y)) prog fuel (p_nobj p) norm (w_g (y_w (tr_sized E t))) g' rs ps /\ sd_prob (y_sp y') = Some ps /\
    (sc_sky (sd_cls (y_sp y)) = None -> sv_lat (p_dist p) = rs).
Proof.
  intros W NV. destruct (size_ok _ _ _ _ _ W NV (sp_size _ _ _ _ _ _ _ _ _ _ _ _ S)) as (o1 & Q1 & S1 & W1).
  assert (H := sp_dist _ _ _ _ _ _ _ _ _ _ _ _ S). apply in_sp_inv in H. destruct H as (d & g' & H & Q2 & _ & _). rewrite Q1 in H.
  destruct (draw_distance_ok E prog fuel (tr_n E t) norm (with_spar (y_sp y) o1) _ _ _ W1 H) as (rs & ps & o2 & D & Q3 & S2 & W2).
  rewrite cls_with_spar, sd_with_spar in *.
  assert (G := sp_sky _ _ _ _ _ _ _ _ _ _ _ _ S). apply in_sp_inv in G. destruct G as (d3 & g3 & G & Q4 & _ & _). rewrite Q2 in G.
  apply sky_inv in G. destruct G as (G1 & G2 & G3 & G4 & G5).
  destruct end_dists as (o3 & Q5 & S3 & _). rewrite (proj1 lumd_dists), Q4 in *.
  assert (C : sd_cls d3 = sd_cls (y_sp y)) by (rewrite G1, Q3; reflexivity).
  assert (P3 : sd_par d3 = o2) by (rewrite G2, Q3; reflexivity). rewrite C, P3 in S3.
  rewrite Q5. split; [exact C|]. split; [cbn; eauto using same_trans|].
  exists rs, ps, g'. rewrite (sz_nobj (all_sized _ _ _ _ _ _ _ _ _ _ _ _ S)).
  split; [eapply drawn_same; [apply same_sym; exact S1|exact D]|].
  split; [cbn; rewrite G3, Q3; reflexivity|]. intros N.
  destruct end_positions as (EP & _). rewrite Q5 in EP. cbn in EP.
  assert (X : sd_dist d3 = Some rs). { rewrite G5; [rewrite Q3; reflexivity|]. rewrite Q3. exact N. }
  destruct (steps_built _ _ _ _ _ _ _ _ _ _ _ _ S) as (ar & B & _). rewrite (proj1 (bu_dist _ _ _ B)). cbn.
  rewrite (bu_args _ _ _ B) in EP. congruence.
Qed.
Lemma spatial_kept : wf_par E (sc_params (sd_cls (y_sp y))) (sd_par (y_sp y)) ->
  (norm = true -> ns = None -> norm_value (sd_par (y_sp y))) ->
  sd_cls (y_sp y') = sd_cls (y_sp y) /\
  same_reads E (sc_params (sd_cls (y_sp y))) (sd_par (y_sp y)) (sd_par (y_sp y')) /\
  exists rs ps g g', drawn (E := E) (sd_cls (y_sp y)) (sd_par (y_sp y)) prog fuel (p_nobj p) norm g g' rs ps /\ sd_prob (y_sp y') = Some ps /\
    (sc_sky (sd_cls (y_sp y)) = None -> sv_lat (p_dist p) = rs).
Proof.
  intros W NV. destruct (spatial_from W NV) as (H1 & H2 & rs & ps & g' & H3). eauto 10.
Qed.

(** ** C60 *)
Lemma probability_product : acyclic (y_w y) -> distinct_names y -> well_drawn E (y_w y) ->
  exists dq lq js qs q, p_prob p = Some q /\ sd_prob (y_sp y') = Some dq /\
    match y_der y with
    | Some _ => lq = []
    | None => exists l vals x, y_lum y' = Some l /\ values E (lc_params (ld_cls l)) (ld_par l) (lc_preads (ld_cls l)) vals /\
        rmapM (lc_phi (ld_cls l) vals) (sv_lat (p_lum p)) = Ok x /\ lq = [x]
    end /\
    NoDup js /\
    (forall j, In j js <-> part y j /\ exists b s, at_ (y_w y) j b /\ nth_error (w_sels (y_w y)) (a_sel (a_ln b)) = Some s /\ is_unity (s_kind s) = false) /\
    Forall2 (fun j x => exists b, at_ (y_w y') j b /\ probability_of b = Some x) js qs /\
    forall i, i < p_nobj p -> nth_error (sv_lat q) i = product_at E (Some one) (dq :: lq ++ qs) i.
Proof.
  intros AC DN WD. destruct (loop_end _ _ _ _ _ _ _ _ _ _ _ _ S AC DN WD) as (L & _). assert (HO := lp_holds _ _ _ _ _ _ _ _ _ _ L).
  destruct end_prob as (dq & DQ & P0).
  destruct (steps_built _ _ _ _ _ _ _ _ _ _ _ _ S) as (ar & B & Hs & Hk & Hki & Hui & Hl & Hd & Hf & Hfo & Hsg & Hp & Ht & Ha & _).
  assert (BP := bu_prob _ _ _ B). rewrite Hp in BP. destruct BP as (BP & _).
  assert (SZ := all_sized _ _ _ _ _ _ _ _ _ _ _ _ S). assert (BL := proj1 (bu_lum _ _ _ B)).
  assert (DE := sky_der _ _ _ _ _ _ _ _ _ _ _ _ S). assert (H1 := sp_lum _ _ _ _ _ _ _ _ _ _ _ _ S).
  assert (LQ : exists lq, match y_der y with
    | Some _ => lq = []
    | None => exists l vals x, y_lum y' = Some l /\ values E (lc_params (ld_cls l)) (ld_par l) (lc_preads (ld_cls l)) vals /\
        rmapM (lc_phi (ld_cls l) vals) (sv_lat (p_lum p)) = Ok x /\ lq = [x]
    end /\ forall i, i < tr_n E t -> exists z, nth_error (tr_p1 E t) i = Some z /\ Some z = product_at E (Some one) (dq :: lq) i).
  { assert (Z0 : forall i, i < tr_n E t -> exists z, nth_error (tr_p0 E t) i = Some z /\ Some z = product_at E (Some one) [dq] i).
    { intros i LI. assert (X : nth_error (repeat one (tr_n E t)) i = Some one) by (rewrite nth_error_repeat; destruct (Nat.ltb_spec i (tr_n E t)); [easy|lia]).
      destruct (inplace_value _ _ _ _ _ P0 i _ X) as (z & Z1 & Z2). exists (vmul E one z). split; [easy|].
      unfold product_at. cbn [fold_left]. now rewrite Z1. }
    destruct (y_der y) as [d|] eqn:D.
    - destruct (survey_lum_der _ _ _ _ _ _ _ _ _ _ _ _ _ DE H1) as (-> & _). exists []. auto.
    - apply (lum_source _ _ _ _ _ _ _ _ _ _ _ DE) in H1.
      destruct H1 as (l & l' & x & vals & g & g' & dv & Y1 & Y2 & _ & LC & SR & _ & _ & VA & RM & _ & PX & _).
      exists [x]. split.
      + exists l', vals, x. destruct end_dists as (o & _ & _ & ->). split; [easy|]. rewrite LC. split; [eapply values_same; eauto|].
        split; [|easy]. now rewrite BL, Hl.
      + intros i LI. destruct (Z0 i LI) as (z & Z1 & Z2). destruct (inplace_value _ _ _ _ _ PX i _ Z1) as (u & U1 & U2).
        exists (vmul E z u). split; [easy|]. unfold product_at in *. cbn [fold_left] in *. rewrite <- Z2, U1. reflexivity. }
  destruct LQ as (lq & LQ1 & LQ2).
  destruct (selection_product _ _ _ _ _ _ (sp_sel _ _ _ _ _ _ _ _ _ _ _ _ S)) as (js & qs & J1 & J2 & J3 & J4). cbn [fst] in J4.
  assert (ND := ho_nodup _ _ _ _ HO). specialize (J2 ND).
  (* samplers behind the entries *)
  assert (WE : same_wiring (y_w y) (y_w (tr_auxd E t))).
  { eapply wiring_trans; [apply (sky_frame _ _ _ _ _ _ _ _ _ _ _ _ S)|apply (lp_wiring _ _ _ _ _ _ _ _ _ _ L)]. }
  assert (EA := end_at _ _ _ _ _ _ _ _ _ _ _ _ S).
  assert (ORG : forall kv, In kv js -> exists j b, part y j /\ at_ (y_w y') j b /\ name_of b = fst kv /\ snd kv = container_of b).
  { intros [k c] I. apply J1 in I. destruct I as [I _]. apply (In_dget _ _ _ ND) in I. destruct (ho_from _ _ _ _ HO _ _ I) as (j & b & PJ & BA & N & C).
    exists j, b. split; [easy|]. split; [now apply EA|]. auto. }
  assert (DNE : forall j j' b b', part y j -> part y j' -> at_ (y_w y') j b -> at_ (y_w y') j' b' -> name_of b = name_of b' -> j = j').
  { intros j j' b b' PJ PJ' BA BA' N. apply EA in BA, BA'. destruct (wiring_at _ _ _ _ _ (wiring_sym _ _ _ WE) BA) as (b0 & B0 & St & _).
    destruct (wiring_at _ _ _ _ _ (wiring_sym _ _ _ WE) BA') as (b0' & B0' & St' & _).
    eapply (proj2 DN); eauto. unfold name_of in *. congruence. }
  assert (JL : forall l : list (string * container E), (forall kv, In kv l -> In kv js) -> exists js', Forall2 (fun kv j => part y j /\ exists b, at_ (y_w y') j b /\ name_of b = fst kv /\ snd kv = container_of b) l js').
  { induction l as [|kv l IH]; intros SUB; [exists []; constructor|].
    destruct IH as (js' & F); [intros; apply SUB; now right|]. destruct (ORG kv) as (j & b & PJ & BA & N & C); [apply SUB; now left|].
    exists (j :: js'). constructor; [|exact F]. split; [easy|]. exists b. auto. }
  destruct (JL js) as (js' & FJ); [auto|]. clear JL.
  (* unity of selectors is static *)
  assert (UN := unity_static).
  assert (NDJ : NoDup js').
  { clear - FJ J2. revert J2. induction FJ as [|kv j l l' (PJ & b & BA & N & C) F IH]; cbn; intros ND; [constructor|].
    apply NoDup_cons_iff in ND. destruct ND as [NI ND]. constructor; [|auto]. intros I. apply NI.
    assert (X : forall l l', Forall2 (fun kv j => part y j /\ exists b, at_ (y_w y') j b /\ name_of b = fst kv /\ snd kv = container_of b) l l' ->
      In j l' -> In (fst kv) (map fst l)).
    { clear - BA N. induction 1 as [|kv2 j2 l l' (_ & b2 & BA2 & N2 & _) F IH]; [easy|]. intros [->|I]; [left|right; auto].
      assert (b2 = b) by (eapply at_fun; eauto). congruence. }
    eapply X; eauto. }
  exists dq, lq, js', qs, (SimVar (tr_p2 E t) (tr_p2 E t) (MB (tr_mask E t)) DFloat).
  split; [now rewrite BP, Hs|]. split; [easy|]. split; [easy|]. split; [easy|]. split; [|split].
  - intros j. split.
    + intros I. assert (X : exists kv, In kv js /\ part y j /\ exists b, at_ (y_w y') j b /\ name_of b = fst kv /\ snd kv = container_of b).
      { clear - FJ I. induction FJ as [|kv j2 l l' H F IH]; [easy|]. destruct I as [->|I].
        - exists kv. split; [now left|easy].
        - destruct (IH I) as (kv2 & I2 & X). exists kv2. split; [now right|easy]. }
      destruct X as (kv & IK & PJ & b & BA & N & C). split; [easy|]. apply J1 in IK. destruct IK as (_ & s & NS & US).
      apply EA in BA. destruct (wiring_at _ _ _ _ _ (wiring_sym _ _ _ WE) BA) as (b0 & B0 & _ & LN).
      rewrite C in NS. cbn in NS. rewrite <- LN in NS. destruct (proj1 (UN (a_sel (a_ln b0)))) as (s0 & NS0 & US0); [eauto|].
      exists b0, s0. auto.
    + intros (PJ & b0 & s0 & B0 & NS0 & US0). destruct (wiring_at _ _ _ _ _ WE B0) as (b & BA & _ & LN).
      destruct (ho_all _ _ _ _ HO j b PJ BA) as (c & CG). destruct (ho_from _ _ _ _ HO _ _ CG) as (j2 & b2 & PJ2 & BA2 & N2 & C2).
      assert (j2 = j). { eapply DNE; [exact PJ2|exact PJ| | |exact N2]; now apply EA. } subst j2.
      assert (b2 = b) by (eapply at_fun; eauto). subst b2.
      assert (IK : In (name_of b, c) js).
      { apply J1. split; [now apply dget_In|]. cbn [snd]. rewrite C2. cbn. rewrite LN. apply UN. eauto. }
      clear - FJ IK PJ BA EA DNE. induction FJ as [|kv j2 l l' (PJ2 & b2 & BA2 & N2 & C2) F IH]; [easy|]. destruct IK as [->|I]; [left|right; auto].
      eapply DNE; [exact PJ2|exact PJ|exact BA2| |exact N2]. now apply EA.
  - clear - FJ J3. revert js' FJ. induction J3 as [|kv q l l' C F IH]; intros js' FJ; inversion FJ as [|? j ? js2 (PJ & b & BA & N & C2) FJ2]; subst; constructor; [|auto].
    exists b. split; [easy|]. rewrite C2 in C. exact C.
  - intros i LI. rewrite (sz_nobj SZ) in LI. destruct (LQ2 i LI) as (z & Z1 & Z2). cbn [sv_lat]. rewrite (J4 i z Z1), Z2.
    unfold product_at. now rewrite app_comm_cons, fold_left_app.
Qed.

(** ** C61 *)
Lemma wiring_end : same_wiring (y_w y) (y_w (tr_auxd E t)).
Proof.
  eapply wiring_trans; [apply (sky_frame _ _ _ _ _ _ _ _ _ _ _ _ S)|].
  eapply wiring_trans; [apply (lumd_frame _ _ _ _ _ _ _ _ _ _ _ _ S)|].
  assert (K : yframe E (tr_lumd E t) (tr_auxd E t)).
  { eapply frame_ok; [|exact (sp_aux _ _ _ _ _ _ _ _ _ _ _ _ S)]. apply (keeps_fold (yframe_refl E) (yframe_trans E)). intros. apply survey_aux_keeps. }
  apply K.
Qed.
Lemma wiring_last : same_wiring (y_w y) (y_w y').
Proof.
  assert (W := wiring_end). unfold same_wiring in *. now rewrite (auxs_final _ _ _ _ _ _ _ _ _ _ _ _ S).
Qed.
Lemma distinct_end : distinct_names y -> forall j j' b b', part y j -> part y j' -> at_ (y_w y') j b -> at_ (y_w y') j' b' -> name_of b = name_of b' -> j = j'.
Proof.
  intros DN j j' b b' PJ PJ' BA BA' N. assert (WE := wiring_last).
  destruct (wiring_at _ _ _ _ _ (wiring_sym _ _ _ WE) BA) as (b0 & B0 & St & _).
  destruct (wiring_at _ _ _ _ _ (wiring_sym _ _ _ WE) BA') as (b0' & B0' & St' & _).
  eapply (proj2 DN); eauto. unfold name_of in *. congruence.
Qed.

Lemma quant_inv st : forall ax, rmapM (quantity (E := E)) st = Ok ax -> map fst ax = map fst st /\
  forall i k c, nth_error st i = Some (k, c) -> exists tv ov, c_true c = Some tv /\ c_obs c = Some ov /\ nth_error ax i = Some (k, (tv, ov)).
Proof.
  induction st as [|[k c] st IH]; intros ax H; cbn in H.
  - injection H as <-. split; [easy|]. intros [|i]; discriminate.
  - unfold quantity in H. cbn [fst snd] in H. destruct (c_true c) as [tv|] eqn:CT; [|discriminate]. destruct (c_obs c) as [ov|] eqn:CO; [|discriminate].
    cbn [rbind of_opt] in H. apply rbind_inv in H. destruct H as (l & H & Q). injection Q as <-. destruct (IH l H) as [I1 I2]. split; [cbn; now rewrite I1|].
    intros [|i] k' c' N; cbn in N.
    + injection N as <- <-. exists tv, ov. auto.
    + destruct (I2 i k' c' N) as (tv' & ov' & X). exists tv', ov'. auto.
Qed.

Lemma values_recorded : acyclic (y_w y) -> distinct_names y -> well_drawn E (y_w y) ->
  (forall j b, part y j -> at_ (y_w y') j b -> exists tv ov, a_true (a_dy b) = Some tv /\ a_obs (a_dy b) = Some ov /\
     dget (p_aux p) (name_of b) = Some (SimVar ov tv (MB (pa_sel (p_args p))) DFloat)) /\
  (forall k v, In (k, v) (p_aux p) -> exists j b, part y j /\ at_ (y_w y') j b /\ name_of b = k).
Proof.
  intros AC DN WD. destruct (loop_end _ _ _ _ _ _ _ _ _ _ _ _ S AC DN WD) as (L & _). assert (HO := lp_holds _ _ _ _ _ _ _ _ _ _ L).
  destruct (steps_built _ _ _ _ _ _ _ _ _ _ _ _ S) as (ar & B & Hs & _ & _ & _ & _ & _ & _ & _ & _ & _ & _ & Ha & _).
  assert (BA := bu_aux _ _ _ B). rewrite Ha in BA. destruct BA as [BL BN]. rewrite (bu_args _ _ _ B).
  destruct (quant_inv _ _ (sp_quant _ _ _ _ _ _ _ _ _ _ _ _ S)) as [K1 K2].
  assert (EA := end_at _ _ _ _ _ _ _ _ _ _ _ _ S). assert (ND := ho_nodup _ _ _ _ HO).
  assert (KK : map fst (p_aux p) = map fst (tr_st2 E t)).
  { rewrite <- K1. apply list_ext. intros i. rewrite !nth_error_map. destruct (nth_error (tr_aux E t) i) as [[k v]|] eqn:X; cbn.
    - destruct (BN i k v X) as (_ & -> & _). reflexivity.
    - apply nth_error_None in X. rewrite <- BL in X. apply nth_error_None in X. now rewrite X. }
  split.
  - intros j b PJ BJ. apply EA in BJ. destruct (ho_all _ _ _ _ HO j b PJ BJ) as (c & CG). destruct (ho_from _ _ _ _ HO _ _ CG) as (j2 & b2 & PJ2 & BA2 & N2 & C2).
    assert (j2 = j). { eapply (distinct_end DN); [exact PJ2|exact PJ| | |exact N2]; now apply EA. } subst j2.
    assert (b2 = b) by (eapply at_fun; eauto). subst b2. apply dget_In in CG. apply In_nth_error in CG. destruct CG as (i & NI).
    destruct (K2 i _ _ NI) as (tv & ov & CT & CO & NA). rewrite C2 in CT, CO. cbn in CT, CO. exists tv, ov. split; [easy|]. split; [easy|].
    destruct (BN i _ _ NA) as (_ & NP & _). apply In_dget.
    + unfold dkeys. rewrite KK. exact ND.
    + cbn [fst snd] in NP. eapply nth_error_In. exact NP.
  - intros k v I. assert (IK : In k (map fst (tr_st2 E t))) by (rewrite <- KK; now apply (in_map fst) in I).
    apply in_map_iff in IK. destruct IK as ([k2 c] & Q & IK). cbn in Q. subst k2. apply (In_dget _ _ _ ND) in IK.
    destruct (ho_from _ _ _ _ HO _ _ IK) as (j & b & PJ & BJ & N & _). exists j, b. split; [easy|]. split; [now apply EA|easy].
Qed.

(** ** C34 *)
Definition listed (j : nat) : Prop :=
  (exists i, y_der y = Some i /\ (j = i \/ depends (y_w y) i j)) \/ (exists k i, In (k, i) (y_aux y) /\ (j = i \/ depends (y_w y) i j)).
Lemma reads_end : wreads E (y_w y) (y_w y').
Proof.
  assert (Q : forall A (m : YM E A) z r z1, keeps (yreads E) m -> m z = (r, z1) -> yreads E z z1) by (intros A m z r z1 K H; specialize (K z); now rewrite H in K).
  eapply wrt; [apply same_auxs_reads; apply (sky_calm _ _ _ _ _ _ _ _ _ _ _ _ S)|].
  eapply wrt; [eapply Q; [|exact (sp_lum _ _ _ _ _ _ _ _ _ _ _ _ S)]; apply survey_lum_reads|].
  eapply wrt; [eapply Q; [|exact (sp_aux _ _ _ _ _ _ _ _ _ _ _ _ S)]; apply (keeps_fold (yrr E) (yrt E)); intros; apply survey_aux_reads|].
  apply same_auxs_reads. exact (auxs_final _ _ _ _ _ _ _ _ _ _ _ _ S).
Qed.
Lemma truth_samplers : acyclic (y_w y) -> distinct_names y -> well_drawn E (y_w y) ->
  forall j b, listed j -> at_ (y_w y) j b -> exists b', at_ (y_w y') j b' /\
    dget (pa_truth (p_args p)) (name_of b) = Some (truth (a_par (a_dy b'))) /\
    same_reads E (k_params (kind_of b)) (a_par (a_dy b)) (a_par (a_dy b')).
Proof.
  intros AC DN WD j b LJ BJ. destruct (loop_end _ _ _ _ _ _ _ _ _ _ _ _ S AC DN WD) as (L & _).
  assert (R := lp_rec _ _ _ _ _ _ _ _ _ _ L).
  destruct (steps_built _ _ _ _ _ _ _ _ _ _ _ _ S) as (ar & B & _ & _ & _ & _ & _ & _ & _ & _ & _ & _ & Ht & _). rewrite (bu_args _ _ _ B), Ht.
  destruct (wiring_at _ _ _ _ _ wiring_end BJ) as (b' & BJ' & St & _).
  exists b'. split; [now apply (end_at _ _ _ _ _ _ _ _ _ _ _ _ S)|]. split.
  - assert (NM : name_of b = name_of b') by (unfold name_of; congruence). rewrite NM. specialize (R (sky_distinct _ _ _ _ _ _ _ _ _ _ _ _ S DN)). apply (R j b'); [|easy].
    assert (DD : forall i j, depends (y_w y) i j -> depends (y_w (tr_sky E t)) i j).
    { intros i0 j0. apply depends_eq. symmetry. apply (sky_calm _ _ _ _ _ _ _ _ _ _ _ _ S). }
    destruct LJ as [(i & DE & H)|(k & i & I & H)].
    + left. rewrite DE. destruct H as [->|H]; [now left|right; auto].
    + right. exists (k, i). split; [easy|]. destruct H as [->|H]; [now left|right; cbn; auto].
  - destruct (reads_end _ _ BJ) as (b2 & B2 & _ & SR). apply (end_at _ _ _ _ _ _ _ _ _ _ _ _ S) in B2.
    assert (b2 = b') by (eapply at_fun; eauto). now subst.
Qed.
Lemma truth_lum l : acyclic (y_w y) -> distinct_names y -> well_drawn E (y_w y) -> y_der y = None -> y_lum y = Some l ->
  (forall j b, part y j -> at_ (y_w y) j b -> name_of b <> ld_name l) ->
  exists l', y_lum y' = Some l' /\ dget (pa_truth (p_args p)) (ld_name l) = Some (truth (ld_par l')) /\
    same_reads E (lc_params (ld_cls l)) (ld_par l) (ld_par l').
Proof.
  intros AC DN WD DE YL NM. destruct (loop_end _ _ _ _ _ _ _ _ _ _ _ _ S AC DN WD) as (_ & _ & T & _).
  destruct (steps_built _ _ _ _ _ _ _ _ _ _ _ _ S) as (ar & B & _ & _ & _ & _ & _ & _ & _ & _ & _ & _ & Ht & _). rewrite (bu_args _ _ _ B), Ht.
  assert (DE0 := sky_der _ _ _ _ _ _ _ _ _ _ _ _ S). rewrite DE in DE0.
  destruct (lum_source _ _ _ _ _ _ _ _ _ _ _ DE0 (sp_lum _ _ _ _ _ _ _ _ _ _ _ _ S))
    as (l0 & l' & x & vals & g & g' & dv & Y1 & Y2 & LN & LC & SR & _ & _ & _ & _ & _ & _ & TR & _).
  rewrite (proj1 sky_dists), YL in Y1. injection Y1 as <-.
  exists l'. destruct end_dists as (o & _ & _ & ->). split; [easy|]. split; [|easy]. rewrite T.
  - rewrite TR. apply dget_dset_eq.
  - intros j b PJ BJ. apply (NM j b PJ). unfold at_ in *. rewrite (proj1 (sky_calm _ _ _ _ _ _ _ _ _ _ _ _ S)) in BJ. exact BJ.
Qed.
Lemma truth_spatial : acyclic (y_w y) -> distinct_names y -> well_drawn E (y_w y) ->
  (forall j b, part y j -> at_ (y_w y) j b -> name_of b <> sd_name (y_sp y)) ->
  (forall l, y_der y = None -> y_lum y = Some l -> ld_name l <> sd_name (y_sp y)) ->
  dget (pa_truth (p_args p)) (sd_name (y_sp y)) = Some (truth (sd_par (y_sp y))).
Proof.
  intros AC DN WD NM NL. destruct (loop_end _ _ _ _ _ _ _ _ _ _ _ _ S AC DN WD) as (L & _ & T & _).
  destruct (steps_built _ _ _ _ _ _ _ _ _ _ _ _ S) as (ar & B & _ & _ & _ & _ & _ & _ & _ & _ & _ & _ & Ht & _). rewrite (bu_args _ _ _ B), Ht.
  assert (NS : forall j b, part y j -> at_ (y_w (tr_sky E t)) j b -> name_of b <> sd_name (y_sp y)).
  { intros j b PJ BJ. apply (NM j b PJ). unfold at_ in *. rewrite (proj1 (sky_calm _ _ _ _ _ _ _ _ _ _ _ _ S)) in BJ. exact BJ. }
  rewrite T by exact NS.
  assert (DE0 := sky_der _ _ _ _ _ _ _ _ _ _ _ _ S). assert (H1 := sp_lum _ _ _ _ _ _ _ _ _ _ _ _ S).
  destruct (y_der y) as [i|] eqn:DE.
  - destruct (survey_lum_der _ _ _ _ _ _ _ _ _ _ _ _ _ DE0 H1) as (_ & TD).
    assert (FR := sky_frame _ _ _ _ _ _ _ _ _ _ _ _ S).
    assert (HQ : hushed E (y_w y) (y_w (tr_sky E t))).
    { assert (Q := sky_calm _ _ _ _ _ _ _ _ _ _ _ _ S). destruct Q as [Q1 Q2]. split; [apply FR|]. split; [|easy]. intros j a A. exists a.
      split; [|repeat split]. unfold at_ in *. now rewrite Q1. }
    assert (X1 : acyclic (y_w (tr_sky E t))) by (eapply wiring_acyclic; [apply FR|easy]).
    assert (X2 : well_drawn E (y_w (tr_sky E t))) by (eapply well_drawn_hushed; eauto).
    assert (X3 : forall j, reaches (y_w (tr_sky E t)) i j -> part y j).
    { intros j R. apply (sky_part _ _ _ _ _ _ _ _ _ _ _ _ S). left. now rewrite DE. }
    assert (X4 := sky_nonempty _ _ _ _ _ _ _ _ _ _ _ _ S DN).
    destruct (loop_der E False prog rl (tr_n E t) i _ _ _ _ _ _ (part y) X1 (False_ind _) X4 X2 (False_ind _) X3 TD) as [_ X].
    rewrite X; [cbn; now rewrite String.eqb_refl|]. intros j b NR BJ. apply (NS j b); [|easy].
    apply X3. now apply near_below.
  - destruct (lum_source _ _ _ _ _ _ _ _ _ _ _ DE0 H1) as (l0 & l' & x & vals & g & g' & dv & Y1 & Y2 & LN & LC & SR & _ & _ & _ & _ & _ & _ & TR & _).
    rewrite (proj1 sky_dists) in Y1. rewrite TR, dget_dset_neq by (intros Q; now apply (NL l0)). cbn. now rewrite String.eqb_refl.
Qed.

(** ** C31 *)
Lemma sec_values_ext w w' l : (forall kv b, In kv l -> at_ (E := E) w (snd kv) b -> exists b', at_ w' (snd kv) b' /\ a_true (a_dy b') = a_true (a_dy b) /\ a_obs (a_dy b') = a_obs (a_dy b)) ->
  (forall kv, In kv l -> exists b, at_ w (snd kv) b) -> sec_values (w_auxs w) l = sec_values (w_auxs w') l.
Proof.
  induction l as [|[k j] l IH]; intros H EX; cbn; [easy|]. rewrite IH.
  - f_equal. f_equal. destruct (EX (k, j)) as (b & BJ); [now left|]. destruct (H (k, j) b) as (b' & BJ' & T1 & T2); [now left|easy|].
    cbn in BJ, BJ'. unfold at_ in BJ, BJ'. now rewrite BJ, BJ', T1, T2.
  - intros kv b I. apply H. now right.
  - intros kv I. apply EX. now right.
Qed.

Lemma derived_luminosity i : acyclic (y_w y) -> distinct_names y -> well_drawn E (y_w y) -> y_der y = Some i ->
  exists a f vals v, at_ (y_w y') i a /\ k_lum (kind_of a) = Some f /\
    values E (k_params (kind_of a)) (a_par (a_dy a)) (k_lreads (kind_of a)) vals /\
    f vals v = Ok (sv_lat (p_lum p)) /\
    vw_sp v = Some (SpVals E (sv_lat (p_dist p)) (sv_lat (p_theta p)) (sv_lat (p_phi p))) /\
    vw_true v = a_true (a_dy a) /\ vw_obs v = a_obs (a_dy a) /\
    vw_sec v = sec_values (w_auxs (y_w y')) (a_sec (a_ln a)) /\ y_lum y' = y_lum y.
Proof.
  intros AC DN WD DE. destruct (loop_end _ _ _ _ _ _ _ _ _ _ _ _ S AC DN WD) as (_ & FZ & _).
  assert (DE0 := sky_der _ _ _ _ _ _ _ _ _ _ _ _ S). rewrite DE in DE0.
  destruct (survey_lum_der _ _ _ _ _ _ _ _ _ _ _ _ _ DE0 (sp_lum _ _ _ _ _ _ _ _ _ _ _ _ S)) as (_ & [YE (sp & w1 & w2 & a & a' & f & vals & SP & H1 & H2 & A & H3 & A' & F1 & F2 & _)]).
  assert (FR := sky_frame _ _ _ _ _ _ _ _ _ _ _ _ S).
  assert (HQ : hushed E (y_w y) (y_w (tr_sky E t))).
  { assert (Q := sky_calm _ _ _ _ _ _ _ _ _ _ _ _ S). destruct Q as [Q1 Q2]. split; [apply FR|]. split; [|easy]. intros j b BJ. exists b.
    split; [|repeat split]. unfold at_ in *. now rewrite Q1. }
  assert (X1 : acyclic (y_w (tr_sky E t))) by (eapply wiring_acyclic; [apply FR|easy]).
  assert (X2 : well_drawn E (y_w (tr_sky E t))) by (eapply well_drawn_hushed; eauto).
  assert (Q1 := set_sp_quiet _ _ _ _ _ _ H1).
  destruct (draw_step E False prog rl (tr_n E t) i _ _ _ X1 (False_ind _) X2 (False_ind _) Q1 H2) as (W2 & _ & WD2 & _ & SA).
  assert (H4 := reads_hushed _ _ _ _ _ _ H3).
  assert (W1 : same_wiring (y_w (tr_sky E t)) w1) by apply Q1.
  (* positions handed over *)
  assert (SPA : a_sp (a_dy a') = Some sp).
  { unfold set_sp in H1. apply upd_aux_inv in H1. destruct H1 as (a0 & A0 & EW).
    assert (A1 : at_ w1 i (upd_dy (dy_sp sp) a0)). { rewrite EW. unfold at_. cbn. apply nth_lset_eq. apply nth_error_Some. unfold at_ in A0. congruence. }
    assert (G := draw_given E i prog rl i (tr_n E t) w1). rewrite H2 in G. destruct (G) with (a := upd_dy (dy_sp sp) a0) as (a2 & A2 & S2 & _); [|easy|].
    - intros j DJ RJ. assert (AC1 : acyclic w1) by (eapply wiring_acyclic; eauto). destruct AC1 as (rk & RK).
      assert (L1 := RK _ _ DJ). assert (L2 := reaches_rank _ _ _ _ _ RK RJ). lia.
    - assert (G2 := reads_given E i i (k_lreads (kind_of a)) w2). rewrite H3 in G2. destruct (G2 a2 A2) as (a3 & A3 & S3 & _).
      assert (a3 = a') by (eapply at_fun; eauto). subst. rewrite S3, S2. reflexivity. }
  assert (SAL : forall j, reaches (y_w (tr_sky E t)) i j -> sampled (y_w (tr_lumd E t)) j).
  { intros j R. apply (hushed_sampled _ _ _ _ H4). auto. }
  assert (SI : sampled (y_w (tr_lumd E t)) i) by (apply SAL; constructor).
  assert (FZI : forall j b, at_ (y_w (tr_lumd E t)) j b -> sampled (y_w (tr_lumd E t)) j -> exists b', at_ (y_w y') j b' /\ same_out E b b').
  { intros j b BJ (b2 & BJ2 & SB). assert (b2 = b) by (eapply at_fun; eauto). subst b2. destruct FZ as [_ FZ].
    destruct (FZ j b BJ SB) as (b' & BJ' & SO). exists b'. split; [now apply (end_at _ _ _ _ _ _ _ _ _ _ _ _ S)|easy]. }
  destruct (FZI i a' A' SI) as (ae & AE & SO). destruct SO as (O1 & O2 & O3 & O4 & O5 & O6 & O7).
  (* parameters *)
  apply aux_reads_inv in H3. destruct H3 as (a0 & o & A0 & PR & EW).
  assert (a0 = a) by (eapply at_fun; eauto). subst a0. apply preads_ok in PR. destruct PR as [VA SR].
  assert (EA' : a' = upd_dy (dy_par o) a).
  { rewrite EW in A'. unfold at_ in A'. cbn in A'. rewrite nth_lset_eq in A' by (apply nth_error_Some; unfold at_ in A; congruence). congruence. }
  assert (KA : kind_of ae = kind_of a). { unfold kind_of. rewrite <- O1, EA'. reflexivity. }
  assert (PA : a_par (a_dy ae) = o) by (rewrite <- O3, EA'; reflexivity).
  destruct (steps_built _ _ _ _ _ _ _ _ _ _ _ _ S) as (ar & B & Hs & Hk & Hki & Hui & Hl & Hd & _ & _ & _ & _ & _ & _ & Hth & Hph).
  exists ae, f, vals, (view_of (w_auxs (y_w (tr_lumd E t))) a'). rewrite KA, PA. split; [easy|]. split; [easy|].
  split; [eapply values_same; eauto|]. split; [|split; [|split; [|split; [|split]]]].
  - rewrite (proj1 (bu_lum _ _ _ B)). cbn. now rewrite Hl.
  - cbn. rewrite SPA. destruct end_positions as (_ & _ & _ & EP). rewrite (sp_sp _ _ _ _ _ _ _ _ _ _ _ _ S) in SP. injection SP as <-.
    rewrite EP, (proj1 (bu_dist _ _ _ B)), (proj1 (bu_theta _ _ _ B)), (proj1 (bu_phi _ _ _ B)), (bu_args _ _ _ B). reflexivity.
  - exact O5.
  - exact O6.
  - cbn. rewrite <- O2. assert (WL : same_wiring (y_w (tr_sky E t)) (y_w (tr_lumd E t))) by apply (lumd_frame _ _ _ _ _ _ _ _ _ _ _ _ S).
    assert (DJ : forall kv, In kv (a_sec (a_ln a')) -> sampled (y_w (tr_lumd E t)) (snd kv)).
    { intros [k j] I. apply SAL. eapply reaches_step; [|constructor]. apply (wiring_depends _ _ _ _ _ (wiring_sym _ _ _ WL)). exists a', k. auto. }
    apply sec_values_ext.
    + intros kv b I BJ. destruct (FZI _ b BJ (DJ kv I)) as (b' & BJ' & SO). exists b'. split; [easy|]. destruct SO as (_ & _ & _ & _ & P1 & P2 & _). auto.
    + intros kv I. destruct (DJ kv I) as (b & BJ & _). eauto.
  - apply end_lum_unused. rewrite DE. discriminate.
Qed.
End Step.
End P.
