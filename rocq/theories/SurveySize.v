(** The number of objects of a survey (C62) and their distances (C63). *)
From Verif Require Import Base BaseFacts Keeps Env ParamModel SimVarModel DistModel DistSpec DistProofs SizeSpec
  AuxModel AuxSpec PopModel SynthModel SynthSpec SynthFrame SynthInv SurveyProofs SurveyKeep SurveyFinal SurveyEnd SurveyPop.
From Verif Require SurveyTop.
Open Scope nat_scope.
Open Scope list_scope.

Section P.
Variable E : env.
Notation V := (V E).
Notation Rst := (Rst E).
Notation synth := (synth E).
Notation one := (vofnat E 1).
Notation zero := (vofnat E 0).

Lemma reads_vals (d : sdist E) g r d' g' rm db gb : wf_par E (sc_params (sd_cls d)) (sd_par d) ->
  @rd_rmax E (d, g) = (Ok rm, (db, gb)) -> @rd_dens E (db, gb) = (Ok r, (d', g')) ->
  g' = g /\ reading E (sc_params (sd_cls d)) (sd_par d) "r_max" = Ok rm /\ values E (sc_params (sd_cls d)) (sd_par d) (sc_reads (sd_cls d)) r.
Proof.
  intros W H1 H2. apply rd_rmax_inv in H1. destruct H1 as (ob & H1 & -> & ->).
  apply rd_dens_inv in H2. destruct H2 as (oc & H2 & -> & ->). rewrite cls_with_spar, sd_with_spar in H2.
  split; [reflexivity|]. split; [unfold reading; now rewrite H1|].
  apply preads_ok in H2. destruct H2 as [H2 _]. assert (SB := pread_same E (sc_params (sd_cls d)) "r_max" (sd_par d)).
  rewrite H1 in SB. cbn [snd] in SB. eapply values_same; [|exact H2]. intros k. symmetry. apply SB.
Qed.

Lemma size_drawn norm (y : synth) n y1 : wf_par E (sc_params (sd_cls (y_sp y))) (sd_par (y_sp y)) ->
  (norm = true -> SynthSpec.norm_value E (sd_par (y_sp y))) ->
  survey_size None norm y = (Ok n, y1) ->
  exists rate, mean_objects norm (y_sp y) rate /\ r_poisson E rate (r_seed E (y_seed y)) = (Ok n, w_g (y_w y1)).
Proof.
  intros W NV H. unfold survey_size in H. apply bind_inv_ok in H. destruct H as ([] & z & H1 & H). unfold modify in H1. injection H1 as <-.
  apply bind_inv_ok in H. destruct H as (rate & z & H1 & H).
  apply in_sp_inv in H1. destruct H1 as (d & g & H1 & _ & _ & GZ). cbn [y_sp y_w w_g with_w w_set_gens fst] in H1.
  assert (X : mean_objects norm (y_sp y) rate /\ g = r_seed E (y_seed y)).
  { clear H GZ z y1 n. rename H1 into H.
    apply bind_inv_ok in H. destruct H as (c & s0 & H0 & H). unfold cls, gets in H0. injection H0 as <- <-. cbn [fst] in H.
    unfold mean_objects. destruct norm.
    - apply bind_inv_ok in H. destruct H as (old & (da & ga) & HA1 & H). apply norm_to_one_inv in HA1. destruct HA1 as [-> HA1].
      apply bind_inv_ok in H. destruct H as (rm & (db & gb) & HA2 & H).
      apply bind_inv_ok in H. destruct H as (uvals & (dc & gc) & HA3 & H).
      apply bind_inv_ok in H. destruct H as (i0 & (dd & gd) & HA4 & H). apply lift_inv in HA4. destruct HA4 as [QI Q]. injection Q as -> ->.
      apply bind_inv_ok in H. destruct H as ([] & (de & ge) & HA5 & H).
      apply bind_inv_ok in H. destruct H as (rm2 & (df & gf) & HA6 & H).
      apply bind_inv_ok in H. destruct H as (vals2 & (dg & gg) & HA7 & H). apply lift_inv in H. destruct H as [QR Q]. injection Q as -> ->.
      set (pc := sc_params (sd_cls (y_sp y))) in *.
      assert (X : exists o, de = with_spar (y_sp y) o /\ same_reads E pc (sd_par (y_sp y)) o /\ wf_par E pc o /\ ge = r_seed E (y_seed y) /\
        match po_norm (sd_par (y_sp y)) with
        | Some _ => reading E pc (sd_par (y_sp y)) "r_max" = Ok rm /\ unit_values E pc (sd_par (y_sp y)) (sc_reads (sd_cls (y_sp y))) uvals
        | None => values E pc (sd_par (y_sp y)) (sc_reads (sd_cls (y_sp y))) uvals /\ reading E pc (sd_par (y_sp y)) "r_max" = Ok rm
        end).
      { destruct HA1 as [(N & -> & ->)|(kn & v & N & Hv & -> & ->)]; rewrite N.
        - unfold ret in HA5. injection HA5 as <- <-.
          destruct (reads_ok E _ _ _ _ _ _ _ _ W HA2 HA3) as (o & -> & SO & WO).
          destruct (reads_vals _ _ _ _ _ _ _ _ W HA2 HA3) as (-> & R1 & R2). exists o. auto 10.
        - destruct v as [v|]; [|exfalso; now apply (NV eq_refl kn)].
          unfold in_par, modify in HA5. injection HA5 as <- <-. cbn [fst snd].
          set (oa := norm_set (Some one) (sd_par (y_sp y))) in *.
          assert (WA : wf_par E pc oa) by (now apply wf_norm_set).
          destruct (reads_vals (with_spar (y_sp y) oa) _ _ _ _ _ _ _ WA HA2 HA3) as (-> & R1 & R2).
          rewrite cls_with_spar, sd_with_spar in R1, R2. fold pc in R1, R2.
          apply rd_rmax_inv in HA2. destruct HA2 as (ob & HA2 & -> & ->).
          apply rd_dens_inv in HA3. destruct HA3 as (oc & HA3 & -> & _). rewrite ?cls_with_spar, ?sd_with_spar in *. fold pc in HA2, HA3.
          assert (NB : po_norm ob = po_norm oa) by (rewrite <- (snd_eq _ _ _ HA2); now apply rmax_norm).
          assert (SB : same_reads E pc oa ob) by (rewrite <- (snd_eq _ _ _ HA2); apply pread_same).
          assert (WB : wf_par E pc ob) by (rewrite <- (snd_eq _ _ _ HA2); now apply wf_pread).
          assert (NA : po_norm oa = Some kn) by (unfold oa; now rewrite norm_set_norm).
          assert (NC : po_norm oc = Some kn).
          { destruct (preads_norm E pc (sc_reads (sd_cls (y_sp y))) ob WB) as [K _]. rewrite HA3 in K. apply K. congruence. }
          exists (norm_set (Some v) oc). split; [reflexivity|].
          destruct (unit_phase E pc (sc_reads (sd_cls (y_sp y))) (sd_par (y_sp y)) oa (Some (Some v)) W) with (o2 := ob) (o3 := oc) (vals := uvals) (o4 := norm_set (Some v) oc) as (U1 & U2 & U3); auto.
          + right. exists kn, (Some v). auto.
          + right. exists kn, (Some v). auto.
          + split; [exact U2|]. split; [exact U3|]. split; [reflexivity|]. split; [|exact U1].
            rewrite <- R1. symmetry. now apply (rmax_unit E pc (sd_par (y_sp y))). }
      destruct X as (o & -> & SO & WO & -> & X).
      destruct (reads_vals (with_spar (y_sp y) o) _ _ _ _ _ _ _ WO HA6 HA7) as (-> & R1 & R2). rewrite ?cls_with_spar, ?sd_with_spar in *. fold pc in R1, R2.
      assert (R1' : reading E pc (sd_par (y_sp y)) "r_max" = Ok rm2) by (rewrite (SO "r_max"%string); exact R1).
      assert (R2' : values E pc (sd_par (y_sp y)) (sc_reads (sd_cls (y_sp y))) vals2) by (eapply values_same; [|exact R2]; intros k; symmetry; apply SO).
      split; [|reflexivity]. exists rm2, vals2. split; [exact R1'|]. split; [exact R2'|]. exists uvals, i0.
      assert (rm = rm2) by (destruct (po_norm (sd_par (y_sp y))); destruct X; congruence). subst rm2.
      split; [|split; [exact QI|exact QR]].
      destruct (po_norm (sd_par (y_sp y))); [apply X|]. eapply values_det; [apply X|exact R2'].
    - apply bind_inv_ok in H. destruct H as (rm & (db & gb) & HA2 & H).
      apply bind_inv_ok in H. destruct H as (vals & (dc & gc) & HA3 & H). apply lift_inv in H. destruct H as [QR Q]. injection Q as -> ->.
      destruct (reads_vals _ _ _ _ _ _ _ _ W HA2 HA3) as (-> & R1 & R2). split; [|reflexivity]. exists rm, vals. auto. }
  destruct X as [X ->]. exists rate. split; [exact X|].
  unfold in_g in H. rewrite GZ in H. destruct (r_poisson E rate (r_seed E (y_seed y))) as [r g]. injection H as -> <-. reflexivity.
Qed.

Variables (prog : bool) (fuel rl : nat) (fs : option V) (l10 norm : bool).
Lemma survey_size_drawn y p y' : draw_survey prog fuel rl fs l10 None norm y = (Ok p, y') ->
  wf_par E (sc_params (sd_cls (y_sp y))) (sd_par (y_sp y)) -> (norm = true -> SynthSpec.norm_value E (sd_par (y_sp y))) ->
  exists rate, mean_objects norm (y_sp y) rate /\ fst (r_poisson E rate (r_seed E (y_seed y))) = Ok (p_nobj p).
Proof.
  intros H W NV. destruct (SynthInv.survey_steps _ _ _ _ _ _ _ _ _ _ _ H) as (t & S).
  rewrite (sz_nobj (SurveyProofs.all_sized _ _ _ _ _ _ _ _ _ _ _ _ S)).
  destruct (size_drawn _ _ _ _ W NV (SynthInv.sp_size _ _ _ _ _ _ _ _ _ _ _ _ S)) as (rate & R & P). exists rate. now rewrite P.
Qed.
(** The distances and the generator they are drawn from. *)
Lemma distances_from ns y p y' : draw_survey prog fuel rl fs l10 ns norm y = (Ok p, y') ->
  wf_par E (sc_params (sd_cls (y_sp y))) (sd_par (y_sp y)) -> (norm = true -> ns = None -> SynthSpec.norm_value E (sd_par (y_sp y))) ->
  sc_sky (sd_cls (y_sp y)) = None ->
  exists g g' ps, sized_by ns norm (y_sp y) (r_seed E (y_seed y)) (p_nobj p) g /\
    drawn (sd_cls (y_sp y)) (sd_par (y_sp y)) prog fuel (p_nobj p) norm g g' (sv_lat (p_dist p)) ps.
Proof.
  intros H W NV SK. destruct (SynthInv.survey_steps _ _ _ _ _ _ _ _ _ _ _ H) as (t & S).
  destruct (SurveyPop.spatial_from _ _ _ _ _ _ _ _ _ _ _ _ S W NV) as (_ & _ & rs & ps & g' & D & _ & RS). rewrite (RS SK).
  exists (w_g (y_w (tr_sized E t))), g', ps. split; [|exact D].
  rewrite (sz_nobj (SurveyProofs.all_sized _ _ _ _ _ _ _ _ _ _ _ _ S)). assert (Z := SynthInv.sp_size _ _ _ _ _ _ _ _ _ _ _ _ S).
  unfold sized_by. destruct ns as [n|].
  - unfold survey_size in Z. apply bind_inv_ok in Z. destruct Z as ([] & z & H1 & Z). unfold modify in H1. injection H1 as <-. injection Z as <- <-. split; reflexivity.
  - apply (size_drawn _ _ _ _ W) in Z; [exact Z|]. intros N. exact (NV N eq_refl).
Qed.

Lemma survey_distances ns y p y' rm vals uvals :
  le_lt_trans E -> unif_range E -> unif_nonneg E -> max_nonneg E -> div_nonneg E -> div_pos E ->
  draw_survey prog fuel rl fs l10 ns norm y = (Ok p, y') ->
  let c := sd_cls (y_sp y) in let o := sd_par (y_sp y) in
  sc_sky c = None -> wf_par E (sc_params c) o -> (norm = true -> ns = None -> SynthSpec.norm_value E o) ->
  reading E (sc_params c) o "r_max" = Ok rm -> vlt E zero rm = true ->
  values E (sc_params c) o (sc_reads c) vals -> unit_values E (sc_params c) o (sc_reads c) uvals ->
  nonneg_fun E rm (sc_dens c vals) ->
  (norm = true -> forall i, quad E (sc_dens c uvals) zero rm = Ok i -> vlt E zero i = true) ->
  sv_obs (p_dist p) = sv_lat (p_dist p) /\ length (sv_lat (p_dist p)) = p_nobj p /\ forall r, In r (sv_lat (p_dist p)) ->
    vle E zero r = true /\ vlt E r rm = true /\ exists x, sc_dens c vals r = Ok x /\ vlt E zero x = true.
Proof.
  intros T UR UN MX DN DP H c o SK W NV RM P VA UV NN NI.
  destruct (SurveyTop.spatial_kept _ _ _ _ _ _ _ _ _ _ _ H W NV) as (_ & _ & rs & ps & g & g' & D & _ & RS). rewrite (RS SK).
  destruct (SynthInv.survey_steps _ _ _ _ _ _ _ _ _ _ _ H) as (t & S).
  destruct (SurveyProofs.steps_built _ _ _ _ _ _ _ _ _ _ _ _ S) as (ar & B & _). split.
  - rewrite <- (RS SK). now rewrite (proj1 (SurveyProofs.bu_dist _ _ _ B)).
  - eapply drawn_in_range; eauto.
Qed.
End P.
