(** Proofs for C85. *)
From Coq Require Import Reals ZArith List String Lra Lia.
From Verif Require Import Base BaseFacts Env ParamModel SelModel SelSpec SimVarModel DistModel AuxModel AuxSpec PopModel SynthModel SynthSpec SynthFrame SynthInv
  LibModel LibPopModel LibPopSpec RealModel LumLibModel LumLibSpec FluxSpec HorizonSpec.
From Verif Require SurveyProofs SurveyFinal SurveyPop SurveyTop OtherProofs FluxPop LibGeo LumLibProofs.
Import ListNotations.
Open Scope list_scope.
Open Scope string_scope.

Section Any.
Variable E : env.
Variables (prog : bool) (fuel rl : nat) (fs : option (V E)) (l10 : bool) (ns : option nat) (norm : bool) (y z : synth E) (p : population E) (b : V E).
Hypothesis H : draw_survey prog fuel rl fs l10 ns norm y = (Ok p, z).
Hypothesis FL : flux_limit E y b.

Lemma kind_kept q s : y_ssel y <> Some q -> q <> y_dsel y -> nth_error (w_sels (y_w y)) q = Some s ->
  exists s', nth_error (w_sels (y_w z)) q = Some s' /\ s_kind s' = s_kind s.
Proof.
  intros N1 N2 N. destruct (survey_steps _ _ _ _ _ _ _ _ _ _ _ H) as (t & S).
  destruct (SurveyPop.fsel_frame _ _ _ _ _ _ _ _ _ _ _ _ S) as ((_ & M) & _).
  rewrite (SurveyFinal.sels_final _ _ _ _ _ _ _ _ _ _ _ _ S q N1 N2).
  assert (X : nth_error (map (sel_static E) (w_sels (y_w y))) q = Some (sel_static E s)) by now apply map_nth_error.
  rewrite <- M in X. rewrite nth_error_map in X. destruct (nth_error (w_sels (y_w (tr_fsel E t))) q) as [s'|]; [|discriminate].
  exists s'. split; [reflexivity|]. apply (f_equal (fun o => match o with Some (k, _, _, _) => k | None => s_kind s end)) in X. exact X.
Qed.

Theorem bright : only_the_flux E y -> distinct_names y -> selectors_apart y ->
  forall i f, nth_error (sv_obs (p_flux p)) i = Some f -> (detected E p i <-> vle E b f = true).
Proof.
  intros [SS OU] DN SA i f F. destruct FL as (s & N & U & K & FF & PB).
  destruct (OtherProofs.hard_mask _ _ _ _ _ _ _ _ _ _ _ _ _ H N U K FF PB SA) as (m & MA & L & MI).
  assert (I : (i < p_nobj p)%nat).
  { rewrite <- (OtherProofs.obs_length _ _ _ _ _ _ _ _ _ _ _ H). apply nth_error_Some. congruence. }
  unfold detected. rewrite (SurveyTop.selected_iff _ _ _ _ _ _ _ _ _ _ _ H DN SA i I). rewrite <- (MI i f F). split.
  - intros ((m2 & MA2 & A) & _ & _). assert (m2 = m) by (destruct MA2 as (? & ? & ?), MA as (? & ? & ?); congruence). subst m2.
    apply SurveyProofs.accepts_full in A; [exact A|lia].
  - intros A. split; [|split].
    + exists m. split; [exact MA|]. apply SurveyProofs.accepts_full; [lia|exact A].
    + intros k Q. congruence.
    + intros j a P At. destruct (OU j a P At) as (s2 & N2 & UN). destruct SA as (_ & _ & DS).
      destruct (kind_kept (a_sel (a_ln a)) s2) as (s3 & N3 & K3); [congruence|now apply DS with j|exact N2|].
      exists s3. split; [exact N3|]. left. congruence.
Qed.
Theorem no_fainter i f : nth_error (sv_obs (p_flux p)) i = Some f -> detected E p i -> vle E b f = true.
Proof. intros F D. destruct FL as (s & N & U & K & FF & PB). exact (SurveyTop.hard_flux _ _ _ _ _ _ _ _ _ _ _ H s b N U K FF PB i f F D). Qed.
Lemma true_fluxes : fs = None -> sv_obs (p_flux p) = sv_lat (p_flux p).
Proof.
  intros Q. destruct FL as (s & N & _). assert (X := SurveyTop.observed_flux _ _ _ _ _ _ _ _ _ _ _ H s N). rewrite Q in X.
  destruct (is_unity (s_kind s)); apply X.
Qed.
End Any.

Section R.
Variable m : machine.
Notation E := (real_env m).
Variable ginv : R -> R -> R.
Variable gam : R -> R.
Variables (sol rel Om h0 : R) (sky : string -> option (list R -> nat -> mc_st m -> res (spvals E) * mc_st m)) (form : string -> string) (w : world E).
Notation fo := (full_lib m ginv gam sol rel Om h0 sky form).
Variables (c : popclass) (arg : string -> R) (seed : Z) (rate : bool) (y0 : synth E) (lum : option (lumobj E)).
Hypothesis B : build fo w c arg seed lum rate = Ok y0.
Variables (prog : bool) (fuel rl : nat) (l10 : bool) (ns : option nat) (norm : bool) (y : synth E) (p : population E) (z : synth E) (b : R).
Hypothesis SP : y_sp y = y_sp y0.
Hypothesis H : draw_survey prog fuel rl None l10 ns norm y = (Ok p, z).
Hypothesis FL : flux_limit E y b.
Hypotheses (HS : (0 < sol)%R) (HO : (0 < Om < 1)%R) (HH : (0 < h0)%R) (HB : (0 < b)%R).
Open Scope R_scope.
Definition radius d : R := if cosmological (fst (documented c)) then luminosity_distance sol Om h0 d else d + 1.

Lemma radius_pos d : 0 < d -> 0 < radius d.
Proof. intros D. unfold radius. destruct cosmological; [|lra]. now apply LibGeo.ld_pos. Qed.
Lemma radius_mono d d' : 0 < d <= d' -> radius d <= radius d'.
Proof.
  intros D. unfold radius. destruct cosmological; [|lra]. destruct (Req_dec d d') as [->|N]; [lra|].
  left. apply LibGeo.ld_increasing; auto; lra.
Qed.
Lemma object_obs i l d f : object m p i l d f -> nth_error (sv_obs (p_flux p)) i = Some f.
Proof. intros (_ & _ & F). rewrite (true_fluxes E _ _ _ _ _ _ _ _ _ _ _ H FL eq_refl). exact F. Qed.
Lemma horizon_iff i l d f : object m p i l d f -> 0 < d -> (vle E b f = true <-> within_horizon radius b l d).
Proof.
  intros O D. assert (F := FluxPop.flux_spread m ginv gam sol rel Om h0 sky form w c arg seed rate y0 lum B _ _ _ _ _ _ _ y p z SP H i l d f O).
  cbv beta in F. fold (radius d) in F. assert (P := radius_pos d D). assert (PP := PI_RGT_0).
  change (vle E b f) with (leb b f). unfold leb, within_horizon. set (r := radius d) in *. assert (R2 : 0 < r * r) by nra.
  assert (Q : b <= f <-> r * r <= l / (4 * PI * b)).
  { rewrite F. set (k := 4 * PI). assert (K : 0 < k) by (unfold k; lra). split; intros X.
    - apply Rmult_le_reg_r with (k * b); [nra|]. replace (l / (k * b) * (k * b)) with l by (field; lra).
      apply Rmult_le_compat_r with (r := k * (r * r)) in X; [|nra]. replace (l / (k * (r * r)) * (k * (r * r))) with l in X by (field; lra). nra.
    - apply Rmult_le_reg_r with (k * (r * r)); [nra|]. replace (l / (k * (r * r)) * (k * (r * r))) with l by (field; lra).
      apply Rmult_le_compat_r with (r := k * b) in X; [|nra]. replace (l / (k * b) * (k * b)) with l in X by (field; lra). nra. }
  destruct (Rle_dec b f); split; intros X; try easy; try (now apply Q); exfalso; auto; apply n, Q, X.
Qed.

Theorem horizon i l d f : object m p i l d f -> 0 < d -> detected E p i -> within_horizon radius b l d.
Proof. intros O D X. apply (horizon_iff i l d f O D). exact (no_fainter E _ _ _ _ _ _ _ _ _ _ _ H FL i f (object_obs i l d f O) X). Qed.

Section Only.
Hypotheses (OF : only_the_flux E y) (DN : distinct_names y) (SA : selectors_apart y).
Theorem complete i l d f : object m p i l d f -> 0 < d -> (detected E p i <-> within_horizon radius b l d).
Proof. intros O D. rewrite (bright E _ _ _ _ _ _ _ _ _ _ _ H FL OF DN SA i f (object_obs i l d f O)). exact (horizon_iff i l d f O D). Qed.
Theorem bright_first : near_and_bright_first m p.
Proof.
  intros i j l1 l2 d1 d2 f1 f2 O1 O2 L D X. apply (complete i l1 d1 f1 O1); [lra|]. apply (complete j l2 d2 f2 O2) in X; [|lra].
  unfold within_horizon in *. assert (A := radius_pos d1 ltac:(lra)). assert (M := radius_mono d1 d2 D). assert (PP := PI_RGT_0).
  assert (l2 / (4 * PI * b) <= l1 / (4 * PI * b)). { apply Rmult_le_compat_r; [|lra]. left. apply Rinv_0_lt_compat. nra. }
  nra.
Qed.
End Only.

Hypothesis U : forall g, 0 <= fst (mc_unif m 0 1 g) < 1.
Hypothesis G : forall s x, 0 < s -> 0 < x <= 1 -> 0 <= ginv s x.
Variables (l : ldist E) (k : lum_class) (v : string -> R).
Hypotheses (DE : y_der y = None) (YL : y_lum y = Some l) (KC : ld_cls l = ld_cls (fst (lum_object fo k))) (LP : lum_parameters m l v) (SE : lum_sensible k v).
Lemma in_range i x d f : object m p i x d f -> lum_range k v x.
Proof.
  intros (X & _). destruct (LumLibProofs.survey_luminosities m ginv gam sol rel Om h0 sky form U G _ _ _ _ _ _ _ y p z k l v H DE YL KC LP SE) as (F & _).
  rewrite Forall_forall in F. apply F. eapply nth_error_In. exact X.
Qed.
Theorem bounded i x d f : k = LBPL \/ k = LLogUni -> object m p i x d f -> 0 < d -> detected E p i -> within_horizon radius b (v "Lmax") d.
Proof.
  intros Q O D X. assert (W := horizon i x d f O D X). assert (RG := in_range i x d f O). unfold within_horizon in *. assert (PP := PI_RGT_0).
  apply Rle_trans with (1 := W). apply Rmult_le_compat_r; [left; apply Rinv_0_lt_compat; nra|]. destruct Q; subst k; apply RG.
Qed.
Theorem candles : only_the_flux E y -> distinct_names y -> selectors_apart y -> k = LDelta -> 0 < v "Lp" -> nearest_first m p.
Proof.
  intros OF DN SA Q L i j l1 l2 d1 d2 f1 f2 O1 O2 D X.
  assert (R1 := in_range _ _ _ _ O1). assert (R2 := in_range _ _ _ _ O2). rewrite Q in R1, R2. cbn [lum_range] in R1, R2.
  apply (bright_first OF DN SA i j l1 l2 d1 d2 f1 f2 O1 O2); auto. lra.
Qed.
End R.
