(** The values of the predefined samplers and luminosity distributions follow their laws (C71). *)
From Coq Require Import Reals List String Lra Lia.
From Coquelicot Require Import Coquelicot.
From Verif Require Import Base BaseFacts Env ParamModel SelModel SimVarModel DistModel DistSpec DistProofs AuxModel AuxSpec AuxProofs AuxMore AuxRunSpec AuxRuns PopModel SynthModel SynthSpec
  LibModel LibSpec LibProofs LibLum LibGeo LibPopModel LibPopSpec RealModel AuxLibModel AuxLibSpec AuxLibProofs LumLibModel LumLibSpec LumLibProofs AuxLawSpec.
From Verif Require LumPop SurveyLib SurveyMade.
Import ListNotations.
Open Scope R_scope.
Open Scope string_scope.
Open Scope list_scope.

Lemma draws_consecutive S A (f : S -> A * S) n : forall g l g', rdraws f n g = (l, g') -> consecutive f g l g' /\ length l = n.
Proof.
  induction n as [|n IH]; intros g l g'; cbn; [intros [= <- <-]; now split|]. destruct (f g) as [x g1] eqn:F. destruct (rdraws f n g1) as [r g2] eqn:D.
  intros [= <- <-]. destruct (IH _ _ _ D) as [C L]. cbn. rewrite F. cbn. rewrite L. auto.
Qed.
Lemma consecutive_all S A (f : S -> A * S) (P : A -> Prop) : (forall g, P (fst (f g))) -> forall l g g', consecutive f g l g' -> Forall P l.
Proof. intros H. induction l as [|x r IH]; intros g g'; cbn; [constructor|]. intros [-> C]. constructor; [apply H|eauto]. Qed.
Lemma Forall2_map_r A B (rel : A -> B -> Prop) (f : A -> B) l : Forall (fun x => rel x (f x)) l -> Forall2 rel l (map f l).
Proof. induction 1; cbn; auto. Qed.
Lemma made_map S A (src : S -> A * S) (rel : A -> R -> Prop) (f : A -> R) (P : A -> Prop) n g l g' : (forall g, P (fst (src g))) -> (forall x, P x -> rel x (f x)) ->
  rdraws src n g = (l, g') -> made_from src rel (map f l).
Proof.
  intros HP HR D. destruct (draws_consecutive _ _ _ _ _ _ _ D) as [C _]. exists g, l, g'. split; [exact C|]. apply Forall2_map_r.
  eapply Forall_impl; [exact HR|]. exact (consecutive_all _ _ _ P HP _ _ _ C).
Qed.

Lemma scaled_power a b x : 0 < a -> 0 < x -> Rpower x b * / Rpower a b = Rpower (x / a) b.
Proof.
  intros HA HX. unfold Rpower. rewrite <- exp_Ropp, <- exp_plus. f_equal. unfold Rdiv. rewrite ln_mult by (try apply Rinv_0_lt_compat; assumption). rewrite ln_Rinv by assumption. ring.
Qed.
Lemma scaled_int a b p q : 0 < a -> 0 < p <= q -> is_RInt (fun x => Rpower (x / a) b) p q ((PL b q - PL b p) * / Rpower a b).
Proof.
  intros HA HP. apply (is_RInt_ext (fun x => / Rpower a b * Rpower x b)).
  - intros x. rewrite Rmin_left, Rmax_right by lra. intros HX. rewrite Rmult_comm. apply scaled_power; lra.
  - rewrite Rmult_comm. apply (is_RInt_scal (fun x => Rpower x b) p q (/ Rpower a b) (PL b q - PL b p)). now apply PL_RInt.
Qed.
Lemma weight_of x0 x1 x2 a1 a2 : 0 < x0 -> x0 < x1 -> x1 < x2 -> a1 <> -1 -> a2 <> -1 ->
  weight1 x0 x1 x2 a1 a2 = (PL a1 x1 - PL a1 x0) * / Rpower x1 a1 / ((PL a1 x1 - PL a1 x0) * / Rpower x1 a1 + (PL a2 x2 - PL a2 x1) * / Rpower x1 a2).
Proof.
  intros H0 H1 H2 N1 N2. unfold weight1, integrate_pl. cbn [fst snd]. rewrite int_1_PL, int_2_PL by assumption.
  pose proof (PL_lt a1 x0 x1 ltac:(lra)) as P1. pose proof (PL_lt a2 x1 x2 ltac:(lra)) as P2.
  pose proof (Rpower_pos x1 a1) as Q1. pose proof (Rpower_pos x1 a2) as Q2.
  replace (Rpower x1 (a1 - a2)) with (Rpower x1 a1 * / Rpower x1 a2) by (unfold Rminus; rewrite Rpower_plus, Rpower_Ropp; reflexivity).
  set (d1 := PL a1 x1 - PL a1 x0) in *. set (d2 := PL a2 x2 - PL a2 x1) in *. assert (0 < d1) by (unfold d1; lra). assert (0 < d2) by (unfold d2; lra).
  set (r1 := Rpower x1 a1) in *. set (r2 := Rpower x1 a2) in *. clearbody d1 d2 r1 r2. field.
  assert (0 < d1 * r2) by nra. assert (0 < d2 * r1) by nra. repeat split; nra.
Qed.

Section P.
Variable m : machine.
Notation E := (real_env m).
Hypothesis U1 : forall g, 0 <= fst (mc_unif m 0 1 g) < 1.

Lemma pareto_made lo alpha size g x g' : 0 < lo -> pareto_true m [alpha; lo] size g = (Ok x, g') -> pareto_law m lo alpha x.
Proof.
  intros HL. cbn [pareto_true]. destruct (leb alpha 0) eqn:LA; [discriminate|]. unfold leb in LA. destruct (Rle_dec alpha 0) as [|NA]; [discriminate|].
  destruct (rdraws (unit1 m) size g) as [u g1] eqn:D. intros [= <- <-]. apply (made_map _ _ _ _ _ (fun u => 0 <= u < 1) _ _ _ _ U1) with (2 := D).
  intros z Z. destruct (pareto_draw_F lo alpha z HL ltac:(lra) Z) as [Q1 Q2]. split; [exact Q1|]. unfold pareto_F in Q2. unfold Rpower, Rdiv.
  rewrite ln_mult by (try apply Rinv_0_lt_compat; lra). rewrite ln_Rinv by lra. unfold Rminus in Q2. lra.
Qed.
Lemma bpl_made x0 x1 x2 a1 a2 size g x g' : 0 < x0 -> x0 < x1 -> x1 < x2 -> bpl_true m [x0; x1; x2; a1; a2] size g = (Ok x, g') -> broken_power_law m x0 x1 x2 a1 a2 x.
Proof.
  intros H0 H1 H2. cbn [bpl_true]. destruct (rdraws (unit1 m) size g) as [u g1] eqn:D.
  destruct (Req_EM_T a1 (-1)) as [|N1]; [discriminate|]. destruct (Req_EM_T a2 (-1)) as [|N2]; [discriminate|].
  destruct (mc_bern_ok m _); [|discriminate]. destruct (rdraws (mc_bern m _) size g1) as [s g2] eqn:B. intros [= <- <-].
  destruct (draws_consecutive _ _ _ _ _ _ _ D) as [CU LU]. destruct (draws_consecutive _ _ _ _ _ _ _ B) as [CS LS].
  assert (FU : Forall (fun u => 0 <= u < 1) u) by exact (consecutive_all _ _ _ _ U1 _ _ _ CU).
  do 3 eexists. exists g, u, g1, s, g2. split; [apply scaled_int; lra|]. split; [apply scaled_int; lra|]. split; [reflexivity|]. split; [exact CU|].
  rewrite (weight_of x0 x1 x2 a1 a2) in CS by assumption. split; [exact CS|]. split; [rewrite map_length, combine_length; lia|].
  apply Forall2_map_r, Forall_forall. intros [b z] I. apply in_combine_r in I. rewrite Forall_forall in FU. specialize (FU z I). cbn [fst snd]. destruct b.
  - rewrite sample_lo by assumption. apply spl_quantile; lra.
  - rewrite sample_hi by assumption. apply spl_quantile; lra.
Qed.
Lemma norm_made (rel : R -> R -> Prop) (f : R -> R) mu tau size g r g' : norm_rvs m (repeat mu size) tau size g = (Ok r, g') ->
  (forall z, rel z (f (mu + tau * z))) -> 0 <= tau /\ made_from (mc_norm m 0 1) rel (map f r).
Proof.
  unfold norm_rvs. destruct (ltb tau 0) eqn:L; [discriminate|]. unfold ltb in L. destruct (Rlt_dec tau 0) as [|NL]; [discriminate|]. rewrite repeat_length, Nat.eqb_refl. cbn [negb].
  intros H HR. split; [lra|]. destruct (rdraws (norm1 m) size g) as [z g1] eqn:D. destruct (draws_consecutive _ _ _ _ _ _ _ D) as [C LZ]. exists g, z, g1. split; [exact C|].
  assert (Q : map f r = map (fun z => f (mu + tau * z)) z).
  { destruct (Req_EM_T tau 0) as [->|]; injection H as <- <-.
    - clear D C. revert z LZ. induction size as [|k IH]; intros [|a z]; cbn; try discriminate; [reflexivity|]. intros [= LZ]. f_equal; [f_equal; ring|auto].
    - clear D C. revert z LZ. induction size as [|k IH]; intros [|a z]; cbn; try discriminate; [reflexivity|]. intros [= LZ]. f_equal; [f_equal; ring|auto]. }
  rewrite Q. apply Forall2_map_r, Forall_forall. intros x _. apply HR.
Qed.
Lemma npnorm_made (rel : R -> R -> Prop) (f : R -> R) mu tau size g r g' : np_normal m mu tau size g = (Ok r, g') ->
  (forall z, rel z (f z)) -> made_from (mc_norm m mu tau) rel (map f r).
Proof.
  unfold np_normal. destruct (ltb tau 0); [discriminate|]. destruct (rdraws (mc_norm m mu tau) size g) as [z g1] eqn:D. intros [= <- <-] HR.
  apply (made_map _ _ _ _ _ (fun _ => True) _ _ _ _ (fun _ => I)) with (2 := D). auto.
Qed.
Lemma ln_pow10 y : ln (Rpower 10 y) / ln 10 = y.
Proof. unfold Rpower. rewrite ln_exp. pose proof ln10_pos. field. lra. Qed.

Section Aux.
Variable tnorm : R -> R -> mc_st m -> R * mc_st m.
Variable nunif : mc_nst m -> R * mc_nst m.
Variable ppf : R.
Hypothesis U2 : forall n, 0 <= fst (nunif n) < 1.
Notation kind := (aux_kind m tnorm nunif ppf).
Notation law := (documented_law m tnorm nunif ppf).
Notation act := (actual_law m tnorm nunif ppf).

Lemma trunc_made (rel : R -> R -> Prop) (f : R -> R) a b lo hi mu tau size g r g' t : truncnorm_rvs m tnorm a b mu tau size g = (r, g') ->
  in_range lo hi (rmap (map f) r) = Ok t -> (forall z, rel z (f (mu + tau * z))) -> made_from (tnorm a b) rel t.
Proof.
  unfold truncnorm_rvs. destruct (ltb a b); [|intros [= <- <-]; discriminate]. destruct (rdraws (tnorm a b) size g) as [z g1] eqn:D. intros [= <- <-] Q HR.
  assert (t = map f (map (tn_value mu tau) z)).
  { unfold in_range in Q. cbn [rmap rbind] in Q. unfold rassert in Q. destruct (forallb _ _); [|discriminate]. cbn [rbind] in Q. destruct (forallb _ _); [|discriminate]. now injection Q. }
  subst t. rewrite map_map. apply (made_map _ _ _ _ _ (fun _ => True) _ _ _ _ (fun _ => I)) with (2 := D). intros x _. exact (HR x).
Qed.

Lemma class_law c (p : string -> R) vals v size g x g' : proper c p ->
  Forall2 (fun k y => p k = y) (k_treads (kind c)) vals ->
  k_true (kind c) vals v size g = (Ok x, g') -> exists t, x = Some t /\ act c p t.
Proof.
  intros SE F H. destruct c; cbn [aux_kind measured latent k_treads k_true] in F, H; split_vals;
    unfold from_numpy, plaw_true in H; cbn [proper actual_law documented_law] in *.
  - cbn in H. injection H as <- <-. eexists. split; [reflexivity|]. apply Forall_forall. intros x I. now apply repeat_spec in I.
  - cbn [normal_true] in H. destruct (norm_rvs _ _ _ _ _) as [[t|] g1] eqn:N; [|discriminate]. injection H as <- <-. eexists. split; [reflexivity|].
    apply (norm_made (fun z x => x = p "mu" + p "tau" * z) (fun x => x)) in N; [|reflexivity]. now rewrite map_id in N.
  - cbn [lognormal_true] in H. destruct (norm_rvs _ _ _ _ _) as [[t|] g1] eqn:N; [|discriminate]. injection H as <- <-. eexists. split; [reflexivity|].
    apply (norm_made _ exp) with (1 := N). intros z. split; [apply exp_pos|now rewrite ln_exp].
  - cbn [log10normal_true] in H. destruct (norm_rvs _ _ _ _ _) as [[t|] g1] eqn:N; [|discriminate]. injection H as <- <-. eexists. split; [reflexivity|].
    apply (norm_made _ (Rpower 10)) with (1 := N). intros z. split; [apply Rpower_pos|now rewrite ln_pow10].
  - cbn [trunc_normal_true] in H. destruct (Req_EM_T _ 0); [discriminate|]. unfold tn_bounds in H.
    destruct (truncnorm_rvs _ _ _ _ _ _ _ _) as [r g1] eqn:T. destruct (in_range _ _ r) as [t|] eqn:Q; [|discriminate]. injection H as <- <-.
    eexists. split; [reflexivity|]. apply (trunc_made _ (fun x => x) _ _ (p "lower") (p "upper") _ _ _ _ _ _ _ T); [|reflexivity].
    destruct r; [|exact Q]. cbn [rmap]. now rewrite map_id.
  - cbn [trunc_lognormal_true] in H. destruct (ltb _ 0); [discriminate|]. destruct (leb _ 0); [discriminate|]. destruct (Req_EM_T _ 0) as [|NT]; [discriminate|]. unfold tln_bounds in H.
    destruct (truncnorm_rvs _ _ _ _ _ _ _ _) as [r g1] eqn:T. destruct (in_range _ _ _) as [t|] eqn:Q; [|discriminate]. injection H as <- <-.
    eexists. split; [reflexivity|]. eexists. split; [|split; [|apply (trunc_made _ exp _ _ _ _ _ _ _ _ _ _ _ T Q); intros z; split; [apply exp_pos|now rewrite ln_exp]]].
    + intros L. destruct (Req_EM_T (p "lower") 0); [lra|reflexivity].
    + intros L. destruct (Req_EM_T (p "lower") 0); [|lra]. field. exact NT.
  - cbn [trunc_log10normal_true] in H. destruct (ltb _ 0); [discriminate|]. destruct (leb _ 0); [discriminate|]. destruct (Req_EM_T _ 0) as [|NT]; [discriminate|]. unfold tl10_bounds in H.
    destruct (truncnorm_rvs _ _ _ _ _ _ _ _) as [r g1] eqn:T. destruct (in_range _ _ _) as [t|] eqn:Q; [|discriminate]. injection H as <- <-.
    eexists. split; [reflexivity|]. eexists. split; [|split; [|apply (trunc_made _ (Rpower 10) _ _ _ _ _ _ _ _ _ _ _ T Q); intros z; split; [apply Rpower_pos|now rewrite ln_pow10]]].
    + intros L. destruct (Req_EM_T (p "lower") 0); [lra|reflexivity].
    + intros L. destruct (Req_EM_T (p "lower") 0); [|lra]. field. exact NT.
  - destruct (pareto_true m _ size (fst g)) as [[t|] g1] eqn:Q; [|discriminate]. injection H as <- <-. eexists. split; [reflexivity|]. exact (pareto_made _ _ _ _ _ _ SE Q).
  - destruct (rdraws nunif size (snd g)) as [u g1] eqn:D. injection H as <- <-. eexists. split; [reflexivity|].
    apply (made_map _ _ _ _ _ (fun u => 0 <= u < 1) _ _ _ _ U2) with (2 := D). intros z Z. apply spl_quantile; lra.
  - destruct (bpl_true m _ size (fst g)) as [[t|] g1] eqn:Q; [|discriminate]. injection H as <- <-. eexists. split; [reflexivity|].
    destruct SE as [[S1 S2] S3]. exact (bpl_made _ _ _ _ _ _ _ _ _ S1 S2 S3 Q).
  - unfold ra_true in H. destruct (rdraws (unit1 m) size (fst g)) as [u g1] eqn:D. injection H as <- <-. eexists. split; [reflexivity|].
    apply (made_map _ _ _ _ _ (fun _ => True) _ _ _ _ (fun _ => I)) with (2 := D). intros z _. unfold np_uniform. ring.
  - unfold dec_true in H. destruct (rdraws (unit1 m) size (fst g)) as [u g1] eqn:D. injection H as <- <-. eexists. split; [reflexivity|].
    apply (made_map _ _ _ _ _ (fun u => 0 <= u < 1) _ _ _ _ U1) with (2 := D). intros z Z. split; [apply acos_bound|]. unfold np_uniform. rewrite cos_acos; lra.
  - cbn [va_truth] in H. destruct (rdraws (unit1 m) size (fst g)) as [u g1] eqn:D. injection H as <- <-. eexists. split; [reflexivity|].
    apply (made_map _ _ _ _ _ (fun u => 0 <= u < 1) _ _ _ _ U1) with (2 := D). intros z Z. destruct (va_true_F _ SE z ltac:(lra)) as [Q1 Q2]. split; [exact Q1|].
    pose proof (va_pos _ SE) as P. unfold va_F in Q2. unfold deg2rad in *. assert (Q3 : 1 - cos (va_true (p "max_angle") z) = (1 - cos (va_true (p "max_angle") z)) / (1 - cos (p "max_angle" * (PI / 180))) * (1 - cos (p "max_angle" * (PI / 180)))) by (field; lra).
    rewrite Q3. now rewrite Q2.
Qed.

Definition correct (c : aux_class) : Prop := c <> Dec /\ c <> TruncLog10Normal.
Lemma correct_law c p t : correct c -> act c p t -> law c p t.
Proof. intros [C1 C2]. destruct c; try contradiction; auto. Qed.

Theorem library_law prog fuel i size w w' c : acyclic w -> (forall j, reaches w i j -> ~ sampled w j) -> aux_draw prog fuel i size w = (Ok tt, w') ->
  forall j a p, reaches w i j -> at_ w' j a -> kind_of a = kind c -> has_parameters m a p -> proper c p ->
  exists t, a_true (a_dy a) = Some t /\ length t = size /\ act c p t.
Proof.
  intros AC N H j a p R A K HP SE. destruct (fresh_made _ _ _ _ _ _ _ AC N H j a R A) as (_ & (t & o & T & O & LT & LO & _) & M).
  destruct M as (tv & tview & g0 & g1 & x & F & _ & KT & AS & _). rewrite K in F, KT.
  destruct (class_law c p tv tview size g0 x g1 SE) as (t' & -> & G); [|exact KT|].
  - eapply Forall2_impl; [|exact F]. exact HP.
  - cbn in AS. rewrite T in AS. injection AS as <-. exists t. auto.
Qed.
Theorem survey_law prog fuel rl fs l10 ns norm (y : synth E) p y' : draw_survey prog fuel rl fs l10 ns norm y = (Ok p, y') ->
  acyclic (y_w y) -> distinct_names y -> SynthSpec.never_drawn (y_w y) ->
  forall c j a q, part y j -> at_ (y_w y) j a -> kind_of a = kind c -> has_parameters m a q -> proper c q ->
  exists x, dget (p_aux p) (name_of a) = Some x /\ length (sv_lat x) = p_nobj p /\ act c q (sv_lat x).
Proof.
  intros H AC DN ND c j a q PJ A K HP SE. destruct (SurveyLib.survey_part m _ _ _ _ _ _ _ _ _ _ H AC DN ND j a PJ A) as (b & tv & ov & KB & _ & RB & T & O & L1 & L2 & G & M).
  eexists. split; [exact G|]. cbn. split; [exact L1|]. destruct M as (vals & tview & g0 & g1 & x & F & _ & KT & AS & _). rewrite KB, K in F, KT.
  destruct (class_law c q vals tview (p_nobj p) g0 x g1 SE) as (t' & -> & R); [|exact KT|].
  - eapply Forall2_impl; [|exact F]. intros k v Q. apply HP. now apply RB.
  - cbn in AS. rewrite T in AS. injection AS as <-. exact R.
Qed.
End Aux.

Section Lum.
Variable ginv : R -> R -> R.
Variable gam : R -> R.
Variable inc : R -> R -> R.
Variables (sol rel Om h0 : R) (sky : string -> option (list R -> nat -> mc_st m -> res (spvals E) * mc_st m)) (form : string -> string).
Notation fo := (full_lib m ginv gam sol rel Om h0 sky form).
Lemma lum_law c (p : string -> R) vals size g x g' : gamma_known ginv gam inc c p -> lum_proper c p ->
  Forall2 (fun k y => p k = y) (lc_dreads (ld_cls (fst (lum_object fo c)))) vals ->
  lc_draw (ld_cls (fst (lum_object fo c))) vals size g = (Ok x, g') -> luminosity_law m inc c p x.
Proof.
  intros IG SE F H. destruct c; cbn in F; split_vals; cbn [lum_object ParetoDistribution BPLDistribution LogNormalDistribution Log10NormalDistribution SchechterDistribution DeltaDistribution LogUniLuminiosityDistribution luminosity fst ld_cls lc_draw full_lib lib fo_draw] in H;
    unfold lum_draw in H; cbn [String.eqb Ascii.eqb Bool.eqb] in H; cbn [lum_proper luminosity_law] in *.
  - exact (pareto_made _ _ _ _ _ _ SE H).
  - destruct SE as [[S1 S2] S3]. exact (bpl_made _ _ _ _ _ _ _ _ _ S1 S2 S3 H).
  - destruct (np_normal m _ _ size g) as [[z|] g1] eqn:D; [|discriminate]. injection H as <- <-. apply (npnorm_made _ _ _ _ _ _ _ _ D).
    intros y. unfold lognorm_draw. split; [apply exp_pos|apply ln_exp].
  - destruct (np_normal m _ _ size g) as [[z|] g1] eqn:D; [|discriminate]. injection H as <- <-. apply (npnorm_made _ _ _ _ _ _ _ _ D).
    intros y. unfold log10norm_draw. split; [apply Rpower_pos|apply ln_pow10].
  - destruct (rdraws (unit1 m) size g) as [u g1] eqn:D. injection H as <- <-. destruct SE as [S1 S2].
    apply (made_map _ _ _ _ _ (fun u => 0 <= u < 1) _ _ _ _ U1) with (2 := D). intros z Z. intros ZP. unfold schechter_draw. specialize (IG eq_refl).
    split; [apply Rmult_le_pos; [lra|apply (ig_pos _ _ _ _ IG); lra]|]. replace (p "Lmin" * ginv (1 + p "alpha") (1 - z) / p "Lmin") with (ginv (1 + p "alpha") (1 - z)) by (field; lra). apply (ig_inverse _ _ _ _ IG); lra.
  - cbn [delta_true] in H. injection H as <- <-. apply Forall_forall. intros y J. now apply repeat_spec in J.
  - destruct (leb _ 0) eqn:LA; [discriminate|]. unfold leb in LA. destruct (Rle_dec _ 0) as [|NA]; [discriminate|].
    destruct (leb (p "Lmax") _) eqn:LB; [discriminate|]. unfold leb in LB. destruct (Rle_dec (p "Lmax") _) as [|NB]; [discriminate|].
    destruct (rdraws (unit1 m) size g) as [u g1] eqn:D. injection H as <- <-. split; [lra|].
    apply (made_map _ _ _ _ _ (fun _ => True) _ _ _ _ (fun _ => Logic.I)) with (2 := D). intros z _. unfold loguni_draw. split; [apply exp_pos|apply ln_exp].
Qed.
Theorem survey_lum prog fuel rl fs l10 ns norm (y : synth E) pop y' c l p :
  draw_survey prog fuel rl fs l10 ns norm y = (Ok pop, y') -> y_der y = None -> y_lum y = Some l ->
  ld_cls l = ld_cls (fst (lum_object fo c)) -> lum_parameters m l p -> gamma_known ginv gam inc c p -> lum_proper c p ->
  luminosity_law m inc c p (sv_lat (p_lum pop)).
Proof.
  intros H DE YL K HP IG SE. destruct (SurveyMade.drawn_luminosity _ _ _ _ _ _ _ _ _ _ _ H DE) as (l' & vals & g & g' & YL' & V & D & O).
  assert (l' = l) by congruence. subst l'. rewrite K in D, V. unfold lum_parameters in HP. rewrite K in HP.
  assert (F2 : Forall2 (fun k x => p k = x) (lc_dreads (ld_cls (fst (lum_object fo c)))) vals) by (eapply Forall2_impl; [exact HP|exact V]).
  exact (lum_law _ _ _ _ _ _ _ IG SE F2 D).
Qed.
Variable w : world E.
Theorem population_lum c arg seed lum rate (y0 y : synth E) d k prog fuel rl fs l10 ns norm pop y' :
  build fo w c arg seed lum rate = Ok y0 -> snd (documented c) = Some d -> lm_type d = LumLibSpec.class_name k -> gamma_known ginv gam inc k arg -> lum_proper k arg ->
  y_lum y = y_lum y0 -> y_der y = None ->
  draw_survey prog fuel rl fs l10 ns norm y = (Ok pop, y') -> luminosity_law m inc k arg (sv_lat (p_lum pop)).
Proof.
  intros B HD HK IG SE YL DE H. destruct (LumPop.build_lum _ _ _ _ _ _ _ _ _ _ _ _ _ _ _ _ _ _ B HD HK) as (l & L & C & P).
  eapply survey_lum; [exact H|exact DE|rewrite YL; exact L|exact C|exact P|exact IG|exact SE].
Qed.
End Lum.
End P.
