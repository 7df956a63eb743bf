(** What the population contains after a survey: probabilities, values of the
    samplers, luminosities and truths. *)
From Verif Require Import Base BaseFacts Keeps Env ParamModel SelModel SelSpec SelProofs SimVarModel DistModel DistSpec DistProofs
  AuxModel AuxSpec AuxProofs AuxProps AuxMore Tree PopModel SynthModel SynthSpec SynthFrame SynthInv SurveyProofs SurveyTree SurveyLoop SurveyKeep SurveyFinal.
Open Scope nat_scope.
Open Scope list_scope.

Section P.
Variable E : env.
Notation V := (V E).
Notation Rst := (Rst E).
Notation selector := (selector E).
Notation sampler := (sampler E).
Notation world := (world E).
Notation synth := (synth E).
Notation one := (vofnat E 1).
Notation zero := (vofnat E 0).
Notation population := (population E).
Notation storage := (storage E).

Ltac kg rf tr := repeat first
  [ match goal with
    | |- keeps _ (bind _ _) => apply keeps_bind; [exact tr| |intros ?]
    | |- keeps _ (iterM _ _) => apply keeps_iter; [exact rf|exact tr|intros ?]
    | |- keeps _ (foldM _ _ _) => apply keeps_fold; [exact rf|exact tr|intros ? ?]
    | |- keeps _ (mapM _ _) => apply keeps_map; [exact rf|exact tr|intros ?]
    | |- keeps _ (ret _) => apply keeps_ret; exact rf
    | |- keeps _ (raise _) => apply keeps_raise; exact rf
    | |- keeps _ (lift _) => apply keeps_lift; exact rf
    | |- keeps _ get => apply keeps_get; exact rf
    | |- keeps _ (gets _) => apply keeps_gets; exact rf
    end
  | solve [trivial with fin]
  | match goal with
    | |- keeps _ (match ?x with _ => _ end) => destruct x
    | |- keeps _ (if ?x then _ else _) => destruct x
    | |- keeps _ (let (_, _) := ?x in _) => destruct x
    end ].

(** ** The distributions are untouched by the samplers and selectors *)
Definition same_dists (y y' : synth) : Prop := y_sp y' = y_sp y /\ y_lum y' = y_lum y.
Lemma sdr y : same_dists y y. Proof. now split. Qed.
Lemma sdt a b c : same_dists a b -> same_dists b c -> same_dists a c. Proof. unfold same_dists. intuition congruence. Qed.
Lemma in_w_sd A (m : AM E A) : keeps same_dists (in_w m).
Proof. intros y. unfold in_w. destruct (m (y_w y)). now split. Qed.
Lemma in_g_sd A (m : M Rst A) : keeps same_dists (in_g m).
Proof. intros y. unfold in_g. destruct (m (w_g (y_w y))). now split. Qed.
Hint Resolve in_w_sd in_g_sd : fin.
Lemma get_sp_sd : keeps same_dists (@get_sp E). Proof. unfold get_sp. kg sdr sdt. Qed.
Lemma props_sd rl i : keeps same_dists (@props E rl i). Proof. unfold props. kg sdr sdt. Qed.
Lemma check_len_sd n i : keeps same_dists (@check_len E n i). Proof. unfold check_len. kg sdr sdt. Qed.
Lemma add_truth_sd i t : keeps same_dists (@add_truth E i t). Proof. unfold add_truth, sampler_truth. kg sdr sdt. Qed.
Hint Resolve get_sp_sd props_sd check_len_sd add_truth_sd : fin.
Lemma survey_aux_sd prog rl n l acc kv : keeps same_dists (@survey_aux E prog rl n l acc kv).
Proof. unfold survey_aux. kg sdr sdt. Qed.
Lemma survey_flux_sd sg l10 n f : keeps same_dists (@survey_flux E sg l10 n f).
Proof. unfold survey_flux. kg sdr sdt. Qed.
Lemma read_graph_sd rl : keeps same_dists (@read_graph E rl).
Proof. intros y. unfold read_graph. destruct (build_graph _ _ _ _ _ _ _). now split. Qed.
Lemma spatial_step_sd prog n s2 ss : keeps same_dists (@spatial_step E prog n s2 ss).
Proof. unfold spatial_step. kg sdr sdt. Qed.
Lemma sd_ok A (m : YM E A) y r y1 : keeps same_dists m -> m y = (r, y1) -> same_dists y y1.
Proof. intros K H. specialize (K y). now rewrite H in K. Qed.

(** ** Spatial values and luminosities handed to a sampler *)
Definition keeps_given (k : nat) (w w' : world) : Prop := forall a, at_ w k a ->
  exists a', at_ w' k a' /\ a_sp (a_dy a') = a_sp (a_dy a) /\ a_lum (a_dy a') = a_lum (a_dy a).
Lemma kgr k w : keeps_given k w w. Proof. intros a A. eauto. Qed.
Lemma kgt k w1 w2 w3 : keeps_given k w1 w2 -> keeps_given k w2 w3 -> keeps_given k w1 w3.
Proof.
  intros H1 H2 a A. destruct (H1 a A) as (b & B & B1 & B2). destruct (H2 b B) as (c & C & C1 & C2).
  exists c. split; [easy|]. split; congruence.
Qed.
Lemma same_auxs_given k w w' : w_auxs w' = w_auxs w -> keeps_given k w w'.
Proof. intros H a A. exists a. unfold at_ in *. rewrite H. auto. Qed.
Lemma lset_given k i w b b' : nth_error (w_auxs w) i = Some b -> (i <> k \/ a_sp (a_dy b') = a_sp (a_dy b) /\ a_lum (a_dy b') = a_lum (a_dy b)) ->
  keeps_given k w (w_set_auxs (lset (w_auxs w) i b') w).
Proof.
  intros B H a A. unfold at_ in *. cbn [w_auxs w_set_auxs]. destruct (Nat.eq_dec k i) as [->|N].
  - destruct H as [H|[H1 H2]]; [easy|]. rewrite nth_lset_eq by (apply nth_error_Some; congruence). exists b'.
    assert (a = b) by congruence. subst. auto.
  - rewrite nth_lset_neq by auto. eauto.
Qed.
Lemma upd_aux_given k i f : (i <> k \/ forall d, a_sp (f d) = a_sp d /\ a_lum (f d) = a_lum d) -> keeps (keeps_given k) (@upd_aux E i f).
Proof.
  intros H w. unfold upd_aux, bind, get_aux, put_aux, modify. destruct (nth_error (w_auxs w) i) as [b|] eqn:B; cbn [of_opt]; [|apply kgr].
  eapply lset_given; [exact B|]. destruct H; [now left|right; apply H].
Qed.
Lemma get_aux_given k i : keeps (keeps_given k) (@get_aux E i). Proof. intros w. apply kgr. Qed.
Lemma get_sel_given k i : keeps (keeps_given k) (@get_sel E i). Proof. intros w. apply kgr. Qed.
Lemma upd_sel_given k i f : keeps (keeps_given k) (@upd_sel E i f).
Proof. intros w. unfold upd_sel, bind, get_sel, put_sel, modify. destruct (nth_error (w_sels w) i); cbn [of_opt]; [now apply same_auxs_given|apply kgr]. Qed.
Lemma on_sel_given k A i (m : SM E A) : keeps (keeps_given k) (on_sel i m).
Proof.
  intros w. unfold on_sel, bind, get_sel. destruct (nth_error (w_sels w) i) as [s|]; cbn [of_opt]; [|apply kgr]. destruct (m (s, w_g w)) as [r [s' g]].
  now apply same_auxs_given.
Qed.
Lemma gens_given k A (f : world -> res A * gens E) : keeps (keeps_given k) (fun w => let (r, g) := f w in (r, w_set_gens g w)).
Proof. intros w. destruct (f w) as [r g]. now apply same_auxs_given. Qed.
Hint Resolve get_aux_given get_sel_given upd_sel_given on_sel_given : fin.
Hint Extern 0 (keeps (keeps_given _) (fun w => let (r, g) := _ in (r, w_set_gens g w))) => apply gens_given : fin.
Hint Extern 0 (keeps (keeps_given _) (upd_aux _ _)) => apply upd_aux_given; right; intros; split; reflexivity : fin.
Lemma reads_given k i ks : keeps (keeps_given k) (@aux_reads E i ks).
Proof. unfold aux_reads. kg (kgr k) (kgt k). Qed.
Hint Resolve reads_given : fin.
Lemma log_given k i : keeps (keeps_given k) (modify (@w_add_log E i)). Proof. intros w. now apply same_auxs_given. Qed.
Hint Resolve log_given : fin.
Lemma run_true_given k i n : keeps (keeps_given k) (@run_true E i n). Proof. unfold run_true. kg (kgr k) (kgt k). Qed.
Lemma run_obs_given k i n : keeps (keeps_given k) (@run_obs E i n). Proof. unfold run_obs. kg (kgr k) (kgt k). Qed.
Lemma run_prob_given k i : keeps (keeps_given k) (@run_prob E i). Proof. unfold run_prob. kg (kgr k) (kgt k). Qed.
Hint Resolve run_true_given run_obs_given run_prob_given : fin.
Lemma aux_pre_given k a : keeps (keeps_given k) (@aux_pre E a). Proof. unfold aux_pre. kg (kgr k) (kgt k). Qed.
Lemma aux_finish_given k prog i n : keeps (keeps_given k) (@aux_finish E prog i n). Proof. unfold aux_finish. kg (kgr k) (kgt k). Qed.
Hint Resolve aux_pre_given aux_finish_given : fin.

Lemma keeps_bind_st S A B (R : S -> S -> Prop) (tr : forall a b c, R a b -> R b c -> R a c) (m : M S A) (k : A -> M S B) s :
  R s (snd (m s)) -> (forall a s1, m s = (Ok a, s1) -> R s1 (snd (k a s1))) -> R s (snd (bind m k s)).
Proof.
  intros H K. unfold bind. destruct (m s) as [[a|e] s1] eqn:X; [|exact H]. eapply tr; [exact H|now apply K].
Qed.

Lemma draw_given k prog fuel : forall i n w, (forall j, depends w i j -> ~ reaches w j k) ->
  keeps_given k w (snd (@aux_draw E prog fuel i n w)).
Proof.
  induction fuel as [|fuel IH]; intros i n w H; cbn [aux_draw]; [apply kgr|].
  apply keeps_bind_st; [exact (kgt k)|apply kgr|]. intros a w1 G. apply get_aux_inv in G. destruct G as [-> A].
  destruct (a_sampled (a_dy a)); [apply kgr|].
  apply keeps_bind_st; [exact (kgt k)|apply aux_pre_given|]. intros [] w1 G1.
  assert (F1 := aux_pre_keeps _ a w). rewrite G1 in F1. cbn in F1.
  assert (X : forall l wa, (forall kv, In kv l -> depends w i (snd kv)) -> same_wiring w wa ->
    keeps_given k wa (snd (iterM (fun kv : string * nat =>
          let! b := get_aux (snd kv) in
          if a_issec (a_ln b) then
            match a_sp (a_dy a) with
            | None => raise AttributeError
            | Some sp => set_sp (snd kv) sp ;; aux_draw prog fuel (snd kv) n
            end
          else raise RuntimeError) l wa))).
  { induction l as [|kv l IHl]; intros wa DL W; cbn [iterM]; [apply kgr|].
    assert (NK : snd kv <> k). { intros Q. apply (H (snd kv)); [apply DL; now left|]. rewrite Q. constructor. }
    apply keeps_bind_st; [exact (kgt k)| |].
    - apply keeps_bind_st; [exact (kgt k)|apply kgr|]. intros b wb G. apply get_aux_inv in G. destruct G as [-> B].
      destruct (a_issec (a_ln b)); [|apply kgr]. destruct (a_sp (a_dy a)) as [sp|]; [|apply kgr].
      apply keeps_bind_st; [exact (kgt k)|apply upd_aux_given; now left|]. intros [] wb G.
      assert (D1 := drew_set_sp _ prog n _ _ _ _ G). assert (W1 := wiring_trans _ _ _ _ W (dr_wiring D1)).
      apply IH. intros j DJ R. apply (H (snd kv)); [apply DL; now left|].
      apply (reaches_wiring _ _ _ _ _ W1). eapply reaches_step; eassumption.
    - intros [] wb G. apply IHl; [intros; apply DL; now right|].
      eapply wiring_trans; [exact W|].
      assert (K : keeps (wframe E) (
          let! b := get_aux (snd kv) in
          if a_issec (a_ln b) then
            match a_sp (a_dy a) with
            | None => raise AttributeError
            | Some sp => set_sp (snd kv) sp ;; aux_draw prog fuel (snd kv) n
            end
          else raise RuntimeError)).
      { apply keeps_bind; [exact (wframe_trans E)|apply get_aux_keeps|intros b].
        destruct (a_issec _); [|apply keeps_raise; exact (wframe_refl E)]. destruct (a_sp _); [|apply keeps_raise; exact (wframe_refl E)].
        apply keeps_bind; [exact (wframe_trans E)|apply set_sp_keeps|intros []; apply aux_draw_keeps]. }
      specialize (K wa). rewrite G in K. apply K. }
  apply keeps_bind_st; [exact (kgt k)| |intros [] w2 G2; apply aux_finish_given].
  apply X; [|apply F1]. intros [nm j] I. exists a, nm. auto.
Qed.

(** ** Parameters of samplers read the same before and after *)
Lemma preads_same c ks : keeps (same_reads E c) (preads E c ks).
Proof.
  unfold preads. apply keeps_map; [apply same_refl|apply same_trans|]. intros k o. apply pread_same.
Qed.
Definition wreads (w w' : world) : Prop := forall i a, at_ w i a -> exists a', at_ w' i a' /\ kind_of a' = kind_of a /\
  same_reads E (k_params (kind_of a)) (a_par (a_dy a)) (a_par (a_dy a')).
Lemma wrr w : wreads w w. Proof. intros i a A. exists a. split; [easy|]. split; [easy|]. apply same_refl. Qed.
Lemma wrt a b c : wreads a b -> wreads b c -> wreads a c.
Proof.
  intros H1 H2 i x X. destruct (H1 i x X) as (x1 & X1 & K1 & S1). destruct (H2 i x1 X1) as (x2 & X2 & K2 & S2).
  exists x2. split; [easy|]. split; [congruence|]. eapply same_trans; [exact S1|]. now rewrite K1 in S2.
Qed.
Lemma same_auxs_reads w w' : w_auxs w' = w_auxs w -> wreads w w'.
Proof. intros H i a A. exists a. unfold at_ in *. rewrite H. split; [easy|]. split; [easy|]. apply same_refl. Qed.
Lemma upd_aux_reads i f : (forall d, a_par (f d) = a_par d) -> keeps wreads (@upd_aux E i f).
Proof.
  intros H w. unfold upd_aux, bind, get_aux, put_aux, modify. destruct (nth_error (w_auxs w) i) as [b|] eqn:B; cbn [of_opt]; [|apply wrr].
  intros j a A. unfold at_ in *. cbn [snd w_auxs w_set_auxs]. destruct (Nat.eq_dec j i) as [->|N].
  - rewrite nth_lset_eq by (apply nth_error_Some; congruence). assert (a = b) by congruence. subst. exists (upd_dy f b).
    split; [easy|]. split; [easy|]. cbn. rewrite H. apply same_refl.
  - rewrite nth_lset_neq by auto. exists a. split; [easy|]. split; [easy|]. apply same_refl.
Qed.
Lemma aux_reads_reads i ks : keeps wreads (@aux_reads E i ks).
Proof.
  intros w. unfold aux_reads, bind, get_aux. destruct (nth_error (w_auxs w) i) as [b|] eqn:B; cbn; [|apply wrr].
  assert (P := preads_same (k_params (kind_of b)) ks (a_par (a_dy b))).
  destruct (preads E (k_params (kind_of b)) ks (a_par (a_dy b))) as [r o]. cbn in P. unfold upd_aux. rewrite B. cbn.
  intros j a A. unfold at_ in *. cbn [snd w_auxs w_set_auxs]. destruct (Nat.eq_dec j i) as [->|N].
  - rewrite nth_lset_eq by (apply nth_error_Some; congruence). assert (a = b) by congruence. subst. eexists.
    split; [reflexivity|]. split; [easy|]. exact P.
  - rewrite nth_lset_neq by auto. exists a. split; [easy|]. split; [easy|]. apply same_refl.
Qed.
Lemma get_aux_reads i : keeps wreads (@get_aux E i). Proof. intros w. apply wrr. Qed.
Lemma get_sel_reads i : keeps wreads (@get_sel E i). Proof. intros w. apply wrr. Qed.
Lemma upd_sel_reads i f : keeps wreads (@upd_sel E i f).
Proof. intros w. unfold upd_sel, bind, get_sel, put_sel, modify. destruct (nth_error (w_sels w) i); cbn [of_opt]; [now apply same_auxs_reads|apply wrr]. Qed.
Lemma on_sel_reads A i (m : SM E A) : keeps wreads (on_sel i m).
Proof.
  intros w. unfold on_sel, bind, get_sel. destruct (nth_error (w_sels w) i) as [s|]; cbn [of_opt]; [|apply wrr]. destruct (m (s, w_g w)) as [r [s' g]].
  now apply same_auxs_reads.
Qed.
Lemma gens_reads A (f : world -> res A * gens E) : keeps wreads (fun w => let (r, g) := f w in (r, w_set_gens g w)).
Proof. intros w. destruct (f w) as [r g]. now apply same_auxs_reads. Qed.
Hint Resolve get_aux_reads get_sel_reads upd_sel_reads on_sel_reads aux_reads_reads : fin.
Hint Extern 0 (keeps wreads (fun w => let (r, g) := _ in (r, w_set_gens g w))) => apply gens_reads : fin.
Hint Extern 0 (keeps wreads (upd_aux _ _)) => apply upd_aux_reads; intros; reflexivity : fin.
Lemma log_reads i : keeps wreads (modify (@w_add_log E i)). Proof. intros w. now apply same_auxs_reads. Qed.
Hint Resolve log_reads : fin.
Lemma run_true_reads i n : keeps wreads (@run_true E i n). Proof. unfold run_true. kg wrr wrt. Qed.
Lemma run_obs_reads i n : keeps wreads (@run_obs E i n). Proof. unfold run_obs. kg wrr wrt. Qed.
Lemma run_prob_reads i : keeps wreads (@run_prob E i). Proof. unfold run_prob. kg wrr wrt. Qed.
Hint Resolve run_true_reads run_obs_reads run_prob_reads : fin.
Lemma aux_pre_reads a : keeps wreads (@aux_pre E a). Proof. unfold aux_pre. kg wrr wrt. Qed.
Lemma aux_finish_reads prog i n : keeps wreads (@aux_finish E prog i n). Proof. unfold aux_finish. kg wrr wrt. Qed.
Lemma set_sp_reads i sp : keeps wreads (@set_sp E i sp). Proof. unfold set_sp. kg wrr wrt. Qed.
Lemma set_lum_reads i l : keeps wreads (@set_lum E i l). Proof. unfold set_lum. kg wrr wrt. Qed.
Hint Resolve aux_pre_reads aux_finish_reads set_sp_reads set_lum_reads : fin.
Lemma aux_draw_reads prog fuel : forall i n, keeps wreads (@aux_draw E prog fuel i n).
Proof. induction fuel as [|fuel IH]; intros i n; cbn [aux_draw]; kg wrr wrt. Qed.
Hint Resolve aux_draw_reads : fin.
Definition yreads (y y' : synth) : Prop := wreads (y_w y) (y_w y').
Lemma yrr y : yreads y y. Proof. apply wrr. Qed.
Lemma yrt a b c : yreads a b -> yreads b c -> yreads a c. Proof. apply wrt. Qed.
Lemma in_w_reads A (m : AM E A) : keeps wreads m -> keeps yreads (in_w m).
Proof. intros H y. unfold in_w. specialize (H (y_w y)). destruct (m (y_w y)) as [r w]. exact H. Qed.
Lemma in_w_get_reads : keeps yreads (in_w (E := E) get). Proof. intros y. now apply same_auxs_reads. Qed.
Hint Resolve in_w_get_reads : fin.
Hint Extern 0 (keeps yreads (in_w _)) => apply in_w_reads; solve [trivial with fin] : fin.
Lemma calm_reads (y y1 : synth) : calm E y y1 -> yreads y y1. Proof. intros [H _]. now apply same_auxs_reads. Qed.
Lemma in_g_reads A (m : M Rst A) : keeps yreads (in_g m). Proof. intros y. apply calm_reads, in_g_calm. Qed.
Lemma in_sp_reads A (m : DM E A) : keeps yreads (in_sp m). Proof. intros y. apply calm_reads, in_sp_calm. Qed.
Lemma in_lum_reads A (m : LM E A) : keeps yreads (in_lum m). Proof. intros y. apply calm_reads, in_lum_calm. Qed.
Hint Resolve in_g_reads in_sp_reads in_lum_reads : fin.
Lemma get_sp_reads : keeps yreads (@get_sp E). Proof. unfold get_sp. kg yrr yrt. Qed.
Lemma props_reads rl i : keeps yreads (@props E rl i). Proof. unfold props. kg yrr yrt. Qed.
Lemma check_len_reads n i : keeps yreads (@check_len E n i). Proof. unfold check_len. kg yrr yrt. Qed.
Lemma add_truth_reads i t : keeps yreads (@add_truth E i t). Proof. unfold add_truth, sampler_truth. kg yrr yrt. Qed.
Lemma times_reads p q : keeps yreads (@times E p q). Proof. unfold times. kg yrr yrt. Qed.
Hint Resolve get_sp_reads props_reads check_len_reads add_truth_reads times_reads : fin.
Lemma survey_aux_reads prog rl n l acc kv : keeps yreads (@survey_aux E prog rl n l acc kv).
Proof. unfold survey_aux. kg yrr yrt. Qed.
Lemma survey_lum_reads prog rl n p t : keeps yreads (@survey_lum E prog rl n p t).
Proof. unfold survey_lum. kg yrr yrt. Qed.
End P.
