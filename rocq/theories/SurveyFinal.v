(** From the steps of a survey to statements about the synth before and after it
    and the population. *)
From Verif Require Import Base BaseFacts Keeps Env ParamModel SelModel SelSpec SelProofs SimVarModel DistModel DistSpec DistProofs
  AuxModel AuxSpec AuxProofs AuxProps AuxMore Tree PopModel SynthModel SynthSpec SynthFrame SynthInv SurveyProofs SurveyTree SurveyLoop SurveyKeep.
Open Scope nat_scope.
Open Scope list_scope.

Section P.
Variable E : env.
Notation V := (V E).
Notation Rst := (Rst E).
Notation selector := (selector E).
Notation sampler := (sampler E).
Notation world := (world E).
Notation synth := (synth E).
Notation one := (vofnat E 1).
Notation zero := (vofnat E 0).
Notation population := (population E).
Notation storage := (storage E).

(** ** Steps that leave the heap alone *)
Definition calm (y y' : synth) : Prop := w_auxs (y_w y') = w_auxs (y_w y) /\ w_sels (y_w y') = w_sels (y_w y).
Lemma calm_refl y : calm y y. Proof. now split. Qed.
Lemma calm_trans a b c : calm a b -> calm b c -> calm a c. Proof. unfold calm. intuition congruence. Qed.
Lemma in_sp_calm A (m : DM E A) : keeps calm (in_sp m).
Proof. intros y. unfold in_sp. destruct (m (y_sp y, w_g (y_w y))) as [r [d g]]. now split. Qed.
Lemma in_lum_calm A (m : LM E A) : keeps calm (in_lum m).
Proof.
  intros y. unfold in_lum. destruct (y_lum y) as [l|]; [|apply calm_refl].
  destruct (m (l, w_g (y_w y))) as [r [d g]]. now split.
Qed.
Lemma in_g_calm A (m : M Rst A) : keeps calm (in_g m).
Proof. intros y. unfold in_g. destruct (m (w_g (y_w y))). now split. Qed.
Lemma survey_size_calm ns norm : keeps calm (@survey_size E ns norm).
Proof.
  unfold survey_size. apply keeps_bind; [exact calm_trans|intros y; now split|intros _].
  destruct ns; [apply keeps_ret; exact calm_refl|]. apply keeps_bind; [exact calm_trans|apply in_sp_calm|intros r; apply in_g_calm].
Qed.
Lemma survey_flux_calm sg l10 n f : keeps calm (@survey_flux E sg l10 n f).
Proof.
  unfold survey_flux. apply keeps_bind; [exact calm_trans|apply keeps_get; exact calm_refl|intros y].
  apply keeps_bind; [exact calm_trans|intros z; now split|intros s].
  destruct (is_unity _), sg; try (apply keeps_ret; exact calm_refl). destruct (vlt _ _ _); [apply keeps_raise; exact calm_refl|].
  apply keeps_bind; [exact calm_trans|apply in_g_calm|intros es].
  apply keeps_bind; [exact calm_trans|apply keeps_lift; exact calm_refl|intros ls].
  apply keeps_bind; [exact calm_trans|apply keeps_lift; exact calm_refl|intros []]. apply keeps_ret. exact calm_refl.
Qed.
Lemma read_graph_calm rl : keeps calm (@read_graph E rl).
Proof. intros y. unfold read_graph. destruct (build_graph _ _ _ _ _ _ _) as [r g]. now split. Qed.

Lemma calm_ok A (m : YM E A) y r y1 : keeps calm m -> m y = (r, y1) -> calm y y1.
Proof. intros K H. specialize (K y). now rewrite H in K. Qed.
Lemma frame_ok A (m : YM E A) y r y1 : keeps (yframe E) m -> m y = (r, y1) -> yframe E y y1.
Proof. intros K H. specialize (K y). now rewrite H in K. Qed.

(** ** Adding selectors *)
Lemma sel_add_inv (s1 s2 s3 : selector) : sel_add s1 s2 = Ok s3 ->
  exists m1 m2 m, s_mask s1 = Some m1 /\ s_mask s2 = Some m2 /\ np_logical_and m1 m2 = Ok m /\ s_mask s3 = Some m.
Proof.
  unfold sel_add, sel_selection. intros H. destruct (s_mask s2) as [m2|]; [|discriminate]. cbn in H.
  destruct (s_mask s1) as [m1|]; [|discriminate]. apply rbind_inv in H. destruct H as (m & H1 & H). injection H as <-.
  exists m1, m2, m. auto.
Qed.
Definition oks (s : selector) (i : nat) : Prop := exists m, s_mask s = Some m /\ accepts m i.
Lemma oks_add s1 s2 s3 i : sel_add s1 s2 = Ok s3 -> (oks s3 i <-> oks s1 i /\ oks s2 i).
Proof.
  intros H. apply sel_add_inv in H. destruct H as (m1 & m2 & m & M1 & M2 & L & M3).
  assert (A := and_accepts _ _ _ i L). unfold oks. rewrite M1, M2, M3. split.
  - intros (x & X & Y). injection X as <-. apply A in Y. destruct Y. split; [exists m1|exists m2]; auto.
  - intros [(x & X & Y) (z & Z & T)]. injection X as <-. injection Z as <-. exists m. split; [easy|]. now apply A.
Qed.
Lemma oks_all nm n i : i < n -> oks (all_selected E nm n) i.
Proof. intros L. exists (repeat true n). split; [easy|now apply accepts_all]. Qed.

(** Selector object [k] lets object [i] pass. *)
Definition passes (w : world) (k i : nat) : Prop :=
  exists s, nth_error (w_sels w) k = Some s /\ (is_unity (s_kind s) = true \/ oks s i).

Lemma selection_passes st : forall acc (y : synth) r y1 i, foldM (survey_selection (E := E)) acc st y = (Ok r, y1) ->
  (oks (snd r) i <-> oks (snd acc) i /\ forall k c, In (k, c) st -> passes (y_w y) (c_sel c) i).
Proof.
  induction st as [|[k c] st IH]; intros acc y r y1 i H; cbn [foldM] in H.
  - unfold ret in H. injection H as <- <-. cbn. split; [intros A; split; [easy|]|tauto]. intros ? ? [].
  - apply bind_inv_ok in H. destruct H as (a1 & z & H1 & H). apply survey_selection_inv in H1.
    destruct H1 as (-> & s & N & C). cbn [snd] in N. rewrite (IH _ _ _ _ i H). clear IH H.
    destruct C as [(U & ->)|(U & q & t & p & _ & _ & AD & ->)].
    + split; intros [A B]; (split; [easy|]).
      * intros k' c' [Q|I]; [injection Q as <- <-; exists s; auto|eauto].
      * intros k' c' I. apply (B k'). now right.
    + cbn [snd]. rewrite (oks_add _ _ _ i AD). split.
      * intros [[A1 A2] B]. split; [easy|]. intros k' c' [Q|I]; [injection Q as <- <-; exists s; auto|eauto].
      * intros [A B]. split; [split; [easy|]|].
        -- destruct (B k c) as (s' & N' & [U'|P]); [now left|congruence|]. cbn in N'. congruence.
        -- intros k' c' I. apply (B k'). now right.
Qed.

(** ** Products of probabilities *)
Lemma inplace_value (f : V -> V -> V) a b c : bcast2_inplace f a b = Ok c -> forall i x, nth_error a i = Some x ->
  exists z, value_at E b i = Some z /\ nth_error c i = Some (f x z).
Proof.
  unfold bcast2_inplace, value_at. intros H i x X. destruct (Nat.eqb_spec (length a) (length b)) as [L|L].
  - injection H as <-. assert (I : i < length a) by (apply nth_error_Some; congruence).
    assert (J : exists z, nth_error b i = Some z).
    { destruct (nth_error b i) eqn:Q; [eauto|]. apply nth_error_None in Q. lia. }
    destruct J as (z & Z). exists z. rewrite nth_map_combine by easy. rewrite X, Z. split; [|easy].
    destruct (Nat.eqb_spec (length b) 1); [|easy]. assert (i = 0) by lia. now subst.
  - destruct b as [|z [|]]; try discriminate. injection H as <-. cbn. exists z. rewrite nth_error_map, X. auto.
Qed.

Lemma selection_product st : forall acc (y : synth) r y1, foldM (survey_selection (E := E)) acc st y = (Ok r, y1) ->
  exists js : list (string * container E), exists qs,
    (forall kv, In kv js <-> In kv st /\ exists s, nth_error (w_sels (y_w y)) (c_sel (snd kv)) = Some s /\ is_unity (s_kind s) = false) /\
    (NoDup (map fst st) -> NoDup (map fst js)) /\
    Forall2 (fun kv q => c_prob (snd kv) = Some q) js qs /\
    forall i x, nth_error (fst acc) i = Some x -> nth_error (fst r) i = product_at E (Some x) qs i.
Proof.
  induction st as [|[k c] st IH]; intros acc y r y1 H; cbn [foldM] in H.
  - unfold ret in H. injection H as <- <-. exists [], []. split; [|split; [|split]].
    + intros kv. cbn. split; [easy|]. now intros [].
    + intros _. constructor.
    + constructor.
    + intros i x X. now rewrite X.
  - apply bind_inv_ok in H. destruct H as (a1 & z & H1 & H). apply survey_selection_inv in H1.
    destruct H1 as (-> & s & N & C). cbn [snd] in N. destruct (IH _ _ _ _ H) as (js & qs & J1 & J2 & J3 & J4). clear IH H.
    destruct C as [(U & ->)|(U & q & t & p & CQ & PP & AD & ->)].
    + exists js, qs. split; [|split; [|split; [easy|easy]]].
      * intros kv. rewrite J1. split; [intros [I X]; split; [now right|easy]|]. intros [[<-|I] X]; [|easy].
        destruct X as (s' & N' & U'). cbn in N'. congruence.
      * cbn. intros ND. apply NoDup_cons_iff in ND. now apply J2.
    + exists ((k, c) :: js), (q :: qs). split; [|split; [|split]].
      * intros kv. cbn. rewrite J1. split.
        -- intros [<-|[I X]]; [|auto]. split; [now left|]. exists s. auto.
        -- intros [[<-|I] X]; auto.
      * cbn. intros ND. apply NoDup_cons_iff in ND. destruct ND as [NI ND]. constructor; [|now apply J2].
        intros I. apply NI. apply in_map_iff in I. destruct I as (kv & <- & I). apply J1 in I. now apply in_map.
      * constructor; [easy|exact J3].
      * intros i x X. destruct (inplace_value _ _ _ _ PP i x X) as (zz & Z & PZ). cbn [fst] in J4.
        rewrite (J4 i _ PZ). unfold product_at. cbn [fold_left]. now rewrite Z.
Qed.

Section Step.
Variables (prog : bool) (fuel rl : nat) (fs : option V) (l10 : bool) (ns : option nat) (norm : bool) (y : synth) (p : population) (y' : synth) (t : trace E).
Hypothesis S : steps E prog fuel rl fs l10 ns norm y p y' t.

(** ** The first stages *)
Lemma sky_calm : calm y (tr_sky E t).
Proof.
  eapply calm_trans; [|eapply calm_trans].
  - eapply calm_ok; [apply survey_size_calm|exact (sp_size _ _ _ _ _ _ _ _ _ _ _ _ S)].
  - eapply calm_ok; [apply in_sp_calm|exact (sp_dist _ _ _ _ _ _ _ _ _ _ _ _ S)].
  - eapply calm_ok; [apply in_sp_calm|exact (sp_sky _ _ _ _ _ _ _ _ _ _ _ _ S)].
Qed.
Lemma sky_frame : yframe E y (tr_sky E t).
Proof.
  eapply yframe_trans; [|eapply yframe_trans].
  - eapply frame_ok; [apply survey_size_keeps|exact (sp_size _ _ _ _ _ _ _ _ _ _ _ _ S)].
  - eapply frame_ok; [apply in_sp_keeps, draw_distance_keeps|exact (sp_dist _ _ _ _ _ _ _ _ _ _ _ _ S)].
  - eapply frame_ok; [apply in_sp_keeps, draw_sky_keeps|exact (sp_sky _ _ _ _ _ _ _ _ _ _ _ _ S)].
Qed.
Lemma lumd_frame : yframe E (tr_sky E t) (tr_lumd E t).
Proof. eapply frame_ok; [apply survey_lum_keeps|exact (sp_lum _ _ _ _ _ _ _ _ _ _ _ _ S)]. Qed.

(** ** The last stages: the samplers are not touched any more *)
Lemma fsel_inv : exists s0 s1 g0 g1, nth_error (w_sels (y_w (tr_auxd E t))) (y_flux y) = Some s0 /\
  sel_select prog (tr_n E t) (set_observed_flux s0 (tr_fobs E t), g0) = (Ok tt, (s1, g1)) /\
  nth_error (w_sels (y_w (tr_fsel E t))) (y_flux y) = Some s1 /\
  w_auxs (y_w (tr_fsel E t)) = w_auxs (y_w (tr_auxd E t)) /\
  forall k, k <> y_flux y -> nth_error (w_sels (y_w (tr_fsel E t))) k = nth_error (w_sels (y_w (tr_auxd E t))) k.
Proof.
  assert (C := calm_ok _ _ _ _ _ (survey_flux_calm _ _ _ _) (sp_fobs _ _ _ _ _ _ _ _ _ _ _ _ S)). destruct C as [C1 C2].
  destruct (sp_fsel _ _ _ _ _ _ _ _ _ _ _ _ S) as (y1 & H1 & H2).
  apply in_w_inv in H1. destruct H1 as (w1 & H1 & ->). apply in_w_inv in H2. destruct H2 as (w2 & H2 & ->). cbn [y_w with_w] in *.
  apply upd_sel_inv in H1. destruct H1 as (s0 & N0 & ->). apply on_sel_inv in H2. destruct H2 as (x & x' & g' & NX & M & ->).
  cbn [w_sels w_auxs w_set_sels w_set_gens] in *. rewrite C2 in *.
  assert (L : y_flux y < length (w_sels (y_w (tr_auxd E t)))) by (apply nth_error_Some; congruence).
  rewrite nth_lset_eq in NX by easy. injection NX as <-.
  exists s0, x', (w_g (y_w (tr_fluxd E t))), g'. split; [easy|]. split; [exact M|]. split; [|split].
  - apply nth_lset_eq. now rewrite lset_length.
  - exact C1.
  - intros k N. rewrite !nth_lset_neq by auto. reflexivity.
Qed.
Lemma ssel_inv : w_auxs (y_w (tr_ssel E t)) = w_auxs (y_w (tr_fsel E t)) /\
  (forall k, y_ssel y <> Some k -> nth_error (w_sels (y_w (tr_ssel E t))) k = nth_error (w_sels (y_w (tr_fsel E t))) k) /\
  match y_ssel y with
  | None => tr_s3 E t = tr_s2 E t
  | Some i => exists sp s0 s1 s2 g0 g1, spatial_values (y_sp (tr_fsel E t)) = Ok sp /\
      nth_error (w_sels (y_w (tr_fsel E t))) i = Some s0 /\ set_spatial_distribution s0 sp = Ok s1 /\
      sel_select prog (tr_n E t) (s1, g0) = (Ok tt, (s2, g1)) /\
      nth_error (w_sels (y_w (tr_ssel E t))) i = Some s2 /\ sel_add (tr_s2 E t) s2 = Ok (tr_s3 E t)
  end.
Proof.
  assert (H := sp_s3 _ _ _ _ _ _ _ _ _ _ _ _ S). unfold spatial_step in H. destruct (y_ssel y) as [i|].
  - apply bind_inv_ok in H. destruct H as (sp & z & H1 & H). apply get_sp_inv in H1. destruct H1 as [-> H1].
    apply bind_inv_ok in H. destruct H as (s0 & z & H2 & H). apply in_w_get_sel in H2. destruct H2 as [-> H2].
    apply bind_inv_ok in H. destruct H as (s1 & z & H3 & H). apply lift_inv in H3. destruct H3 as [H3 ->].
    apply bind_inv_ok in H. destruct H as ([] & z & H4 & H). apply in_w_inv in H4. destruct H4 as (w1 & H4 & ->).
    unfold put_sel, modify in H4. injection H4 as <-.
    apply bind_inv_ok in H. destruct H as ([] & z & H5 & H). apply in_w_inv in H5. destruct H5 as (w2 & H5 & ->). cbn [y_w with_w] in *.
    apply on_sel_inv in H5. destruct H5 as (x & x' & g' & NX & M & ->). cbn [w_sels w_auxs w_set_sels w_set_gens] in *.
    apply bind_inv_ok in H. destruct H as (s2 & z & H6 & H). apply in_w_get_sel in H6. destruct H6 as [-> H6]. cbn [y_w with_w w_sels w_auxs w_set_sels w_set_gens] in *.
    apply lift_inv in H. destruct H as [H Q]. rewrite Q in *. cbn [y_w with_w w_sels w_auxs w_set_sels w_set_gens] in *.
    assert (L : i < length (w_sels (y_w (tr_fsel E t)))) by (apply nth_error_Some; congruence).
    rewrite nth_lset_eq in NX by easy. injection NX as <-. rewrite nth_lset_eq in H6 by (now rewrite lset_length). injection H6 as <-.
    split; [easy|]. split.
    + intros k N. assert (k <> i) by congruence. rewrite !nth_lset_neq by auto. reflexivity.
    + exists sp, s0, s1, x', (w_g (y_w (tr_fsel E t))), g'. repeat (split; [easy|]). split; [|exact H].
      apply nth_lset_eq. now rewrite lset_length.
  - unfold ret in H. injection H as <- <-. auto.
Qed.
Lemma final_inv : w_auxs (y_w y') = w_auxs (y_w (tr_ssel E t)) /\
  (forall k, k <> y_dsel y -> nth_error (w_sels (y_w y')) k = nth_error (w_sels (y_w (tr_ssel E t))) k) /\
  w_sels (y_w y') = w_sels (y_w (tr_dsel E t)).
Proof.
  assert (C : calm (tr_dsel E t) y').
  { eapply calm_trans.
    - eapply calm_ok; [apply in_sp_calm|exact (sp_rm _ _ _ _ _ _ _ _ _ _ _ _ S)].
    - eapply calm_ok; [apply read_graph_calm|exact (sp_g _ _ _ _ _ _ _ _ _ _ _ _ S)]. }
  destruct C as [C1 C2]. assert (H := sp_dsel _ _ _ _ _ _ _ _ _ _ _ _ S).
  apply in_w_inv in H. destruct H as (w2 & H & Q). rewrite Q in *. cbn [y_w with_w] in *.
  apply on_sel_inv in H. destruct H as (x & x' & g' & NX & M & ->). cbn [w_sels w_auxs w_set_sels w_set_gens] in *.
  split; [easy|]. split; [|easy]. intros k N. rewrite C2. apply nth_lset_neq. auto.
Qed.
Lemma auxs_final : w_auxs (y_w y') = w_auxs (y_w (tr_auxd E t)).
Proof. destruct final_inv as (-> & _). destruct ssel_inv as (-> & _). destruct fsel_inv as (_ & _ & _ & _ & _ & _ & _ & H & _). exact H. Qed.
Lemma sels_final k : y_ssel y <> Some k -> k <> y_dsel y -> nth_error (w_sels (y_w y')) k = nth_error (w_sels (y_w (tr_fsel E t))) k.
Proof. intros A B. destruct final_inv as (_ & -> & _); [|exact B]. destruct ssel_inv as (_ & -> & _); [easy|exact A]. Qed.

(** ** The samplers that were collected *)
Lemma wiring_lumd : same_wiring (y_w y) (y_w (tr_lumd E t)).
Proof. eapply wiring_trans; [apply sky_frame|apply lumd_frame]. Qed.
Lemma at_auxs_eq w w' : w_auxs w = w_auxs w' -> forall j a, at_ (E := E) w j a <-> at_ w' j a.
Proof. unfold at_. intros ->. tauto. Qed.
Lemma depends_eq w w' : w_auxs w = w_auxs w' -> forall i j, depends (E := E) w i j -> depends w' i j.
Proof. intros H i j (a & k & A & I). exists a, k. split; [|easy]. now apply (at_auxs_eq _ _ H). Qed.
Lemma reaches_eq w w' : w_auxs w = w_auxs w' -> forall i j, reaches (E := E) w i j <-> reaches w' i j.
Proof.
  intros H i j. split; intros R; (induction R; [constructor|]).
  - eapply reaches_step; [|eassumption]. eapply depends_eq; [exact H|easy].
  - eapply reaches_step; [|eassumption]. eapply depends_eq; [symmetry; exact H|easy].
Qed.

Definition U (j : nat) : Prop := part y j.
Lemma sky_part j : (match y_der y with Some i => reaches (y_w (tr_sky E t)) i j | None => False end) \/
   (exists kv, In kv (y_aux y) /\ reaches (y_w (tr_sky E t)) (snd kv) j) <-> part y j.
Proof.
  assert (Q := sky_calm). destruct Q as [Q _]. unfold part. split.
  - intros [H|((k & i) & I & R)].
    + destruct (y_der y) as [i|]; [|easy]. right. exists i. split; [easy|]. now apply (reaches_eq _ _ Q).
    + left. exists k, i. split; [easy|]. now apply (reaches_eq _ _ Q).
  - intros [(k & i & I & R)|(i & -> & R)].
    + right. exists (k, i). split; [easy|]. now apply (reaches_eq _ _ Q).
    + left. now apply (reaches_eq _ _ Q).
Qed.
Lemma sky_der : y_der (tr_sky E t) = y_der y.
Proof. assert (Q := proj2 sky_frame). unfold conf_static in Q. congruence. Qed.
Lemma sky_nonempty : distinct_names y -> nonempty E (y_w (tr_sky E t)) U.
Proof.
  intros [N _] j b UJ B. apply (N j b UJ). unfold at_ in *. now rewrite (proj1 sky_calm) in B.
Qed.
Lemma sky_distinct : distinct_names y -> distinct E (y_w (tr_sky E t)) U.
Proof.
  intros [_ N] i j a b UI UJ A B. assert (Q := proj1 sky_calm). unfold at_ in *. rewrite Q in A, B. now apply (N i j a b).
Qed.

(** Which selectors the storage refers to. *)
Lemma collected : distinct_names y -> filed E (sel_ok E) (y_w (tr_sky E t)) (part y) (tr_st2 E t).
Proof.
  intros DN. assert (NE := sky_nonempty DN).
  assert (H1 := sp_lum _ _ _ _ _ _ _ _ _ _ _ _ S). assert (H2 := sp_aux _ _ _ _ _ _ _ _ _ _ _ _ S).
  assert (W := proj1 (proj1 lumd_frame)).
  assert (F1 : filed E (sel_ok E) (y_w (tr_sky E t)) (fun j => match y_der y with Some i => reaches (y_w (tr_sky E t)) i j | None => False end) (tr_st1 E t)).
  { assert (DE := sky_der). destruct (y_der y) as [i|] eqn:D.
    - destruct (survey_lum_der _ _ _ _ _ _ _ _ _ _ _ _ _ DE H1) as (_ & T).
      eapply files_der; [exact NE| |exact W|exact T]. intros j R. apply sky_part. left. now rewrite D.
    - unfold survey_lum in H1. apply bind_inv_ok in H1. destruct H1 as (y0 & z & G & H1). unfold get in G. injection G as <- <-.
      rewrite DE in H1. destruct (y_lum (tr_sky E t)) as [l|]; [|discriminate].
      apply bind_inv_ok in H1. destruct H1 as (x1 & z1 & _ & H1). apply bind_inv_ok in H1. destruct H1 as (x2 & z2 & _ & H1).
      apply bind_inv_ok in H1. destruct H1 as (x3 & z3 & _ & H1). apply bind_inv_ok in H1. destruct H1 as (x4 & z4 & _ & H1).
      apply bind_inv_ok in H1. destruct H1 as (x5 & z5 & _ & H1). unfold ret in H1. injection H1 as _ _ _ <- _. apply filed_nil. }
  eapply filed_equiv; [exact sky_part|].
  eapply files_fold; [exact NE| |exact W|exact F1|exact H2]. intros j H. now apply sky_part.
Qed.

(** ** C24, in terms of the masks after the call *)
Definition selectors_apart : Prop :=
  (forall k, y_ssel y = Some k -> k <> y_dsel y /\ k <> y_flux y /\ forall j b, part y j -> at_ (y_w y) j b -> a_sel (a_ln b) <> k) /\
  y_dsel y <> y_flux y /\ (forall j b, part y j -> at_ (y_w y) j b -> a_sel (a_ln b) <> y_dsel y).

Lemma selected_iff : distinct_names y -> selectors_apart -> forall i, i < p_nobj p ->
  (nth_error (pa_sel (p_args p)) i = Some true <->
   (exists m, mask_at (y_w y') (y_flux y) m /\ accepts m i) /\
   (forall k, y_ssel y = Some k -> exists m, mask_at (y_w y') k m /\ accepts m i) /\
   (forall j b, part y j -> at_ (y_w y) j b -> passes (y_w y') (a_sel (a_ln b)) i)).
Proof.
  intros DN (AS & AD1 & AD2) i LI.
  assert (SZ := all_sized _ _ _ _ _ _ _ _ _ _ _ _ S). rewrite (sz_nobj SZ) in LI.
  assert (CO := collected DN).
  destruct (steps_built _ _ _ _ _ _ _ _ _ _ _ _ S) as (ar & B & Hs & _). rewrite (bu_args _ _ _ B), Hs.
  assert (ML := mask_length _ _ _ _ _ _ _ _ _ _ _ _ S).
  assert (M3 := sp_mask _ _ _ _ _ _ _ _ _ _ _ _ S).
  assert (T3 : nth_error (tr_mask E t) i = Some true <-> oks (tr_s3 E t) i).
  { rewrite <- accepts_full by lia. unfold oks. rewrite M3. split; [eauto|]. intros (m & Q & A). now injection Q as <-. }
  rewrite T3.
  assert (FL : oks (tr_sf E t) i <-> exists m, mask_at (y_w y') (y_flux y) m /\ accepts m i).
  { assert (NF := sp_sf _ _ _ _ _ _ _ _ _ _ _ _ S). unfold mask_at. rewrite sels_final.
    - split.
      + intros (m & M & A). exists m. split; [|easy]. exists (tr_sf E t). auto.
      + intros (m & (s & N & M) & A). exists m. split; [congruence|easy].
    - intros Q. now apply AS in Q.
    - auto. }
  assert (AU : oks (tr_auxsel E t) i <-> forall j b, part y j -> at_ (y_w y) j b -> passes (y_w y') (a_sel (a_ln b)) i).
  { rewrite (selection_passes _ _ _ _ _ i (sp_sel _ _ _ _ _ _ _ _ _ _ _ _ S)). cbn [snd].
    assert (PA : forall j b, part y j -> at_ (y_w y) j b -> (passes (y_w y') (a_sel (a_ln b)) i <-> passes (y_w (tr_fsel E t)) (a_sel (a_ln b)) i)).
    { intros j b PJ BA. unfold passes. rewrite sels_final; [reflexivity| |].
      - intros Q. apply AS in Q. destruct Q as (_ & _ & Q). now apply (Q j b).
      - now apply (AD2 j b). }
    assert (AT := at_auxs_eq _ _ (proj1 sky_calm)).
    split.
    - intros [_ H] j b PJ BA. apply PA with j; [easy|easy|].
      apply AT in BA. destruct (fi_all _ _ _ _ _ CO j b PJ BA) as (c & C).
      destruct (fi_from _ _ _ _ _ CO _ _ C) as (j2 & b2 & P2 & B2 & N2 & SL).
      assert (j2 = j) by (eapply (sky_distinct DN j2 j b2 b); eauto). subst j2. assert (b2 = b) by (eapply at_fun; eauto). subst b2.
      rewrite <- SL. eapply H. apply dget_In. exact C.
    - intros H. split; [now apply oks_all|]. intros k c I.
      apply (In_dget _ _ _ (fi_nodup _ _ _ _ _ CO)) in I. destruct (fi_from _ _ _ _ _ CO _ _ I) as (j & b & PJ & BA & _ & ->).
      apply AT in BA. apply PA with j; [easy|easy|]. now apply (H j b). }
  assert (S2 : oks (tr_s2 E t) i <-> oks (tr_auxsel E t) i /\ oks (tr_sf E t) i).
  { rewrite (oks_add _ _ _ i (sp_s2 _ _ _ _ _ _ _ _ _ _ _ _ S)), (oks_add _ _ _ i (sp_s1 _ _ _ _ _ _ _ _ _ _ _ _ S)).
    assert (A := oks_all "global" _ _ LI). tauto. }
  destruct ssel_inv as (_ & _ & SS). destruct (y_ssel y) as [k|] eqn:YS.
  - destruct SS as (sp & s0 & s1 & s2 & g0 & g1 & _ & _ & _ & _ & N2 & AD).
    rewrite (oks_add _ _ _ i AD), S2, FL, AU.
    assert (SP : oks s2 i <-> exists m, mask_at (y_w y') k m /\ accepts m i).
    { unfold mask_at. destruct final_inv as (_ & F & _). rewrite F by (now apply AS). rewrite N2. split.
      - intros (m & M & A). exists m. split; [|easy]. exists s2. auto.
      - intros (m & (s & N & M) & A). exists m. split; [congruence|easy]. }
    rewrite SP. split.
    + intros [[A1 A2] A3]. split; [easy|]. split; [|easy]. intros k' Q. injection Q as <-. easy.
    + intros (A1 & A2 & A3). split; [easy|]. now apply A2.
  - rewrite SS, S2, FL, AU. split; [intros [A1 A2]; split; [easy|]; split; [discriminate|easy]|tauto].
Qed.

(** A selected object passed the flux selection. *)
Lemma selected_flux i : nth_error (pa_sel (p_args p)) i = Some true -> oks (tr_sf E t) i.
Proof.
  destruct (steps_built _ _ _ _ _ _ _ _ _ _ _ _ S) as (ar & B & Hs & _). rewrite (bu_args _ _ _ B), Hs. intros H.
  assert (T3 : oks (tr_s3 E t) i).
  { exists (tr_mask E t). split; [exact (sp_mask _ _ _ _ _ _ _ _ _ _ _ _ S)|]. apply accepts_full; [|easy].
    apply nth_error_Some. congruence. }
  assert (T2 : oks (tr_s2 E t) i).
  { destruct ssel_inv as (_ & _ & SS). destruct (y_ssel y) as [k|].
    - destruct SS as (sp & s0 & s1 & s2 & g0 & g1 & _ & _ & _ & _ & N2 & AD). apply (oks_add _ _ _ i AD) in T3. easy.
    - now rewrite <- SS. }
  now apply (oks_add _ _ _ i (sp_s2 _ _ _ _ _ _ _ _ _ _ _ _ S)) in T2.
Qed.

(** Selectors keep their setup until the flux selection. *)
Lemma auxd_kept : ykept E y (tr_auxd E t).
Proof.
  assert (K : forall A (m : YM E A) z r z1, keeps (ykept E) m -> m z = (r, z1) -> ykept E z z1)
    by (intros A m z r z1 KP H; specialize (KP z); now rewrite H in KP).
  eapply ykept_trans; [|eapply ykept_trans; [|eapply ykept_trans; [|eapply ykept_trans]]].
  - eapply K; [apply survey_size_kept|exact (sp_size _ _ _ _ _ _ _ _ _ _ _ _ S)].
  - eapply K; [apply in_sp_kept|exact (sp_dist _ _ _ _ _ _ _ _ _ _ _ _ S)].
  - eapply K; [apply in_sp_kept|exact (sp_sky _ _ _ _ _ _ _ _ _ _ _ _ S)].
  - eapply K; [apply survey_lum_kept|exact (sp_lum _ _ _ _ _ _ _ _ _ _ _ _ S)].
  - eapply K; [|exact (sp_aux _ _ _ _ _ _ _ _ _ _ _ _ S)].
    apply (keeps_fold (ykept_refl E) (ykept_trans E)). intros. apply survey_aux_kept.
Qed.

Lemma select_fresh prg n s g s1 g1 : s_sampled s = false -> sel_select (E := E) prg n (s, g) = (Ok tt, (s1, g1)) ->
  exists s2, sel_draw prg n (s, g) = (Ok tt, (s2, g1)) /\ s_mask s1 = s_mask s2.
Proof.
  intros SF H. unfold sel_select, bind, here, gets in H. cbn [fst] in H. rewrite SF in H.
  destruct (sel_draw prg n (s, g)) as [[[]|e] [s2 g2]] eqn:D; [|discriminate]. cbn in H.
  destruct (s_mask s2) as [m|] eqn:M; [|discriminate]. injection H as <- <-. exists s2. split; [easy|]. cbn. easy.
Qed.

(** C24, second half: on a synth whose selectors were not drawn yet the flux mask
    is the outcome of the flux selector's draw on the observed fluxes. *)
Lemma flux_judged s : nth_error (w_sels (y_w y)) (y_flux y) = Some s -> s_sampled s = false ->
  exists s0 g0 s1 g1, same_setup E s s0 /\ d_oflux (s_data s0) = Some (sv_obs (p_flux p)) /\
    sel_draw prog (p_nobj p) (s0, g0) = (Ok tt, (s1, g1)) /\ s_mask (tr_sf E t) = s_mask s1.
Proof.
  intros N SF. destruct (auxd_kept _ _ N) as (s0 & N0 & SU).
  destruct fsel_inv as (x & s1 & g0 & g1 & NX & SEL & N1 & _). rewrite N0 in NX. injection NX as <-.
  assert (Q := sp_sf _ _ _ _ _ _ _ _ _ _ _ _ S). rewrite N1 in Q. injection Q as Q. rewrite <- Q. clear Q.
  apply select_fresh in SEL; [|cbn; destruct SU as (_ & SU & _); congruence].
  destruct SEL as (s2 & D & M).
  destruct (steps_built _ _ _ _ _ _ _ _ _ _ _ _ S) as (ar & B & Hs & _ & _ & _ & _ & _ & _ & Hfo & _).
  assert (SZ := all_sized _ _ _ _ _ _ _ _ _ _ _ _ S).
  exists (set_observed_flux s0 (tr_fobs E t)), g0, s2, g1. split; [|split; [|split; [|exact M]]].
  - eapply setup_trans; [exact SU|apply with_data_setup].
  - destruct (bu_flux _ _ _ B) as (-> & _). cbn. now rewrite Hfo.
  - now rewrite (sz_nobj SZ).
Qed.

(** ** C25 *)
Lemma hard_flux s b : nth_error (w_sels (y_w y)) (y_flux y) = Some s -> s_sampled s = false ->
  s_kind s = KLower E -> s_fflux s = true -> par_is s "boundary" b ->
  forall i f, nth_error (sv_obs (p_flux p)) i = Some f -> nth_error (pa_sel (p_args p)) i = Some true -> vle E b f = true.
Proof.
  intros N SF K FF PI i f F SE.
  destruct (flux_judged _ N SF) as (s0 & g0 & s1 & g1 & (ST & _ & PK) & OF & D & M).
  assert (K0 : s_kind s0 = KLower E) by (unfold sel_static in ST; congruence).
  assert (F0 : s_fflux s0 = true) by (unfold sel_static in ST; congruence).
  destruct (lower_exact _ prog (p_nobj p) s0 g0 (sv_obs (p_flux p)) b K0) as (m & (s3 & D3 & M3) & (L & MI)).
  - left. split; [easy|now rewrite OF].
  - now apply PK.
  - rewrite D in D3. injection D3 as <- _. destruct (selected_flux _ SE) as (m' & M' & A).
    assert (m' = m) by congruence. subst m'. apply (MI i f F). apply accepts_full; [|easy].
    rewrite L. apply nth_error_Some. congruence.
Qed.

(** ** C24, the samplers' selectors on a synth that was not drawn from before *)
Lemma loop_end : acyclic (y_w y) -> distinct_names y -> well_drawn E (y_w y) ->
  let w0 := y_w (tr_sky E t) in
  loop E (own_selectors (y_w y) /\ all_judged E prog (tr_n E t) (y_w y)) prog (tr_n E t) w0 (y_w (tr_auxd E t)) (part y)
    (fun j => (match y_der y with Some i => near E w0 i j | None => False end) \/ exists kv, In kv (y_aux y) /\ near E w0 (snd kv) j)
    (tr_t2 E t) (tr_st2 E t) /\
  frozen E (y_w (tr_lumd E t)) (y_w (tr_auxd E t)) /\
  (forall q, (forall j b, part y j -> at_ w0 j b -> name_of b <> q) -> dget (tr_t2 E t) q = dget (tr_t1 E t) q) /\
  tr_auxd E t = with_w (tr_lumd E t) (y_w (tr_auxd E t)).
Proof.
  intros AC DN WD w0. set (K := own_selectors (y_w y) /\ all_judged E prog (tr_n E t) (y_w y)).
  assert (NE := sky_nonempty DN).
  assert (H1 := sp_lum _ _ _ _ _ _ _ _ _ _ _ _ S). assert (H2 := sp_aux _ _ _ _ _ _ _ _ _ _ _ _ S).
  assert (HQ : hushed E (y_w y) w0).
  { assert (Q := sky_calm). destruct Q as [Q1 Q2]. split; [apply sky_frame|]. split; [|easy]. intros j a A. exists a. split; [|repeat split].
    unfold at_ in *. unfold w0. now rewrite Q1. }
  assert (AC0 : acyclic w0) by (eapply wiring_acyclic; [apply sky_frame|easy]).
  assert (O0 : K -> own_selectors w0) by (intros [O _]; eapply wiring_own; [apply sky_frame|easy]).
  assert (WD0 : well_drawn E w0) by (eapply well_drawn_hushed; eauto).
  assert (J0 : K -> all_judged E prog (tr_n E t) w0) by (intros [_ J]; eapply judged_hushed; eauto).
  assert (L1 : loop E K prog (tr_n E t) w0 (y_w (tr_lumd E t))
     (fun j => match y_der y with Some i => reaches w0 i j | None => False end)
     (fun j => match y_der y with Some i => near E w0 i j | None => False end) (tr_t1 E t) (tr_st1 E t)).
  { assert (DE := sky_der). destruct (y_der y) as [i|] eqn:D.
    - destruct (survey_lum_der _ _ _ _ _ _ _ _ _ _ _ _ _ DE H1) as (_ & T).
      eapply loop_der; [exact AC0|exact O0|exact NE|exact WD0|exact J0| |exact T].
      intros j R. apply sky_part. left. now rewrite D.
    - unfold survey_lum in H1. apply bind_inv_ok in H1. destruct H1 as (y0 & z & G & H1). unfold get in G. injection G as <- <-.
      rewrite DE in H1. destruct (y_lum (tr_sky E t)) as [l|]; [|discriminate].
      apply bind_inv_ok in H1. destruct H1 as (x1 & z1 & L1 & H1). apply bind_inv_ok in H1. destruct H1 as (x2 & z2 & L2 & H1).
      apply bind_inv_ok in H1. destruct H1 as (x3 & z3 & G3 & H1). unfold get in G3. injection G3 as _ <-.
      apply bind_inv_ok in H1. destruct H1 as (x4 & z4 & L4 & H1). apply lift_inv in L4. destruct L4 as [_ ->].
      apply bind_inv_ok in H1. destruct H1 as (x5 & z5 & L5 & H1). apply times_inv in L5. destruct L5 as [-> _].
      unfold ret in H1. injection H1 as _ _ _ <- Z.
      assert (CC : calm (tr_sky E t) (tr_lumd E t)).
      { rewrite <- Z. eapply calm_trans; [eapply calm_ok; [|exact L1]|eapply calm_ok; [|exact L2]]; apply in_lum_calm. }
      destruct CC as [C1 C2].
      assert (HH : hushed E w0 (y_w (tr_lumd E t))).
      { split; [apply lumd_frame|]. split; [|easy]. intros j a A. exists a. split; [|repeat split]. unfold at_ in *. now rewrite C1. }
      constructor.
      + apply lumd_frame.
      + constructor; [constructor|discriminate|easy].
      + intros _ j b [].
      + easy.
      + easy.
      + eapply well_drawn_hushed; eauto.
      + intros HK. eapply judged_hushed; eauto. }
  destruct (loop_fold _ _ _ _ _ _ _ U AC0 O0 NE _ _ _ _ _ _ _ _ _ (fun j H => proj1 (sky_part j) H) L1 H2) as (L2 & F2 & T2 & Y2).
  split; [|split; [easy|split; [|easy]]].
  - eapply loop_equiv; [exact sky_part| |exact L2]. reflexivity.
  - intros q N. apply T2. intros kv j b I NR B. apply (N j b); [|easy]. apply sky_part. right. exists kv. split; [easy|now apply near_below].
Qed.

Lemma end_at j b : at_ (y_w y') j b <-> at_ (y_w (tr_auxd E t)) j b.
Proof. unfold at_. now rewrite auxs_final. Qed.

Definition never_drawn (w : world) : Prop := forall j, ~ sampled w j.
Lemma never_well w : never_drawn w -> well_drawn E w. Proof. intros N i j SA. now destruct (N i). Qed.
Lemma never_judged prg n w : never_drawn w -> all_judged E prg n w.
Proof. intros N j a A SA. destruct (N j). exists a. auto. Qed.

Lemma samplers_judged : acyclic (y_w y) -> distinct_names y -> own_selectors (y_w y) -> never_drawn (y_w y) -> selectors_apart ->
  (forall j b, part y j -> at_ (y_w y) j b -> a_sel (a_ln b) <> y_flux y) ->
  forall j, part y j -> exists b, at_ (y_w y') j b /\ filled (p_nobj p) b /\ selected_on prog (p_nobj p) (y_w y') b.
Proof.
  intros AC DN O ND (AS & AD1 & AD2) AF j PJ.
  destruct (loop_end AC DN (never_well _ ND)) as (L & _). assert (J := lp_judged _ _ _ _ _ _ _ _ _ _ L).
  destruct (lp_sampled _ _ _ _ _ _ _ _ _ _ L j PJ) as (b & B & SB).
  destruct (J (conj O (never_judged _ _ _ ND)) j b B SB) as [FI (s0 & g0 & s1 & g1 & G1 & G2 & G3)].
  rewrite (sz_nobj (all_sized _ _ _ _ _ _ _ _ _ _ _ _ S)). exists b. split; [now apply end_at|]. split; [easy|].
  exists s0, g0, s1, g1. split; [easy|]. split; [easy|].
  assert (W : same_wiring (y_w y) (y_w (tr_auxd E t))).
  { eapply wiring_trans; [apply sky_frame|apply (lp_wiring _ _ _ _ _ _ _ _ _ _ L)]. }
  destruct (wiring_at _ _ _ _ _ (wiring_sym _ _ _ W) B) as (b0 & B0 & _ & LN). rewrite <- LN in G3 |- *.
  rewrite sels_final.
  - destruct fsel_inv as (_ & _ & _ & _ & _ & _ & _ & _ & F). rewrite F; [easy|]. now apply (AF j b0).
  - intros Q. apply AS in Q. destruct Q as (_ & _ & Q). now apply (Q j b0).
  - now apply (AD2 j b0).
Qed.

End Step.
End P.
