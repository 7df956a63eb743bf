(** Two synths whose objects correspond draw the same survey, wherever the objects
    are kept. *)
From Verif Require Import Base BaseFacts Env ParamModel SelModel DistModel AuxModel Tree PopModel SynthModel ConfSpec Sim Bisim.
From Verif Require ConfTwice.
Open Scope nat_scope.

(** ** Selectors *)
Section Sel.
Variable E : env.
Notation V := (V E).
Notation selector := (selector E).

Record siso (s s' : selector) : Prop := Siso {
  si_kind : s_kind s = s_kind s';
  si_type : s_type s = s_type s';
  si_par : s_par s = s_par s';
  si_data : s_data s = s_data s';
  si_mask : s_mask s = s_mask s';
  si_sampled : s_sampled s = s_sampled s';
  si_source : looks (s_kind s) = true -> source_of s = source_of s' }.
Lemma siso_refl s : siso s s. Proof. now split. Qed.
Definition sgi (x y : selector * Rst E) : Prop := siso (fst x) (fst y) /\ snd x = snd y.
Lemma siso_values s s' : siso s s' -> looks (s_kind s) = true -> values_source s = values_source s'.
Proof.
  intros H L. assert (Q := si_source _ _ H L). unfold values_source, source_of in *. rewrite (si_data _ _ H).
  destruct (s_fflux s), (s_flum s), (s_fobs s), (s_fdist s), (s_fflux s'), (s_flum s'), (s_fobs s'), (s_fdist s'); try discriminate; reflexivity.
Qed.
Ltac si H := destruct H as [[K T P D M S F] G]; cbn in *; subst.
Lemma i_read k : sim sgi eq (read_par (E := E) k) (read_par (E := E) k).
Proof.
  intros [s g] [s' g'] H. si H. unfold read_par. rewrite <- K, <- P. destruct (dget (sel_class (s_kind s)) k) as [d|]; [|split; [easy|split; [split; auto|easy]]].
  destruct (param_get d k (s_par s)) as [r o]. destruct r; (split; [easy|]); (split; [split; auto|easy]).
Qed.
Lemma i_store x : sim sgi eq (store_mask (E := E) x) (store_mask (E := E) x).
Proof. intros [s g] [s' g'] H. si H. split; [easy|]. split; [split; auto|easy]. Qed.
Lemma i_here : sim sgi siso (here (E := E)) (here (E := E)).
Proof. intros [s g] [s' g'] H. pose proof H as [H1 _]. split; assumption. Qed.
Lemma i_bern1 p : sim sgi eq (bern1 (E := E) p) (bern1 (E := E) p).
Proof. intros [s g] [s' g'] H. pose proof H as [H1 H2]. cbn in H1, H2. subst g'. unfold bern1. destruct (r_bern_ok E p); [|easy]. cbn. destruct (r_bern E p g). split; [easy|now split]. Qed.
Lemma i_bern_vec ps : sim sgi eq (bern_vec (E := E) ps) (bern_vec (E := E) ps).
Proof. intros [s g] [s' g'] H. pose proof H as [H1 H2]. cbn in H1, H2. subst g'. unfold bern_vec. destruct (forallb _ ps); [|easy]. cbn. destruct (rmapdraws _ ps g). split; [easy|now split]. Qed.
Lemma i_bern_n p n : sim sgi eq (bern_n (E := E) p n) (bern_n (E := E) p n).
Proof. intros [s g] [s' g'] H. pose proof H as [H1 H2]. cbn in H1, H2. subst g'. unfold bern_n. destruct (r_bern_ok E p); [|easy]. cbn. destruct (rdraws _ n g). split; [easy|now split]. Qed.
Lemma sim_repeat S S' (R : S -> S' -> Prop) A (f : M S A) (f' : M S' A) n : sim R eq f f' -> sim R eq (repeatM f n) (repeatM f' n).
Proof.
  intros H. induction n as [|n IH]; cbn; [now apply sim_ret|]. apply sim_eq; [exact H|]. intros a. apply sim_eq; [exact IH|]. intros l. now apply sim_ret.
Qed.
Ltac isel := repeat first
  [ apply i_store | apply i_read | apply i_bern1 | apply i_bern_vec | apply i_bern_n | apply sim_lift
  | (apply sim_repeat) | (apply sim_eq; [|intros ?]) ].
Lemma i_draw prog n : sim sgi eq (sel_draw (E := E) prog n) (sel_draw (E := E) prog n).
Proof.
  unfold sel_draw. eapply sim_bind; [apply i_here|]. intros s s' H. assert (VS := siso_values _ _ H). rewrite <- (si_kind _ _ H), <- (si_data _ _ H).
  destruct (s_kind s) eqn:KK.
  - isel.
  - now apply sim_ret.
  - destruct prog; unfold bern_loop; isel.
  - rewrite <- (VS eq_refl). isel.
  - rewrite <- (VS eq_refl). isel.
  - rewrite <- (VS eq_refl). isel.
  - rewrite <- (VS eq_refl). isel.
  - isel.
  - isel.
  - intros [t g] [t' g'] X. pose proof X as [X1 X2]. cbn [fst snd] in *. subst g'. destruct (draw (s_data s) n g) as [[m|e] g2].
    + split; [easy|]. split; [|easy]. destruct X1. split; auto.
    + split; [easy|]. now split.
Qed.
Lemma i_select prog n : sim sgi eq (sel_select (E := E) prog n) (sel_select (E := E) prog n).
Proof.
  unfold sel_select. eapply sim_bind; [apply i_here|]. intros s s' H. apply sim_eq.
  - rewrite <- (si_sampled _ _ H). destruct (s_sampled s); [now apply sim_ret|apply i_draw].
  - intros _. eapply sim_bind; [apply i_here|]. intros t t' HT. rewrite <- (si_mask _ _ HT). destruct (s_mask t); [|apply sim_raise].
    intros [u g] [u' g'] X. si X. split; [easy|]. split; [split; auto|easy].
Qed.
Lemma siso_selection s s' : siso s s' -> sel_selection s = sel_selection s'.
Proof. intros H. unfold sel_selection. now rewrite (si_mask _ _ H). Qed.
Lemma siso_add x s s' : siso s s' -> sel_add x s = sel_add x s'.
Proof. intros H. unfold sel_add. now rewrite (siso_selection _ _ H). Qed.
End Sel.

(** ** Samplers *)
Section Iso.
Variable E : env.
Notation V := (V E).
Notation world := (world E).
Notation sampler := (sampler E).
Notation selector := (selector E).
Notation synth := (synth E).
Notation siso := (siso E).
Variables B P : nat -> nat -> Prop.
Hypothesis B_fun : forall i i' j', B i i' -> B i j' -> i' = j'.
Hypothesis B_inj : forall i j i', B i i' -> B j i' -> i = j.
Hypothesis P_fun : forall i i' j', P i i' -> P i j' -> i' = j'.
Hypothesis P_inj : forall i j i', P i i' -> P j i' -> i = j.

Definition secs (l l' : dict nat) : Prop := Forall2 (fun x y => fst x = fst y /\ B (snd x) (snd y)) l l'.
Record aiso (a a' : sampler) : Prop := Aiso {
  ai_st : a_st a = a_st a';
  ai_dy : a_dy a = a_dy a';
  ai_issec : a_issec (a_ln a) = a_issec (a_ln a');
  ai_sel : P (a_sel (a_ln a)) (a_sel (a_ln a'));
  ai_secs : secs (a_sec (a_ln a)) (a_sec (a_ln a')) }.
Definition auxs (h h' : list sampler) : Prop := forall i i', B i i' -> exists a a', nth_error h i = Some a /\ nth_error h' i' = Some a' /\ aiso a a'.
Record wiso (w w' : world) : Prop := Wiso {
  wi_g : w_g w = w_g w';
  wi_n : w_n w = w_n w';
  wi_a : auxs (w_auxs w) (w_auxs w');
  wi_s : forall k k', P k k' -> exists s s', nth_error (w_sels w) k = Some s /\ nth_error (w_sels w') k' = Some s' /\ siso s s' }.
Notation ws := (sim wiso eq).

Lemma ai_kind a a' : aiso a a' -> kind_of a = kind_of a'. Proof. intros H. unfold kind_of. now rewrite (ai_st _ _ H). Qed.
Lemma ai_name a a' : aiso a a' -> name_of a = name_of a'. Proof. intros H. unfold name_of. now rewrite (ai_st _ _ H). Qed.
Lemma ai_obs a a' : aiso a a' -> obs_name_of a = obs_name_of a'. Proof. intros H. unfold obs_name_of. now rewrite (ai_st _ _ H). Qed.

Lemma i_get_aux i i' : B i i' -> sim wiso aiso (get_aux i) (get_aux i').
Proof. intros HB w w' H. destruct (wi_a _ _ H i i' HB) as (a & a' & A & A' & X). unfold get_aux. rewrite A, A'. now split. Qed.
Lemma i_get_sel k k' : P k k' -> sim wiso siso (get_sel k) (get_sel k').
Proof. intros HP w w' H. destruct (wi_s _ _ H k k' HP) as (a & a' & A & A' & X). unfold get_sel. rewrite A, A'. now split. Qed.
Lemma nth_len {A} (l : list A) i x : nth_error l i = Some x -> i < length l.
Proof. intros H. apply nth_error_Some. congruence. Qed.
Lemma i_put_aux i i' a a' : B i i' -> aiso a a' -> ws (put_aux i a) (put_aux i' a').
Proof.
  intros HB HA w w' H. split; [easy|]. destruct H as [G N A S]. split; cbn; auto. intros j j' HJ. destruct (A j j' HJ) as (c & c' & C & C' & X).
  destruct (Nat.eq_dec i j) as [<-|Nj].
  - assert (i' = j') by exact (B_fun _ _ _ HB HJ). subst j'. rewrite !nth_lset_eq by (eapply nth_len; eassumption). eauto.
  - assert (i' <> j') by (intros <-; apply Nj; exact (B_inj _ _ _ HB HJ)). rewrite !nth_lset_neq by assumption. eauto.
Qed.
Lemma i_put_sel k k' s s' : P k k' -> siso s s' -> ws (put_sel k s) (put_sel k' s').
Proof.
  intros HB HA w w' H. split; [easy|]. destruct H as [G N A S]. split; cbn; auto. intros j j' HJ. destruct (S j j' HJ) as (c & c' & C & C' & X).
  destruct (Nat.eq_dec k j) as [<-|Nj].
  - assert (k' = j') by exact (P_fun _ _ _ HB HJ). subst j'. rewrite !nth_lset_eq by (eapply nth_len; eassumption). eauto.
  - assert (k' <> j') by (intros <-; apply Nj; exact (P_inj _ _ _ HB HJ)). rewrite !nth_lset_neq by assumption. eauto.
Qed.
Lemma i_upd_aux i i' f f' : B i i' -> (forall d, f d = f' d) -> ws (upd_aux i f) (upd_aux (E := E) i' f').
Proof.
  intros HB HF. unfold upd_aux. eapply sim_bind; [now apply i_get_aux|]. intros a a' H. apply i_put_aux; [exact HB|].
  destruct H. split; cbn; auto. rewrite HF. congruence.
Qed.
Lemma i_upd_sel k k' f f' : P k k' -> (forall s s', siso s s' -> siso (f s) (f' s')) -> ws (upd_sel k f) (upd_sel (E := E) k' f').
Proof.
  intros HB HF. unfold upd_sel. eapply sim_bind; [now apply i_get_sel|]. intros a a' H. apply i_put_sel; auto.
Qed.
Lemma i_on_sel A k k' (m : SM E A) : P k k' -> sim (sgi E) eq m m -> ws (on_sel k m) (on_sel k' m).
Proof.
  intros HP HM w w' H. unfold on_sel, bind. destruct (wi_s _ _ H k k' HP) as (s & s' & S & S' & X). unfold get_sel. rewrite S, S'. cbn [of_opt].
  assert (Q := HM (s, w_g w) (s', w_g w') (conj X (wi_g _ _ H))).
  assert (Y : forall t t' g g', siso t t' -> g = g' ->
     wiso (w_set_gens (g, w_n w) (w_set_sels (lset (w_sels w) k t) w)) (w_set_gens (g', w_n w') (w_set_sels (lset (w_sels w') k' t') w'))).
  { intros t t' g g' HT <-. assert (Z := i_put_sel k k' t t' HP HT w w' H). destruct Z as [_ [G N AA SS]]. split; auto. }
  destruct (m (s, w_g w)) as [[a|e] [t g]], (m (s', w_g w')) as [[a'|e'] [t' g']]; try easy; destruct Q as [Q1 [Q2 Q3]]; (split; [exact Q1|]); apply Y; auto.
Qed.
Lemma i_reads i i' ks : B i i' -> ws (aux_reads i ks) (aux_reads (E := E) i' ks).
Proof.
  intros HB. unfold aux_reads. eapply sim_bind; [now apply i_get_aux|]. intros a a' H. rewrite <- (ai_kind _ _ H), <- (ai_dy _ _ H).
  destruct (preads E (k_params (kind_of a)) ks (a_par (a_dy a))) as [r o]. apply sim_eq; [now apply i_upd_aux|intros _]. apply sim_lift.
Qed.
Lemma i_sec_values h h' l l' : auxs h h' -> secs l l' -> sec_values h l = sec_values (E := E) h' l'.
Proof.
  intros H F. induction F as [|[k j] [k' j'] l l' [K HB] F IH]; cbn; [easy|]. cbn in K, HB. subst k'. destruct (H _ _ HB) as (a & a' & A & A' & X).
  rewrite A, A', IH, (ai_dy _ _ X). reflexivity.
Qed.
Lemma i_view h h' a a' : auxs h h' -> aiso a a' -> view_of h a = view_of (E := E) h' a'.
Proof. intros H X. unfold view_of. rewrite (i_sec_values _ _ _ _ H (ai_secs _ _ X)), (ai_dy _ _ X). reflexivity. Qed.
Lemma i_log i i' : ws (modify (w_add_log i)) (modify (w_add_log (E := E) i')).
Proof. apply sim_modify. intros w w' [G N A S]. split; auto. Qed.
Lemma i_gens A (f : view E -> gens E -> res A * gens E) a a' : aiso a a' ->
  ws (fun w => let (r, g) := f (view_of (w_auxs w) a) (w_g w, w_n w) in (r, w_set_gens g w))
     (fun w => let (r, g) := f (view_of (w_auxs w) a') (w_g w, w_n w) in (r, w_set_gens g w)).
Proof.
  intros X w w' [G N AA SS]. rewrite <- (i_view _ _ _ _ AA X), <- G, <- N. destruct (f (view_of (w_auxs w) a) (w_g w, w_n w)) as [[r|e] g]; (split; [easy|]); split; auto.
Qed.
Lemma i_run_true i i' n : B i i' -> ws (run_true i n) (run_true (E := E) i' n).
Proof.
  intros HB. unfold run_true. eapply sim_bind; [now apply i_get_aux|]. intros a a' X. apply sim_eq; [apply i_log|intros _]. rewrite <- (ai_kind _ _ X).
  apply sim_eq; [now apply i_reads|intros vals]. eapply sim_bind; [now apply i_get_aux|]. intros b b' Y.
  apply sim_eq; [exact (i_gens _ (fun v g => k_true (kind_of a) vals v n g) b b' Y)|]. intros [l|]; [now apply i_upd_aux|now apply sim_ret].
Qed.
Lemma i_run_obs i i' n : B i i' -> ws (run_obs i n) (run_obs (E := E) i' n).
Proof.
  intros HB. unfold run_obs. eapply sim_bind; [now apply i_get_aux|]. intros a a' X. rewrite <- (ai_kind _ _ X).
  apply sim_eq; [now apply i_reads|intros vals]. eapply sim_bind; [now apply i_get_aux|]. intros b b' Y.
  apply sim_eq; [exact (i_gens _ (fun v g => k_obs (kind_of a) vals v n g) b b' Y)|]. intros [l|]; [now apply i_upd_aux|now apply sim_ret].
Qed.
Lemma i_run_prob i i' : B i i' -> ws (run_prob i) (run_prob (E := E) i').
Proof.
  intros HB. unfold run_prob. eapply sim_bind; [now apply i_get_aux|]. intros a a' X. rewrite <- (ai_kind _ _ X).
  apply sim_eq; [now apply i_reads|intros vals]. eapply sim_bind; [now apply i_get_aux|]. intros b b' Y.
  eapply sim_bind; [apply sim_get|]. intros w w' H. apply sim_eq; [|intros x; now apply i_upd_aux]. apply sim_lift_eq. now rewrite (i_view _ _ _ _ (wi_a _ _ H) Y).
Qed.
Lemma i_set_obs v s s' : siso s s' -> siso (sel_set_obs v s) (sel_set_obs v s').
Proof. intros [K T Pa D M S F]. split; cbn; auto. now rewrite D. Qed.
Lemma i_set_distance v s s' : siso s s' -> siso (set_distance s v) (set_distance s' v).
Proof. intros [K T Pa D M S F]. split; cbn; auto. now rewrite D. Qed.
Lemma i_set_luminosity v s s' : siso s s' -> siso (SelModel.set_luminosity s v) (SelModel.set_luminosity s' v).
Proof. intros [K T Pa D M S F]. split; cbn; auto. now rewrite D. Qed.
Lemma i_set_flux v s s' : siso s s' -> siso (set_observed_flux s v) (set_observed_flux s' v).
Proof. intros [K T Pa D M S F]. split; cbn; auto. now rewrite D. Qed.
Lemma i_pre a a' : aiso a a' -> ws (aux_pre a) (aux_pre (E := E) a').
Proof.
  intros X. unfold aux_pre. rewrite <- (ai_st _ _ X), <- (ai_dy _ _ X). assert (HP := ai_sel _ _ X). apply sim_eq; [|intros _].
  - destruct (a_usesd (a_st a)); [|now apply sim_ret]. destruct (a_sp (a_dy a)); [|apply sim_raise]. apply i_upd_sel; [exact HP|]. intros ? ?. apply i_set_distance.
  - destruct (a_lum (a_dy a)); [|now apply sim_ret]. apply i_upd_sel; [exact HP|]. intros ? ?. apply i_set_luminosity.
Qed.
Lemma i_finish prog i i' n : B i i' -> ws (aux_finish prog i n) (aux_finish (E := E) prog i' n).
Proof.
  intros HB. unfold aux_finish. apply sim_eq; [now apply i_run_true|intros _]. eapply sim_bind; [now apply i_get_aux|]. intros a a' X.
  rewrite <- (ai_st _ _ X), <- (ai_dy _ _ X). apply sim_eq; [destruct (a_observed (a_st a)); [now apply i_run_obs|now apply i_upd_aux]|intros _].
  eapply sim_bind; [now apply i_get_aux|]. intros b b' Y. rewrite <- (ai_dy _ _ Y). assert (HP := ai_sel _ _ Y).
  apply sim_eq; [apply i_upd_sel; [exact HP|]; intros ? ?; apply i_set_obs|intros _]. apply sim_eq; [apply sim_lift|intros _]. apply sim_eq; [apply sim_lift|intros _].
  apply sim_eq; [now apply i_upd_aux|intros _]. apply sim_eq; [apply i_on_sel; [exact HP|apply i_draw]|intros _]. now apply i_run_prob.
Qed.
Lemma sim_iter2 S S' (R : S -> S' -> Prop) A A' (T : A -> A' -> Prop) (f : A -> M S unit) (f' : A' -> M S' unit) l l' : Forall2 T l l' ->
  (forall a a', T a a' -> sim R eq (f a) (f' a')) -> sim R eq (iterM f l) (iterM f' l').
Proof. intros F H. induction F; cbn; [now apply sim_ret|]. apply sim_eq; [now apply H|]. intros _. exact IHF. Qed.
Lemma sim_fold2 S S' (R : S -> S' -> Prop) A A' C C' (T : A -> A' -> Prop) (Q : C -> C' -> Prop) (f : C -> A -> M S C) (f' : C' -> A' -> M S' C') l l' : Forall2 T l l' ->
  (forall c c' a a', Q c c' -> T a a' -> sim R Q (f c a) (f' c' a')) -> forall c c', Q c c' -> sim R Q (foldM f c l) (foldM f' c' l').
Proof. intros F H. induction F; cbn; intros c c' HQ; [now apply sim_ret|]. eapply sim_bind; [now apply H|]. intros d d' HD. now apply IHF. Qed.
Lemma i_aux_draw prog n fuel : forall i i', B i i' -> ws (aux_draw prog fuel i n) (aux_draw (E := E) prog fuel i' n).
Proof.
  induction fuel as [|fuel IH]; intros i i' HB; cbn [aux_draw]; [apply sim_raise|].
  eapply sim_bind; [now apply i_get_aux|]. intros a a' X. rewrite <- (ai_dy _ _ X). destruct (a_sampled (a_dy a)); [now apply sim_ret|].
  apply sim_eq; [now apply i_pre|intros _]. apply sim_eq; [|intros _; now apply i_finish].
  eapply sim_iter2; [exact (ai_secs _ _ X)|]. intros [k j] [k' j'] [_ HJ]. cbn [snd] in *. eapply sim_bind; [now apply i_get_aux|]. intros b b' Y.
  rewrite <- (ai_issec _ _ Y). destruct (a_issec (a_ln b)); [|apply sim_raise]. destruct (a_sp (a_dy a)); [|apply sim_raise].
  apply sim_eq; [now apply i_upd_aux|intros _]. now apply IH.
Qed.

(** ** Collected properties *)
Record ciso (c c' : container E) : Prop := Ciso { ci_true : c_true c = c_true c'; ci_obs : c_obs c = c_obs c'; ci_prob : c_prob c = c_prob c'; ci_sel : P (c_sel c) (c_sel c') }.
Definition stiso (s s' : storage E) : Prop := Forall2 (fun x y => fst x = fst y /\ ciso (snd x) (snd y)) s s'.
Lemma i_container a a' : aiso a a' -> ciso (container_of a) (container_of a').
Proof. intros X. unfold container_of, probability_of. rewrite <- (ai_dy _ _ X). split; cbn; auto. exact (ai_sel _ _ X). Qed.
Lemma i_dset s s' k c c' : stiso s s' -> ciso c c' -> stiso (dset s k c) (dset s' k c').
Proof.
  intros F X. induction F as [|[k1 c1] [k2 c2] s s' [H1 H2] F IH]; cbn.
  - constructor; [now split|constructor].
  - cbn in H1, H2. subst k2. destruct (String.eqb k k1); constructor; auto.
Qed.
Lemma i_st_empty s s' : stiso s s' -> st_empty s = st_empty s'.
Proof. intros F. unfold st_empty. induction F as [|x y s s' [H1 H2] F IH]; cbn; [easy|]. now rewrite H1, IH. Qed.
Lemma i_st_add s s' t t' : stiso s s' -> stiso t t' -> stiso (st_add s t) (st_add s' t').
Proof.
  intros F G. unfold st_add. rewrite <- (i_st_empty _ _ F), <- (i_st_empty _ _ G). destruct (st_empty s); [exact G|]. destruct (st_empty t); [exact F|].
  unfold dupdate. clear - F G. revert s s' F. induction G as [|[k c] [k' c'] t t' [H1 H2] G IH]; intros s s' F; cbn; [exact F|]. cbn in H1, H2. subst k'. apply IH. now apply i_dset.
Qed.
Lemma i_sec_props h h' fuel : auxs h h' -> forall i i' pr, B i i' -> sim eq stiso (sec_props fuel h i pr) (sec_props (E := E) fuel h' i' pr).
Proof.
  intros H. induction fuel as [|fuel IH]; intros i i' pr HB; cbn [sec_props]; [apply sim_raise|].
  destruct (H _ _ HB) as (a & a' & A & A' & X). rewrite A, A'. eapply sim_bind.
  - eapply sim_fold2 with (Q := stiso); [exact (ai_secs _ _ X)| |apply Forall2_nil]. intros c c' [k j] [k' j'] HC [K HJ]. cbn in K, HJ. subst k'.
    destruct (H _ _ HJ) as (b & b' & Bb & Bb' & Y). rewrite Bb, Bb'. rewrite <- (ai_st _ _ Y), <- (ai_obs _ _ Y).
    eapply sim_bind; [apply sim_get|]. intros g g' <-. apply sim_eq.
    + destruct g as [g|]; [|now apply sim_ret]. apply sim_eq; [apply sim_modify; reflexivity|intros _].
      destruct (a_usesd (a_st b)); [apply sim_raise|now apply sim_ret].
    + intros _. eapply sim_bind; [now apply IH|]. intros s s' HS. apply sim_ret. now apply i_st_add.
  - intros s s' HS. apply sim_ret. rewrite <- (ai_name _ _ X). apply i_dset; [exact HS|now apply i_container].
Qed.

(** ** Synths *)
Record yiso (y y' : synth) : Prop := Yiso {
  yi_w : wiso (y_w y) (y_w y');
  yi_sp : y_sp y = y_sp y'; yi_spm : y_spm y = y_spm y';
  yi_lum : y_lum y = y_lum y'; yi_lumm : y_lum y <> None -> y_lumm y = y_lumm y';
  yi_seed : y_seed y = y_seed y'; yi_name : y_name y = y_name y';
  yi_nmodel : y_nmodel y = y_nmodel y'; yi_spaces : y_spaces y = y_spaces y';
  yi_aux : secs (y_aux y) (y_aux y'); yi_der : same_opt B (y_der y) (y_der y');
  yi_flux : P (y_flux y) (y_flux y'); yi_fluxset : y_fluxset y = y_fluxset y';
  yi_dsel : P (y_dsel y) (y_dsel y'); yi_dset : y_dset y = y_dset y';
  yi_ssel : same_opt P (y_ssel y) (y_ssel y'); yi_graph : y_graph y = y_graph y';
  yi_nodup : NoDup (dkeys (y_aux y)) }.
Notation ys := (sim yiso eq).

Lemma i_with_w y y' w w' : yiso y y' -> wiso w w' -> yiso (with_w y w) (with_w y' w').
Proof. intros [] H. split; cbn; auto. Qed.
Lemma i_in_w A C (Q : A -> C -> Prop) (m : AM E A) (m' : AM E C) : sim wiso Q m m' -> sim yiso Q (in_w m) (in_w m').
Proof.
  intros H y y' Y. specialize (H _ _ (yi_w _ _ Y)). unfold in_w. destruct (m (y_w y)) as [[a|e] w1], (m' (y_w y')) as [[b|e'] w1']; try easy;
  (destruct H as [H1 H2]; split; [easy|]); now apply i_with_w.
Qed.
Lemma wi_gens w w' g : wiso w w' -> wiso (w_set_gens (g, w_n w) w) (w_set_gens (g, w_n w') w').
Proof. intros [G N A S]. split; auto. Qed.
Lemma i_in_sp A (m : DM E A) : ys (in_sp m) (in_sp m).
Proof.
  intros y y' Y. unfold in_sp. rewrite <- (yi_sp _ _ Y), <- (wi_g _ _ (yi_w _ _ Y)). destruct (m (y_sp y, w_g (y_w y))) as [r [d g]].
  assert (Z := i_with_w _ _ _ _ Y (wi_gens _ _ g (yi_w _ _ Y))). destruct r; (split; [easy|]); destruct Z; split; auto.
Qed.
Lemma i_in_lum A (m : LM E A) : ys (in_lum m) (in_lum m).
Proof.
  intros y y' Y. unfold in_lum. rewrite <- (yi_lum _ _ Y), <- (wi_g _ _ (yi_w _ _ Y)). destruct (y_lum y) as [l|] eqn:L; [|easy].
  destruct (m (l, w_g (y_w y))) as [r [d g]]. assert (ML := yi_lumm _ _ Y). rewrite L in ML.
  assert (Z := i_with_w _ _ _ _ Y (wi_gens _ _ g (yi_w _ _ Y))). destruct r; (split; [easy|]); destruct Z; split; auto; intros _; apply ML; discriminate.
Qed.
Lemma i_in_g A (m : M (Rst E) A) : ys (in_g m) (in_g m).
Proof.
  intros y y' Y. unfold in_g. rewrite <- (wi_g _ _ (yi_w _ _ Y)). destruct (m (w_g (y_w y))) as [r g].
  assert (Z := i_with_w _ _ _ _ Y (wi_gens _ _ g (yi_w _ _ Y))). destruct r; (split; [easy|exact Z]).
Qed.
Lemma i_times p q : ys (times p q) (times (E := E) p q). Proof. apply sim_lift. Qed.
Lemma i_get_sp : ys (get_sp (E := E)) (get_sp (E := E)).
Proof. unfold get_sp. eapply sim_bind; [apply sim_get|]. intros y y' Y. rewrite <- (yi_sp _ _ Y). apply sim_lift. Qed.
Lemma i_aux_y i i' : B i i' -> sim yiso aiso (in_w (get_aux i)) (in_w (get_aux i')).
Proof. intros H. now apply i_in_w, i_get_aux. Qed.
Lemma i_add_truth i i' t : B i i' -> ys (add_truth i t) (add_truth (E := E) i' t).
Proof.
  intros HB. unfold add_truth, sampler_truth. eapply sim_bind with (Q := eq).
  - eapply sim_bind; [now apply i_aux_y|]. intros a a' X. apply sim_ret. now rewrite (ai_name _ _ X), (ai_dy _ _ X).
  - intros x ? <-. now apply sim_ret.
Qed.
Lemma i_props rl i i' : B i i' -> sim yiso stiso (props rl i) (props (E := E) rl i').
Proof.
  intros HB. unfold props. eapply sim_bind; [apply sim_get|]. intros y y' Y. assert (Z := i_sec_props _ _ rl (wi_a _ _ (yi_w _ _ Y)) i i' EmptyString HB None None eq_refl).
  intros z z' HZ. unfold lift. destruct (sec_props rl (w_auxs (y_w y)) i "" None) as [[a|e] g], (sec_props rl (w_auxs (y_w y')) i' "" None) as [[a'|e'] g']; try easy; cbn; destruct Z; now split.
Qed.
Lemma i_check n i i' : B i i' -> ys (check_len n i) (check_len (E := E) n i').
Proof. intros HB. unfold check_len. eapply sim_bind; [now apply i_aux_y|]. intros a a' X. rewrite <- (ai_dy _ _ X). apply sim_eq; [apply sim_lift|intros _]. apply sim_lift. Qed.

(** Results of the luminosity step. *)
Definition liso (r r' : list V * list V * truths E * storage E) : Prop := fst r = fst r' /\ stiso (snd r) (snd r').
Definition acciso (r r' : truths E * storage E) : Prop := fst r = fst r' /\ stiso (snd r) (snd r').
Lemma i_survey_lum prog rl n p t : sim yiso liso (survey_lum prog rl n p t) (survey_lum (E := E) prog rl n p t).
Proof.
  unfold survey_lum. eapply sim_bind; [apply sim_get|]. intros y y' Y. rewrite <- (yi_lum _ _ Y). assert (HD := yi_der _ _ Y).
  match goal with |- sim _ _ (match y_lum y with Some _ => match y_der y with Some i => @?f i | None => _ end | None => _ end) _ =>
    assert (X : forall i i', B i i' -> sim yiso liso (f i) (f i')) end.
  { intros i i' HB. cbv beta. apply sim_eq; [apply i_get_sp|intros sp]. apply sim_eq; [apply i_in_w; now apply i_upd_aux|intros _].
    apply sim_eq; [apply i_in_w; now apply i_aux_draw|intros _]. apply sim_eq; [now apply i_check|intros _]. eapply sim_bind; [now apply i_aux_y|]. intros a a' A.
    rewrite <- (ai_kind _ _ A), <- (ai_name _ _ A).
    apply sim_eq; [apply i_in_w; now apply i_reads|intros vals]. eapply sim_bind; [now apply i_aux_y|]. intros b b' Bb.
    eapply sim_bind; [apply i_in_w, sim_get|]. intros w w' HW. apply sim_eq; [apply sim_lift|intros f].
    apply sim_eq; [apply sim_lift_eq; now rewrite (i_view _ _ _ _ (wi_a _ _ HW) Bb)|intros lum]. apply sim_eq; [now apply i_add_truth|intros t1].
    eapply sim_bind with (Q := fun r r' : storage E * truths E => stiso (fst r) (fst r') /\ snd r = snd r').
    - eapply sim_fold2; [exact (ai_secs _ _ A)| |split; [|easy]].
      + intros c c' [k j] [k' j'] [C1 C2] [_ HJ]. cbn [snd] in *. eapply sim_bind; [now apply i_props|]. intros s s' HS. rewrite <- C2.
        apply sim_eq; [now apply i_add_truth|intros t2]. apply sim_ret. split; [now apply i_st_add|easy].
      + cbn. apply (i_dset nil nil); [constructor|now apply i_container].
    - intros r r' [R1 R2]. apply sim_ret. split; cbn; [now rewrite R2|exact R1]. }
  destruct (y_der y) as [i|], (y_der y') as [i'|]; cbn in HD; try easy.
  - destruct (y_lum y); now apply X.
  - destruct (y_lum y); [|apply sim_raise]. apply sim_eq; [apply i_in_lum|intros lum]. apply sim_eq; [apply i_in_lum|intros _]. eapply sim_bind; [apply sim_get|].
    intros z z' HZ. rewrite <- (yi_lum _ _ HZ). apply sim_eq; [apply sim_lift|]. intros l'. apply sim_eq; [apply i_times|intros p']. apply sim_ret. split; [easy|constructor].
Qed.
Lemma i_survey_aux prog rl n lum acc acc' kv kv' : acciso acc acc' -> fst kv = fst kv' /\ B (snd kv) (snd kv') ->
  sim yiso acciso (survey_aux prog rl n lum acc kv) (survey_aux (E := E) prog rl n lum acc' kv').
Proof.
  intros [A1 A2] [_ HB]. unfold survey_aux. eapply sim_bind; [now apply i_aux_y|]. intros a a' X. rewrite <- (ai_issec _ _ X), <- A1. apply sim_eq; [apply sim_lift|intros _].
  apply sim_eq; [apply i_in_w; now apply i_upd_aux|intros _]. apply sim_eq; [apply i_get_sp|intros sp]. apply sim_eq; [apply i_in_w; now apply i_upd_aux|intros _].
  apply sim_eq.
  - eapply sim_iter2; [exact (ai_secs _ _ X)|]. intros [k j] [k' j'] [_ HJ]. cbn [snd] in *. eapply sim_bind; [now apply i_aux_y|]. intros c c' C. rewrite <- (ai_st _ _ C).
    apply sim_eq; [destruct (a_usesl (a_st c)); [apply i_in_w; now apply i_upd_aux|now apply sim_ret]|intros _].
    destruct (a_usesd (a_st c)); [apply i_in_w; now apply i_upd_aux|now apply sim_ret].
  - intros _. apply sim_eq; [apply i_in_w; now apply i_aux_draw|intros _]. apply sim_eq; [now apply i_add_truth|intros t1]. apply sim_eq; [now apply i_check|intros _].
    eapply sim_bind; [now apply i_props|]. intros s s' HS. apply sim_eq.
    + eapply sim_fold2; [exact (ai_secs _ _ X)| |easy]. intros t t' [k j] [k' j'] <- [_ HJ]. now apply i_add_truth.
    + intros t2. apply sim_ret. split; [easy|]. now apply i_st_add.
Qed.
Lemma i_survey_flux sg l10 n f : ys (survey_flux sg l10 n f) (survey_flux (E := E) sg l10 n f).
Proof.
  unfold survey_flux. eapply sim_bind; [apply sim_get|]. intros y y' Y. eapply sim_bind; [apply i_in_w, i_get_sel; exact (yi_flux _ _ Y)|]. intros s s' S. rewrite <- (si_kind _ _ _ S).
  destruct (is_unity (s_kind s)); [now apply sim_ret|]. destruct sg as [sg|]; [|now apply sim_ret].
  destruct (vlt E sg (vofnat E 0)); [apply sim_raise|]. apply sim_eq; [apply i_in_g|intros es]. apply sim_eq; [apply sim_lift|intros logs].
  apply sim_eq; [apply sim_lift|intros _]. now apply sim_ret.
Qed.
Lemma i_survey_selection acc kv kv' : fst kv = fst kv' /\ ciso (snd kv) (snd kv') -> ys (survey_selection acc kv) (survey_selection (E := E) acc kv').
Proof.
  intros [_ C]. unfold survey_selection. eapply sim_bind; [apply i_in_w, i_get_sel; exact (ci_sel _ _ C)|]. intros s s' S. rewrite <- (si_kind _ _ _ S), <- (ci_prob _ _ C).
  destruct (is_unity (s_kind s)); [now apply sim_ret|].
  apply sim_eq; [apply i_times|intros p]. apply sim_eq; [apply sim_lift_eq; now apply siso_add|intros t]. now apply sim_ret.
Qed.

(** ** The graph *)
Lemma i_gprops rl h h' i i' pr : auxs h h' -> B i i' -> sim eq eq (gprops rl h i pr) (gprops (E := E) rl h' i' pr).
Proof.
  intros H HB g ? <-. unfold gprops. assert (Z := i_sec_props h h' rl H i i' pr HB (Some g) (Some g) eq_refl).
  destruct (sec_props rl h i pr (Some g)) as [[a|e] o], (sec_props rl h' i' pr (Some g)) as [[a'|e'] o']; try easy; destruct Z as [Z1 <-]; destruct o; cbn; auto.
Qed.
Lemma i_gaux h h' i i' : auxs h h' -> B i i' -> sim (@eq graph) aiso (gaux h i) (gaux (E := E) h' i').
Proof. intros H HB g ? <-. unfold gaux, lift. destruct (H _ _ HB) as (a & a' & A & A' & X). rewrite A, A'. now split. Qed.
Lemma i_same (A : Type) (m : M graph A) : sim eq eq m m.
Proof. intros g ? <-. destruct (m g) as [[a|e] g']; auto. Qed.
Lemma i_build_graph rl h h' spn lumn der der' aux aux' : auxs h h' -> same_opt B der der' -> secs aux aux' ->
  sim eq eq (build_graph rl h spn lumn der aux) (build_graph (E := E) rl h' spn lumn der' aux').
Proof.
  intros H HD HA. unfold build_graph. apply sim_eq; [apply i_same|intros _]. apply sim_eq; [apply i_same|intros _]. apply sim_eq.
  - destruct der as [i|], der' as [i'|]; cbn in HD; try easy; [|apply i_same]. unfold graph_derived. eapply sim_bind; [now apply i_gaux|]. intros a a' X.
    rewrite <- (ai_name _ _ X), <- (ai_st _ _ X). apply sim_eq; [apply i_same|intros _]. apply sim_eq; [apply i_same|intros _]. apply sim_eq; [apply i_same|intros _].
    eapply sim_iter2; [exact (ai_secs _ _ X)|]. intros [k j] [k' j'] [K HJ]. cbn in K, HJ. subst k'. cbn [fst snd].
    apply sim_eq; [apply i_same|intros _]. apply sim_eq; [apply i_same|intros _]. now apply i_gprops.
  - intros _. eapply sim_iter2; [exact HA|]. intros [k j] [k' j'] [K HJ]. cbn in K, HJ. subst k'. unfold graph_aux. cbn [fst snd].
    eapply sim_bind; [now apply i_gaux|]. intros a a' X. rewrite <- (ai_st _ _ X), <- (ai_issec _ _ X), <- (ai_obs _ _ X).
    apply sim_eq; [apply i_same|intros _]. apply sim_eq; [apply i_same|intros _]. apply sim_eq; [apply i_same|intros _].
    eapply sim_iter2; [exact (ai_secs _ _ X)|]. intros [k2 j2] [k2' j2'] [K HJ2]. cbn in K, HJ2. subst k2'. cbn [fst snd].
    eapply sim_bind; [now apply i_gaux|]. intros b b' Y. rewrite <- (ai_st _ _ Y), <- (ai_obs _ _ Y).
    apply sim_eq; [apply i_same|intros _]. apply sim_eq; [apply i_same|intros _]. apply sim_eq; [apply i_same|intros _]. apply sim_eq; [apply i_same|intros _]. now apply i_gprops.
Qed.
Lemma i_read_graph rl : ys (read_graph rl) (read_graph (E := E) rl).
Proof.
  intros y y' Y. unfold read_graph. rewrite <- (yi_sp _ _ Y), <- (yi_lum _ _ Y).
  assert (Z := i_build_graph rl _ _ (sd_name (y_sp y)) (option_map (fun l => ld_name l) (y_lum y)) _ _ _ _ (wi_a _ _ (yi_w _ _ Y)) (yi_der _ _ Y) (yi_aux _ _ Y) _ _ (yi_graph _ _ Y)).
  destruct (build_graph rl (w_auxs (y_w y)) _ _ _ _ (y_graph y)) as [[a|e] g], (build_graph rl (w_auxs (y_w y')) _ _ _ _ (y_graph y')) as [[a'|e'] g']; try easy;
  destruct Z as [Z1 <-]; cbn; (split; [easy|]); destruct Y; split; auto.
Qed.

(** ** The configuration *)
Lemma yi_same y y' : yiso y y' -> same_synth eq y y'.
Proof.
  intros Y. assert (SS : forall k k', P k k' -> same_selector_at eq y y' k k').
  { intros k k' HP. destruct (wi_s _ _ (yi_w _ _ Y) k k' HP) as (s & s' & S & S' & X). exists s, s'. split; [exact S|]. split; [exact S'|]. destruct X. split; auto. congruence. }
  split.
  - apply Y. - apply Y. - rewrite (yi_sp _ _ Y), (yi_spm _ _ Y). auto. - now rewrite (yi_sp _ _ Y).
  - assert (ML := yi_lumm _ _ Y). rewrite <- (yi_lum _ _ Y). destruct (y_lum y); cbn; [|easy]. split; [easy|]. split; [easy|]. split; [|easy]. apply ML. discriminate.
  - apply Y. - intros _. apply SS, Y. - apply Y. - intros _. apply SS, Y.
  - assert (Z := yi_ssel _ _ Y). destruct (y_ssel y), (y_ssel y'); cbn in *; auto.
  - exists B. split; [|split; [exact B_fun|split; [exact B_inj|split]]].
    + intros i i' HB. destruct (wi_a _ _ (yi_w _ _ Y) i i' HB) as (a & a' & A & A' & X). exists a, a'. split; [exact A|]. split; [exact A'|]. split; [apply X|].
      split; [now rewrite (ai_dy _ _ X)|]. split; [apply SS, X|apply X].
    + intros k. assert (Z := yi_aux _ _ Y). induction Z as [|[k1 j] [k2 j'] l l' [K HJ] Z IH]; cbn; [easy|]. cbn in K, HJ. subst k2. destruct (String.eqb k k1); cbn; auto.
    + apply Y.
Qed.
Lemma i_to_dict rl y y' : yiso y y' -> to_dict rl y = to_dict rl y'.
Proof.
  intros Y. symmetry. apply (ConfTwice.save_same E y y' (yi_same _ _ Y)); [|exact (yi_nodup _ _ Y)].
  assert (Z := yi_aux _ _ Y). unfold dkeys. induction Z as [|x x' l l' [K _] Z IH]; cbn; congruence.
Qed.
Lemma i_quantities s s' : stiso s s' -> rmapM (quantity (E := E)) s = rmapM (quantity (E := E)) s'.
Proof.
  intros F. induction F as [|[k c] [k' c'] s s' [K [C1 C2 C3 C4]] F IH]; cbn [rmapM]; [easy|]. cbn in K, C1, C2. subst k'. rewrite IH. unfold quantity. cbn [fst snd]. now rewrite C1, C2.
Qed.

(** ** The survey *)
Lemma at_bind A C D (Q : A -> C -> Prop) (T : D -> D -> Prop) (m : YM E A) (m' : YM E C) (k : A -> YM E D) k' y y' :
  match m y, m' y' with (Ok a, t), (Ok b, t') => Q a b /\ yiso t t' | (Err e, t), (Err e', t') => e = e' /\ yiso t t' | _, _ => False end ->
  (forall a b, Q a b -> sim yiso T (k a) (k' b)) ->
  match bind m k y, bind m' k' y' with (Ok a, t), (Ok b, t') => T a b /\ yiso t t' | (Err e, t), (Err e', t') => e = e' /\ yiso t t' | _, _ => False end.
Proof.
  intros H K. unfold bind. destruct (m y) as [[a|e] t], (m' y') as [[a'|e'] t']; try easy. destruct H as [HQ H]. exact (K a a' HQ t t' H).
Qed.
Lemma i_spatial (s0 : selector) s s' sp : siso s s' ->
  match set_spatial_distribution s sp, set_spatial_distribution s' sp with Ok t, Ok t' => siso t t' | Err e, Err e' => e = e' | _, _ => False end.
Proof.
  intros [K T Pa D M S F]. unfold set_spatial_distribution. rewrite <- K. destruct (is_spatial (s_kind s)); [|easy]. split; cbn; auto. now rewrite D.
Qed.
Lemma i_survey prog fuel rl sg l10 ns nrm : ys (draw_survey prog fuel rl sg l10 ns nrm) (draw_survey (E := E) prog fuel rl sg l10 ns nrm).
Proof.
  unfold draw_survey. eapply sim_bind; [apply sim_get|]. intros y0 y0' Y0. cbv zeta. rewrite <- (yi_sp _ _ Y0). generalize (sd_name (y_sp y0)) (truth (sd_par (y_sp y0))). clear Y0 y0 y0'. intros nm0 tr0.
  apply sim_eq.
  { unfold survey_size. apply sim_eq.
    - apply sim_modify. intros y y' Y. rewrite <- (yi_seed _ _ Y). apply i_with_w; [exact Y|]. now apply wi_gens, Y.
    - intros _. destruct ns; [now apply sim_ret|]. apply sim_eq; [apply i_in_sp|]. intros rate. apply i_in_g. }
  intros n. apply sim_eq; [apply i_in_sp|intros _]. eapply sim_bind; [apply sim_get|]. intros y1 y1' Y1. rewrite <- (yi_sp _ _ Y1). apply sim_eq; [apply i_times|intros p0]. clear Y1 y1 y1'.
  apply sim_eq; [apply i_in_sp|intros _]. apply sim_eq; [apply i_get_sp|intros sp].
  eapply sim_bind; [apply i_survey_lum|intros [[[lum p1] t1] st1] [[[lum' p1'] t1'] st1'] [L1 L2]]. cbn in L1, L2. injection L1 as <- <- <-.
  apply sim_eq; [apply i_in_sp|intros c]. apply sim_eq; [apply sim_lift|intros fluxes]. eapply sim_bind; [apply sim_get|]. intros y y' Y.
  eapply sim_bind with (Q := acciso).
  { eapply sim_fold2; [exact (yi_aux _ _ Y)| |now split]. intros acc acc' kv kv' HA HK. now apply i_survey_aux. }
  intros [t2 st2] [t2' st2'] [T1 T2]. cbn in T1, T2. subst t2'.
  apply sim_eq; [apply i_survey_flux|intros [fobs sigma]].
  apply sim_eq; [apply i_in_w, i_upd_sel; [exact (yi_flux _ _ Y)|]; intros ? ?; apply i_set_flux|intros _].
  apply sim_eq; [apply i_in_w, i_on_sel; [exact (yi_flux _ _ Y)|apply i_select]|intros _].
  apply sim_eq; [eapply sim_fold2; [exact T2| |easy]; intros acc acc' kv kv' <- HK; now apply i_survey_selection|intros [p2 auxsel]].
  apply sim_eq; [apply sim_lift|intros s1]. eapply sim_bind; [apply i_in_w, i_get_sel; exact (yi_flux _ _ Y)|]. intros sf sf' SF.
  apply sim_eq; [apply sim_lift_eq; now apply siso_add|intros s2]. apply sim_eq.
  { assert (HS := yi_ssel _ _ Y). destruct (y_ssel y) as [i|], (y_ssel y') as [i'|]; cbn in HS; try easy. apply sim_eq; [apply i_get_sp|intros sp'].
    eapply sim_bind; [apply i_in_w, i_get_sel; exact HS|]. intros s s' S. eapply sim_bind with (Q := siso).
    - intros z z' Z. unfold lift. assert (X := i_spatial s s s' sp' S). destruct (set_spatial_distribution s sp'), (set_spatial_distribution s' sp'); auto.
    - intros t t' TT. apply sim_eq; [apply i_in_w; now apply i_put_sel|intros _]. apply sim_eq; [apply i_in_w, i_on_sel; [exact HS|apply i_select]|intros _].
      eapply sim_bind; [apply i_in_w, i_get_sel; exact HS|]. intros u u' U. apply sim_lift_eq. now apply siso_add. }
  intros s3. apply sim_eq; [apply sim_lift|intros nsel]. apply sim_eq; [apply i_in_w, i_on_sel; [exact (yi_dsel _ _ Y)|apply i_select]|intros _].
  eapply sim_bind; [apply i_in_w, i_get_sel; exact (yi_dsel _ _ Y)|]. intros sd sd' SD. rewrite <- (siso_selection _ _ _ SD).
  apply sim_eq; [apply sim_lift|intros mask]. apply sim_eq; [apply sim_lift|intros dmask]. apply sim_eq; [apply sim_lift|intros detected].
  apply sim_eq; [apply sim_lift|intros known]. apply sim_eq; [destruct (Nat.ltb 0 nsel); [destruct known; [apply sim_raise|]|]; now apply sim_ret|intros _].
  apply sim_eq; [apply i_in_sp|intros rm]. apply sim_eq; [apply i_read_graph|intros g]. eapply sim_bind; [apply sim_get|]. intros z z' Z.
  rewrite <- (yi_sp _ _ Z), <- (yi_spm _ _ Z), <- (yi_lum _ _ Z), <- (yi_seed _ _ Z), <- (yi_name _ _ Z), <- (yi_nmodel _ _ Z), <- (yi_spaces _ _ Z), <- (i_to_dict rl _ _ Z), <- (i_quantities _ _ T2).
  assert (ML : option_map (fun _ : ldist E => m_form (y_lumm z')) (y_lum z) = option_map (fun _ => m_form (y_lumm z)) (y_lum z)).
  { assert (ML := yi_lumm _ _ Z). destruct (y_lum z); cbn; [|easy]. rewrite ML; [easy|discriminate]. }
  rewrite ML.
  apply sim_eq; [apply sim_lift|intros th]. apply sim_eq; [apply sim_lift|intros ph]. apply sim_eq; [apply sim_lift|intros conf].
  apply sim_eq; [apply sim_lift|intros aux]. apply sim_lift.
Qed.
End Iso.
