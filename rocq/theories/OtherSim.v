(** Until the flux selection, a survey does not look at the selections of the synth. *)
From Verif Require Import Base BaseFacts Env ParamModel SelModel SimVarModel DistModel AuxModel PopModel SynthModel Sim.
Open Scope nat_scope.

Section P.
Variable E : env.
Notation V := (V E).
Notation world := (world E).
Notation synth := (synth E).
Notation sampler := (sampler E).
Notation selector := (selector E).
(** The selectors looked at. *)
Variable G : nat -> Prop.

Record wr (w w' : world) : Prop := Wr {
  wr_g : w_g w = w_g w'; wr_n : w_n w = w_n w'; wr_auxs : w_auxs w = w_auxs w';
  wr_sels : forall q, G q -> nth_error (w_sels w) q = nth_error (w_sels w') q;
  wr_all : forall a, In a (w_auxs w) -> G (a_sel (a_ln a)) }.
Notation ws := (sim wr).
Notation good := (fun a a' : sampler => a = a' /\ G (a_sel (a_ln a))).

Lemma w_get_aux i : ws good (get_aux i) (get_aux i).
Proof.
  intros w w' H. unfold get_aux. rewrite <- (wr_auxs _ _ H). destruct (nth_error (w_auxs w) i) as [a|] eqn:A; cbn; [|now split].
  split; [|exact H]. split; [reflexivity|]. apply (wr_all _ _ H). now apply nth_error_In in A.
Qed.
Lemma w_aux A B (Q : A -> B -> Prop) i k k' : (forall a, G (a_sel (a_ln a)) -> ws Q (k a) (k' a)) -> ws Q (let! a := get_aux i in k a) (let! a := get_aux i in k' a).
Proof. intros K. eapply sim_bind; [apply w_get_aux|]. intros a a' [<- GA]. now apply K. Qed.
Lemma w_get_sel q : G q -> ws eq (get_sel q) (get_sel q).
Proof. intros GQ w w' H. unfold get_sel. rewrite <- (wr_sels _ _ H q GQ). destruct (nth_error (w_sels w) q); cbn; now split. Qed.
Lemma in_lset A (l : list A) i x y : In y (lset l i x) -> y = x \/ In y l.
Proof. intros I. apply In_nth_error in I. destruct I as (k & K). destruct (Nat.eq_dec k i) as [->|NE].
  - destruct (Nat.lt_ge_cases i (length l)) as [L|L]; [rewrite nth_lset_eq in K by exact L; injection K as <-; now left|].
    assert (nth_error (lset l i x) i = None) by (apply nth_error_None; now rewrite lset_length). congruence.
  - rewrite nth_lset_neq in K by auto. right. now apply nth_error_In in K.
Qed.
Lemma w_put_aux i (a : sampler) : G (a_sel (a_ln a)) -> ws eq (put_aux i a) (put_aux i a).
Proof.
  intros GA w w' H. cbn. split; [reflexivity|]. destruct H as [H1 H2 H3 H4 H5]. split; cbn; try assumption; [congruence|].
  intros b I. apply in_lset in I. destruct I as [->|I]; [exact GA|now apply H5].
Qed.
Lemma w_upd_aux i f : ws eq (upd_aux i f) (upd_aux i f).
Proof. unfold upd_aux. apply w_aux. intros a GA. now apply w_put_aux. Qed.
Lemma sels_put q (s : selector) (w w' : world) : wr w w' -> forall j, G j -> nth_error (lset (w_sels w) q s) j = nth_error (lset (w_sels w') q s) j \/ j = q.
Proof. intros H j GJ. destruct (Nat.eq_dec j q) as [->|NE]; [now right|]. left. rewrite !nth_lset_neq by auto. now apply (wr_sels _ _ H). Qed.
Lemma lset_out A (l : list A) i x : nth_error l i = None -> nth_error (lset l i x) i = None.
Proof. rewrite !nth_error_None, lset_length. auto. Qed.
Lemma w_put_sel q s : G q -> ws eq (put_sel q s) (put_sel q s).
Proof.
  intros GQ w w' H. cbn. split; [reflexivity|]. split; cbn; try apply H. intros j GJ.
  destruct (sels_put q s _ _ H j GJ) as [X| ->]; [exact X|]. assert (X := wr_sels _ _ H q GQ).
  destruct (nth_error (w_sels w) q) eqn:N.
  - rewrite !nth_lset_eq; [reflexivity| |]; apply nth_error_Some; congruence.
  - rewrite !lset_out; congruence.
Qed.
Lemma w_upd_sel q f : G q -> ws eq (upd_sel q f) (upd_sel q f).
Proof. intros GQ. unfold upd_sel. apply sim_eq; [now apply w_get_sel|]. intros s. now apply w_put_sel. Qed.
Lemma w_gens (g : gens E) (w w' : world) : wr w w' -> wr (w_set_gens g w) (w_set_gens g w').
Proof. intros H. split; cbn; try reflexivity; apply H. Qed.
Lemma w_on_sel A q (m : SM E A) : G q -> ws eq (on_sel q m) (on_sel q m).
Proof.
  intros GQ. unfold on_sel. apply sim_eq; [now apply w_get_sel|]. intros s w w' H. rewrite <- (wr_g _ _ H), <- (wr_n _ _ H).
  destruct (m (s, w_g w)) as [r [s' g']]. assert (X := w_put_sel q s' GQ _ _ H). cbn in X. destruct X as [_ X].
  destruct r; (split; [reflexivity|]); now apply w_gens.
Qed.
Lemma w_run A (f : list sampler -> gens E -> res A * gens E) :
  ws eq (fun w => let (r, g) := f (w_auxs w) (w_g w, w_n w) in (r, w_set_gens g w)) (fun w => let (r, g) := f (w_auxs w) (w_g w, w_n w) in (r, w_set_gens g w)).
Proof.
  intros w w' H. rewrite <- (wr_g _ _ H), <- (wr_n _ _ H), <- (wr_auxs _ _ H). destruct (f _ _) as [r g]. destruct r; (split; [reflexivity|]); now apply w_gens.
Qed.
Lemma w_log i : ws eq (modify (w_add_log (E := E) i)) (modify (w_add_log i)).
Proof. apply sim_modify. intros w w' []. now split. Qed.

Lemma w_reads i ks : ws eq (aux_reads (E := E) i ks) (aux_reads i ks).
Proof.
  unfold aux_reads. apply w_aux. intros a GA. destruct (preads E (k_params (kind_of a)) ks (a_par (a_dy a))) as [r o].
  apply sim_eq; [apply w_upd_aux|]. intros _. apply sim_lift.
Qed.
Lemma w_true i n : ws eq (run_true (E := E) i n) (run_true i n).
Proof.
  unfold run_true. apply w_aux. intros a GA. apply sim_eq; [apply w_log|]. intros _. apply sim_eq; [apply w_reads|]. intros vals. apply w_aux. intros a' _.
  apply sim_eq; [exact (w_run _ (fun h g => k_true (kind_of a) vals (view_of h a') n g))|]. intros [l|]; [apply w_upd_aux|now apply sim_ret].
Qed.
Lemma w_obs i n : ws eq (run_obs (E := E) i n) (run_obs i n).
Proof.
  unfold run_obs. apply w_aux. intros a GA. apply sim_eq; [apply w_reads|]. intros vals. apply w_aux. intros a' _.
  apply sim_eq; [exact (w_run _ (fun h g => k_obs (kind_of a) vals (view_of h a') n g))|]. intros [l|]; [apply w_upd_aux|now apply sim_ret].
Qed.
Lemma w_prob i : ws eq (run_prob (E := E) i) (run_prob i).
Proof.
  unfold run_prob. apply w_aux. intros a GA. apply sim_eq; [apply w_reads|]. intros vals. apply w_aux. intros a' _.
  eapply sim_bind; [apply sim_get|]. intros w w' H. rewrite <- (wr_auxs _ _ H). apply sim_eq; [apply sim_lift|]. intros x. apply w_upd_aux.
Qed.
Lemma w_pre (a : sampler) : G (a_sel (a_ln a)) -> ws eq (aux_pre a) (aux_pre a).
Proof.
  intros GA. unfold aux_pre. apply sim_eq.
  - destruct (a_usesd (a_st a)); [|now apply sim_ret]. destruct (a_sp (a_dy a)); [now apply w_upd_sel|apply sim_raise].
  - intros _. destruct (a_lum (a_dy a)); [now apply w_upd_sel|now apply sim_ret].
Qed.
Lemma w_finish prog i n : ws eq (aux_finish (E := E) prog i n) (aux_finish prog i n).
Proof.
  unfold aux_finish. apply sim_eq; [apply w_true|]. intros _. apply w_aux. intros a1 G1. apply sim_eq.
  - destruct (a_observed (a_st a1)); [apply w_obs|apply w_upd_aux].
  - intros _. apply w_aux. intros a2 G2. apply sim_eq; [now apply w_upd_sel|]. intros _. apply sim_eq; [apply sim_lift|]. intros _.
    apply sim_eq; [apply sim_lift|]. intros _. apply sim_eq; [apply w_upd_aux|]. intros _. apply sim_eq; [now apply w_on_sel|]. intros _. apply w_prob.
Qed.
Lemma w_draw prog rl : forall i n, ws eq (aux_draw (E := E) prog rl i n) (aux_draw prog rl i n).
Proof.
  induction rl as [|rl IH]; intros i n; cbn [aux_draw]; [apply sim_raise|]. apply w_aux. intros a GA. destruct (a_sampled (a_dy a)); [now apply sim_ret|].
  apply sim_eq; [now apply w_pre|]. intros _. apply sim_eq; [|intros _; apply w_finish]. apply sim_iter. intros [k j] _. apply w_aux. intros b GB.
  destruct (a_issec (a_ln b)); [|apply sim_raise]. destruct (a_sp (a_dy a)); [|apply sim_raise]. apply sim_eq; [apply w_upd_aux|]. intros _. apply IH.
Qed.

(** ** The synth *)
Record yr (y y' : synth) : Prop := Yr {
  yr_w : wr (y_w y) (y_w y'); yr_sp : y_sp y = y_sp y'; yr_lum : y_lum y = y_lum y'; yr_seed : y_seed y = y_seed y'; yr_aux : y_aux y = y_aux y'; yr_der : y_der y = y_der y' }.
Notation ys := (sim yr).
Lemma y_in_w A B (Q : A -> B -> Prop) m m' : ws Q m m' -> ys Q (in_w m) (in_w m').
Proof.
  intros H y y' R. assert (X := H _ _ (yr_w _ _ R)). unfold in_w. destruct (m (y_w y)) as [[a|e] w], (m' (y_w y')) as [[a'|e'] w']; try easy;
    destruct X as [X1 X2]; (split; [exact X1|]); destruct R; now split.
Qed.
Lemma y_in_sp A (m : DM E A) : ys eq (in_sp m) (in_sp m).
Proof.
  intros y y' R. assert (W := yr_w _ _ R). unfold in_sp. rewrite <- (yr_sp _ _ R), <- (wr_g _ _ W), <- (wr_n _ _ W).
  destruct (m (y_sp y, w_g (y_w y))) as [r [d g]]. assert (X := w_gens (g, w_n (y_w y)) _ _ W). destruct r; (split; [reflexivity|]); destruct R; split; cbn; auto.
Qed.
Lemma y_in_lum A (m : LM E A) : ys eq (in_lum m) (in_lum m).
Proof.
  intros y y' R. assert (W := yr_w _ _ R). unfold in_lum. rewrite <- (yr_lum _ _ R), <- (wr_g _ _ W), <- (wr_n _ _ W). destruct (y_lum y) as [l|]; [|now split].
  destruct (m (l, w_g (y_w y))) as [r [d g]]. assert (X := w_gens (g, w_n (y_w y)) _ _ W). destruct r; (split; [reflexivity|]); destruct R; split; cbn; auto.
Qed.
Lemma y_in_g A (m : M (Rst E) A) : ys eq (in_g m) (in_g m).
Proof.
  intros y y' R. assert (W := yr_w _ _ R). unfold in_g. rewrite <- (wr_g _ _ W), <- (wr_n _ _ W).
  destruct (m (w_g (y_w y))) as [r g]. assert (X := w_gens (g, w_n (y_w y)) _ _ W). destruct r; (split; [reflexivity|]); destruct R; split; cbn; auto.
Qed.
Lemma y_size ns norm : ys eq (survey_size (E := E) ns norm) (survey_size ns norm).
Proof.
  unfold survey_size. apply sim_eq.
  - apply sim_modify. intros y y' R. assert (W := yr_w _ _ R). rewrite <- (yr_seed _ _ R), <- (wr_n _ _ W).
    assert (X := w_gens (r_seed E (y_seed y), w_n (y_w y)) _ _ W). destruct R; split; cbn; auto.
  - intros _. destruct ns; [now apply sim_ret|]. apply sim_eq; [apply y_in_sp|]. intros r. apply y_in_g.
Qed.
Lemma y_times p q : ys eq (times (E := E) p q) (times p q). Proof. apply sim_lift. Qed.
Lemma y_get A (Q : A -> A -> Prop) (k k' : synth -> YM E A) : (forall y y', yr y y' -> ys Q (k y) (k' y')) -> ys Q (let! y := get in k y) (let! y := get in k' y).
Proof. intros K. eapply sim_bind; [apply sim_get|]. exact K. Qed.
Lemma y_get_sp : ys eq (get_sp (E := E)) (get_sp (E := E)).
Proof. unfold get_sp. apply y_get. intros y y' R. rewrite <- (yr_sp _ _ R). apply sim_lift. Qed.
Lemma y_props rl i : ys eq (props (E := E) rl i) (props rl i).
Proof. unfold props. apply y_get. intros y y' R. rewrite <- (wr_auxs _ _ (yr_w _ _ R)). apply sim_lift. Qed.
Lemma y_aux A (Q : A -> A -> Prop) i (k k' : sampler -> YM E A) : (forall a, G (a_sel (a_ln a)) -> ys Q (k a) (k' a)) -> ys Q (let! a := in_w (get_aux i) in k a) (let! a := in_w (get_aux i) in k' a).
Proof. intros K. eapply sim_bind; [apply y_in_w, w_get_aux|]. intros a a' [<- GA]. now apply K. Qed.
Lemma y_truth i t : ys eq (add_truth (E := E) i t) (add_truth i t).
Proof. unfold add_truth, sampler_truth. apply sim_eq; [|intros x; now apply sim_ret]. apply y_aux. intros a _. now apply sim_ret. Qed.
Lemma y_check n i : ys eq (check_len (E := E) n i) (check_len n i).
Proof. unfold check_len. apply y_aux. intros a _. apply sim_eq; [apply sim_lift|]. intros _. apply sim_lift. Qed.

Lemma y_lumin prog rl n p t : ys eq (survey_lum (E := E) prog rl n p t) (survey_lum prog rl n p t).
Proof.
  unfold survey_lum. apply y_get. intros y y' R. rewrite <- (yr_lum _ _ R), <- (yr_der _ _ R).
  assert (D : forall i, ys eq
     (let! sp := get_sp (E := E) in in_w (set_sp i sp) ;; in_w (aux_draw prog rl i n) ;; check_len n i ;;
      let! a := in_w (get_aux i) in let st := dset nil (name_of a) (container_of a) in
      let! vals := in_w (aux_reads i (k_lreads (kind_of a))) in let! a' := in_w (get_aux i) in let! w := in_w get in
      let! f := lift (of_opt AttributeError (k_lum (kind_of a))) in let! lum := lift (f vals (view_of (w_auxs w) a')) in
      let! t1 := add_truth i t in
      let! r := foldM (fun acc kv => let! s := props rl (snd kv) in let! t2 := add_truth (snd kv) (snd acc) in ret (st_add (fst acc) s, t2)) (st, t1) (a_sec (a_ln a)) in
      ret (lum, p, snd r, fst r))
     (let! sp := get_sp (E := E) in in_w (set_sp i sp) ;; in_w (aux_draw prog rl i n) ;; check_len n i ;;
      let! a := in_w (get_aux i) in let st := dset nil (name_of a) (container_of a) in
      let! vals := in_w (aux_reads i (k_lreads (kind_of a))) in let! a' := in_w (get_aux i) in let! w := in_w get in
      let! f := lift (of_opt AttributeError (k_lum (kind_of a))) in let! lum := lift (f vals (view_of (w_auxs w) a')) in
      let! t1 := add_truth i t in
      let! r := foldM (fun acc kv => let! s := props rl (snd kv) in let! t2 := add_truth (snd kv) (snd acc) in ret (st_add (fst acc) s, t2)) (st, t1) (a_sec (a_ln a)) in
      ret (lum, p, snd r, fst r))).
  { intros i. apply sim_eq; [apply y_get_sp|]. intros sp. apply sim_eq; [apply y_in_w, w_upd_aux|]. intros _. apply sim_eq; [apply y_in_w, w_draw|]. intros _.
    apply sim_eq; [apply y_check|]. intros _. apply y_aux. intros a GA. cbv zeta. apply sim_eq; [apply y_in_w, w_reads|]. intros vals. apply y_aux. intros a' _.
    eapply sim_bind; [apply y_in_w, sim_get|]. intros w w' W. rewrite <- (wr_auxs _ _ W). apply sim_eq; [apply sim_lift|]. intros f. apply sim_eq; [apply sim_lift|]. intros lum.
    apply sim_eq; [apply y_truth|]. intros t1. apply sim_eq; [|intros r; now apply sim_ret]. apply sim_fold. intros acc kv _.
    apply sim_eq; [apply y_props|]. intros s. apply sim_eq; [apply y_truth|]. intros t2. now apply sim_ret. }
  destruct (y_lum y) as [l|], (y_der y) as [i|]; [apply D| |apply D|apply sim_raise].
  apply sim_eq; [apply y_in_lum|]. intros lum. apply sim_eq; [apply y_in_lum|]. intros _. apply y_get. intros z z' RZ. rewrite <- (yr_lum _ _ RZ).
  apply sim_eq; [apply sim_lift|]. intros l'. apply sim_eq; [apply y_times|]. intros q. now apply sim_ret.
Qed.
Lemma y_sampler prog rl n lum acc kv : ys eq (survey_aux (E := E) prog rl n lum acc kv) (survey_aux prog rl n lum acc kv).
Proof.
  unfold survey_aux. apply y_aux. intros a GA. apply sim_eq; [apply sim_lift|]. intros _. apply sim_eq; [apply y_in_w, w_upd_aux|]. intros _.
  apply sim_eq; [apply y_get_sp|]. intros sp. apply sim_eq; [apply y_in_w, w_upd_aux|]. intros _. apply sim_eq.
  { apply sim_iter. intros kv2 _. apply y_aux. intros b GB. apply sim_eq.
    - destruct (a_usesl (a_st b)); [apply y_in_w, w_upd_aux|now apply sim_ret].
    - intros _. destruct (a_usesd (a_st b)); [apply y_in_w, w_upd_aux|now apply sim_ret]. }
  intros _. apply sim_eq; [apply y_in_w, w_draw|]. intros _. apply sim_eq; [apply y_truth|]. intros t1. apply sim_eq; [apply y_check|]. intros _.
  apply sim_eq; [apply y_props|]. intros s. apply sim_eq; [|intros t2; now apply sim_ret]. apply sim_fold. intros t kv2 _. apply y_truth.
Qed.
End P.
