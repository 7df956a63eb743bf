(** The state of the generators before a survey does not matter. *)
From Verif Require Import Base BaseFacts Env ParamModel SelModel SimVarModel DistModel AuxModel AuxSpec AuxProofs
  PopModel SynthModel SynthSpec Sim.
Open Scope nat_scope.

Section P.
Variable E : env.
Notation V := (V E).
Notation world := (world E).
Notation synth := (synth E).
Notation sampler := (sampler E).
Notation selector := (selector E).

(** Worlds that differ only in numba's generator. *)
Record nw (w w' : world) : Prop := Nw {
  nw_g : w_g w = w_g w'; nw_s : w_sels w = w_sels w'; nw_a : w_auxs w = w_auxs w'; nw_l : w_log w = w_log w';
  nw_free : forall a, In a (w_auxs w) -> numba_free (kind_of a) }.
Notation ns := (sim nw eq).
Definition freed (a b : sampler) : Prop := a = b /\ numba_free (kind_of a).

Lemma n_get_aux i : sim nw freed (get_aux i) (get_aux i).
Proof.
  intros w w' H. unfold get_aux. rewrite <- (nw_a _ _ H). destruct (nth_error (w_auxs w) i) as [a|] eqn:A; cbn; [|auto].
  split; [|easy]. split; [easy|]. apply (nw_free _ _ H). eapply nth_error_In; eauto.
Qed.
Lemma n_get_sel i : ns (get_sel i) (get_sel (E := E) i).
Proof. intros w w' H. unfold get_sel. rewrite <- (nw_s _ _ H). now destruct (nth_error (w_sels w) i). Qed.
Lemma In_lset {A} (l : list A) i x z : In z (lset l i x) -> In z l \/ z = x.
Proof.
  revert i. induction l as [|h l IH]; intros [|i]; cbn; auto.
  - intros [<-|I]; auto.
  - intros [<-|I]; auto. destruct (IH _ I); auto.
Qed.
Lemma n_put_aux i a : numba_free (kind_of a) -> ns (put_aux i a) (put_aux i a).
Proof.
  intros F. apply sim_modify. intros w w' [G S A L FR]. split; cbn; auto; [congruence|].
  intros b I. apply In_lset in I. destruct I as [I| ->]; auto.
Qed.
Lemma n_put_sel i a : ns (put_sel i a) (put_sel (E := E) i a).
Proof. apply sim_modify. intros w w' [G S A L FR]. split; cbn; auto. congruence. Qed.
Lemma n_upd_aux i f : ns (upd_aux i f) (upd_aux (E := E) i f).
Proof. unfold upd_aux. eapply sim_bind; [apply n_get_aux|]. intros a b [<- F]. now apply n_put_aux. Qed.
Lemma n_upd_sel i f : ns (upd_sel i f) (upd_sel (E := E) i f).
Proof. unfold upd_sel. apply sim_eq; [apply n_get_sel|]. intros s. apply n_put_sel. Qed.
Lemma n_on_sel A i (m : SM E A) : ns (on_sel i m) (on_sel i m).
Proof.
  unfold on_sel. apply sim_eq; [apply n_get_sel|]. intros s w w' [G S A' L FR]. rewrite <- G.
  destruct (m (s, w_g w)) as [r [s' g']]. destruct r; (split; [easy|]); split; cbn; auto; congruence.
Qed.
Lemma n_reads i ks : ns (aux_reads i ks) (aux_reads (E := E) i ks).
Proof.
  unfold aux_reads. eapply sim_bind; [apply n_get_aux|]. intros a b [<- F]. destruct (preads E (k_params (kind_of a)) ks (a_par (a_dy a))) as [r o].
  apply sim_eq; [apply n_upd_aux|]. intros _. apply sim_lift.
Qed.
Lemma n_log i : ns (modify (w_add_log i)) (modify (w_add_log (E := E) i)).
Proof. apply sim_modify. intros w w' [G S A L FR]. split; cbn; auto. congruence. Qed.

Lemma n_true (k : akind E) vals v n : numba_free k -> (forall w w', nw w w' -> v w = v w') ->
  ns (fun w => let (r, g) := k_true k vals (v w) n (w_g w, w_n w) in (r, w_set_gens g w))
     (fun w => let (r, g) := k_true k vals (v w) n (w_g w, w_n w) in (r, w_set_gens g w)).
Proof.
  intros (F1 & F2 & _) HV w w' H. rewrite <- (HV _ _ H). destruct H as [G S A L FR]. rewrite <- G. rewrite (F1 vals (v w) n (w_g w) (w_n w)), (F1 vals (v w) n (w_g w) (w_n w')).
  destruct (F2 vals (v w) n (w_g w) (w_n w) (w_n w')) as [Q1 Q2]. rewrite <- Q1, <- Q2.
  destruct (fst (k_true k vals (v w) n (w_g w, w_n w))); (split; [easy|]); split; cbn; auto.
Qed.
Lemma n_obs (k : akind E) vals v n : numba_free k -> (forall w w', nw w w' -> v w = v w') ->
  ns (fun w => let (r, g) := k_obs k vals (v w) n (w_g w, w_n w) in (r, w_set_gens g w))
     (fun w => let (r, g) := k_obs k vals (v w) n (w_g w, w_n w) in (r, w_set_gens g w)).
Proof.
  intros (_ & _ & F1 & F2) HV w w' H. rewrite <- (HV _ _ H). destruct H as [G S A L FR]. rewrite <- G. rewrite (F1 vals (v w) n (w_g w) (w_n w)), (F1 vals (v w) n (w_g w) (w_n w')).
  destruct (F2 vals (v w) n (w_g w) (w_n w) (w_n w')) as [Q1 Q2]. rewrite <- Q1, <- Q2.
  destruct (fst (k_obs k vals (v w) n (w_g w, w_n w))); (split; [easy|]); split; cbn; auto.
Qed.
Lemma n_run_true i n : ns (run_true i n) (run_true (E := E) i n).
Proof.
  unfold run_true. eapply sim_bind; [apply n_get_aux|]. intros a b [<- F]. apply sim_eq; [apply n_log|intros _].
  apply sim_eq; [apply n_reads|]. intros vals. eapply sim_bind; [apply n_get_aux|]. intros a' b' [<- F'].
  apply sim_eq.
  - apply (n_true (kind_of a) vals (fun w => view_of (w_auxs w) a') n F). intros w w' H. now rewrite (nw_a _ _ H).
  - intros [l|]; [apply n_upd_aux|now apply sim_ret].
Qed.
Lemma n_run_obs i n : ns (run_obs i n) (run_obs (E := E) i n).
Proof.
  unfold run_obs. eapply sim_bind; [apply n_get_aux|]. intros a b [<- F].
  apply sim_eq; [apply n_reads|]. intros vals. eapply sim_bind; [apply n_get_aux|]. intros a' b' [<- F'].
  apply sim_eq.
  - apply (n_obs (kind_of a) vals (fun w => view_of (w_auxs w) a') n F). intros w w' H. now rewrite (nw_a _ _ H).
  - intros [l|]; [apply n_upd_aux|now apply sim_ret].
Qed.
Lemma n_run_prob i : ns (run_prob i) (run_prob (E := E) i).
Proof.
  unfold run_prob. eapply sim_bind; [apply n_get_aux|]. intros a b [<- F].
  apply sim_eq; [apply n_reads|]. intros vals. eapply sim_bind; [apply n_get_aux|]. intros a' b' [<- F'].
  eapply sim_bind; [apply sim_get|]. intros w w' H. apply sim_eq; [|intros x; apply n_upd_aux].
  apply sim_lift_eq. now rewrite (nw_a _ _ H).
Qed.
Lemma n_aux_pre a : ns (aux_pre a) (aux_pre (E := E) a).
Proof.
  unfold aux_pre. apply sim_eq; [|intros _].
  - destruct (a_usesd (a_st a)); [|now apply sim_ret]. destruct (a_sp (a_dy a)); [apply n_upd_sel|apply sim_raise].
  - destruct (a_lum (a_dy a)); [apply n_upd_sel|now apply sim_ret].
Qed.
Lemma n_finish prog i n : ns (aux_finish prog i n) (aux_finish (E := E) prog i n).
Proof.
  unfold aux_finish. apply sim_eq; [apply n_run_true|intros _]. eapply sim_bind; [apply n_get_aux|]. intros a b [<- F].
  apply sim_eq; [destruct (a_observed (a_st a)); [apply n_run_obs|apply n_upd_aux]|intros _].
  eapply sim_bind; [apply n_get_aux|]. intros a2 b2 [<- F2].
  apply sim_eq; [apply n_upd_sel|intros _]. apply sim_eq; [apply sim_lift|intros _]. apply sim_eq; [apply sim_lift|intros _].
  apply sim_eq; [apply n_upd_aux|intros _]. apply sim_eq; [apply n_on_sel|intros _]. apply n_run_prob.
Qed.
Lemma n_draw prog fuel : forall i n, ns (aux_draw prog fuel i n) (aux_draw (E := E) prog fuel i n).
Proof.
  induction fuel as [|fuel IH]; intros i n; cbn [aux_draw]; [apply sim_raise|].
  eapply sim_bind; [apply n_get_aux|]. intros a b [<- F]. destruct (a_sampled (a_dy a)); [now apply sim_ret|].
  apply sim_eq; [apply n_aux_pre|intros _]. apply sim_eq; [|intros _; apply n_finish].
  apply sim_iter. intros [k j] _. cbn [snd]. eapply sim_bind; [apply n_get_aux|]. intros c d [<- F2].
  destruct (a_issec (a_ln c)); [|apply sim_raise]. destruct (a_sp (a_dy a)); [|apply sim_raise].
  apply sim_eq; [apply n_upd_aux|intros _]. apply IH.
Qed.

(** ** Synths *)
Record ny (y y' : synth) : Prop := Ny {
  ny_w : nw (y_w y) (y_w y');
  ny_eq : with_w y (y_w y') = y' }.
Notation yn := (sim ny eq).

Lemma n_in_w A B (Q : A -> B -> Prop) (m : AM E A) (m' : AM E B) : sim nw Q m m' -> sim ny Q (in_w m) (in_w m').
Proof.
  intros H y y' [HW EQ]. specialize (H _ _ HW). unfold in_w. destruct (m (y_w y)) as [[a|e] w1], (m' (y_w y')) as [[b|e'] w1']; try easy;
  (destruct H as [H1 H2]; split; [easy|]); (split; [exact H2|]); rewrite <- EQ; reflexivity.
Qed.
Lemma n_in_sp A (m : DM E A) : yn (in_sp m) (in_sp m).
Proof.
  intros y y' [[G S A' L FR] EQ]. unfold in_sp. rewrite <- G. assert (SP : y_sp y' = y_sp y) by (rewrite <- EQ; reflexivity). rewrite SP.
  destruct (m (y_sp y, w_g (y_w y))) as [r [d g]]. destruct r; (split; [easy|]); (split; [split; cbn; auto|]); rewrite <- EQ; reflexivity.
Qed.
Lemma n_in_lum A (m : LM E A) : yn (in_lum m) (in_lum m).
Proof.
  intros y y' N. assert (N' := N). destruct N as [[G S A' L FR] EQ]. unfold in_lum. rewrite <- G. assert (SP : y_lum y' = y_lum y) by (rewrite <- EQ; reflexivity). rewrite SP.
  destruct (y_lum y); [|easy].
  destruct (m (l, w_g (y_w y))) as [r [d g]]. destruct r; (split; [easy|]); (split; [split; cbn; auto|]); rewrite <- EQ; reflexivity.
Qed.
Lemma n_in_g A (m : M (Rst E) A) : yn (in_g m) (in_g m).
Proof.
  intros y y' [[G S A' L FR] EQ]. unfold in_g. rewrite <- G.
  destruct (m (w_g (y_w y))) as [r g]. destruct r; (split; [easy|]); (split; [split; cbn; auto|]); rewrite <- EQ; reflexivity.
Qed.

Ltac fields H := let W := fresh in let Q := fresh in destruct H as [W Q]; rewrite <- Q in *; cbn [with_w y_sp y_spm y_lum y_lumm y_seed y_name y_nmodel y_spaces y_aux y_der y_flux y_fluxset y_dsel y_dset y_ssel y_graph y_w] in *.

Lemma n_times p q : yn (times p q) (times (E := E) p q).
Proof. apply sim_lift. Qed.
Lemma n_get_sp : yn (get_sp (E := E)) (get_sp (E := E)).
Proof. unfold get_sp. eapply sim_bind; [apply sim_get|]. intros y y' H. apply sim_lift_eq. fields H. reflexivity. Qed.
Lemma n_aux_y i : sim ny freed (in_w (get_aux i)) (in_w (get_aux i)).
Proof. apply n_in_w, n_get_aux. Qed.
Lemma n_add_truth i t : yn (add_truth i t) (add_truth (E := E) i t).
Proof.
  unfold add_truth, sampler_truth. apply sim_eq; [|intros x; now apply sim_ret]. eapply sim_bind; [apply n_aux_y|]. intros a b [<- F]. now apply sim_ret.
Qed.
Lemma n_props rl i : yn (props rl i) (props (E := E) rl i).
Proof. unfold props. eapply sim_bind; [apply sim_get|]. intros y y' H. apply sim_lift_eq. now rewrite (nw_a _ _ (ny_w _ _ H)). Qed.
Lemma n_check n i : yn (check_len n i) (check_len (E := E) n i).
Proof. unfold check_len. eapply sim_bind; [apply n_aux_y|]. intros a b [<- F]. apply sim_eq; [apply sim_lift|intros _; apply sim_lift]. Qed.

Lemma n_survey_lum prog rl n p t : yn (survey_lum prog rl n p t) (survey_lum (E := E) prog rl n p t).
Proof.
  unfold survey_lum. eapply sim_bind; [apply sim_get|]. intros y y' H. fields H.
  assert (X : forall i, yn (
      let! sp := get_sp (E := E) in
      in_w (set_sp i sp) ;;
      in_w (aux_draw prog rl i n) ;;
      check_len n i ;;
      let! a := in_w (get_aux i) in
      let st := dset nil (name_of a) (container_of a) in
      let! vals := in_w (aux_reads i (k_lreads (kind_of a))) in
      let! a' := in_w (get_aux i) in
      let! w := in_w get in
      let! f := lift (of_opt AttributeError (k_lum (kind_of a))) in
      let! lum := lift (f vals (view_of (w_auxs w) a')) in
      let! t1 := add_truth i t in
      let! r := foldM (fun acc kv =>
                  let! s := props rl (snd kv) in
                  let! t2 := add_truth (snd kv) (snd acc) in
                  ret (st_add (fst acc) s, t2)) (st, t1) (a_sec (a_ln a)) in
      ret (lum, p, snd r, fst r)) (
      let! sp := get_sp (E := E) in
      in_w (set_sp i sp) ;;
      in_w (aux_draw prog rl i n) ;;
      check_len n i ;;
      let! a := in_w (get_aux i) in
      let st := dset nil (name_of a) (container_of a) in
      let! vals := in_w (aux_reads i (k_lreads (kind_of a))) in
      let! a' := in_w (get_aux i) in
      let! w := in_w get in
      let! f := lift (of_opt AttributeError (k_lum (kind_of a))) in
      let! lum := lift (f vals (view_of (w_auxs w) a')) in
      let! t1 := add_truth i t in
      let! r := foldM (fun acc kv =>
                  let! s := props rl (snd kv) in
                  let! t2 := add_truth (snd kv) (snd acc) in
                  ret (st_add (fst acc) s, t2)) (st, t1) (a_sec (a_ln a)) in
      ret (lum, p, snd r, fst r))).
  { intros i. apply sim_eq; [apply n_get_sp|intros sp]. apply sim_eq; [apply n_in_w, n_upd_aux|intros _].
    apply sim_eq; [apply n_in_w, n_draw|intros _]. apply sim_eq; [apply n_check|intros _]. eapply sim_bind; [apply n_aux_y|]. intros a b [<- F].
    apply sim_eq; [apply n_in_w, n_reads|intros vals]. eapply sim_bind; [apply n_aux_y|]. intros a' b' [<- F'].
    eapply sim_bind; [apply n_in_w, sim_get|]. intros w w' HW. apply sim_eq; [apply sim_lift|intros f].
    apply sim_eq; [apply sim_lift_eq; now rewrite (nw_a _ _ HW)|intros lum]. apply sim_eq; [apply n_add_truth|intros t1].
    apply sim_eq; [|intros r; now apply sim_ret]. apply sim_fold. intros acc kv _. apply sim_eq; [apply n_props|intros s].
    apply sim_eq; [apply n_add_truth|intros t2]. now apply sim_ret. }
  destruct (y_lum y) as [l|]; destruct (y_der y) as [i|]; [apply X| |apply X|apply sim_raise].
  apply sim_eq; [apply n_in_lum|intros lum]. apply sim_eq; [apply n_in_lum|intros _]. eapply sim_bind; [apply sim_get|].
  intros z z' HZ. apply sim_eq; [apply sim_lift_eq; fields HZ; reflexivity|]. intros l'. apply sim_eq; [apply n_times|intros p']. now apply sim_ret.
Qed.

Lemma n_survey_aux prog rl n lum acc kv : yn (survey_aux prog rl n lum acc kv) (survey_aux (E := E) prog rl n lum acc kv).
Proof.
  unfold survey_aux. eapply sim_bind; [apply n_aux_y|]. intros a b [<- F]. apply sim_eq; [apply sim_lift|intros _].
  apply sim_eq; [apply n_in_w, n_upd_aux|intros _]. apply sim_eq; [apply n_get_sp|intros sp]. apply sim_eq; [apply n_in_w, n_upd_aux|intros _].
  apply sim_eq.
  - apply sim_iter. intros kv2 _. eapply sim_bind; [apply n_aux_y|]. intros c d [<- F2].
    apply sim_eq; [destruct (a_usesl (a_st c)); [apply n_in_w, n_upd_aux|now apply sim_ret]|intros _].
    destruct (a_usesd (a_st c)); [apply n_in_w, n_upd_aux|now apply sim_ret].
  - intros _. apply sim_eq; [apply n_in_w, n_draw|intros _]. apply sim_eq; [apply n_add_truth|intros t1]. apply sim_eq; [apply n_check|intros _].
    apply sim_eq; [apply n_props|intros s]. apply sim_eq; [|intros t2; now apply sim_ret]. apply sim_fold. intros t kv2 _. apply n_add_truth.
Qed.
Lemma n_survey_flux sg l10 n f : yn (survey_flux sg l10 n f) (survey_flux (E := E) sg l10 n f).
Proof.
  unfold survey_flux. eapply sim_bind; [apply sim_get|]. intros y y' H. fields H. apply sim_eq; [apply n_in_w, n_get_sel|]. intros s.
  destruct (is_unity (s_kind s)); [now apply sim_ret|]. destruct sg as [sg|]; [|now apply sim_ret].
  destruct (vlt E sg (vofnat E 0)); [apply sim_raise|]. apply sim_eq; [apply n_in_g|intros es]. apply sim_eq; [apply sim_lift|intros logs].
  apply sim_eq; [apply sim_lift|intros _]. now apply sim_ret.
Qed.
Lemma n_survey_selection acc kv : yn (survey_selection acc kv) (survey_selection (E := E) acc kv).
Proof.
  unfold survey_selection. apply sim_eq; [apply n_in_w, n_get_sel|]. intros s. destruct (is_unity (s_kind s)); [now apply sim_ret|].
  apply sim_eq; [apply n_times|intros p]. apply sim_eq; [apply sim_lift|intros t]. now apply sim_ret.
Qed.
Lemma n_graph rl : yn (read_graph rl) (read_graph (E := E) rl).
Proof.
  intros y y' H. assert (H' := H). unfold read_graph. rewrite <- (nw_a _ _ (ny_w _ _ H)). destruct H as [W Q]. rewrite <- Q. cbn [with_w y_sp y_lum y_der y_aux y_graph].
  destruct (build_graph rl (w_auxs (y_w y)) (sd_name (y_sp y)) (option_map (fun l => ld_name l) (y_lum y)) (y_der y) (y_aux y) (y_graph y)) as [r g].
  destruct r; cbn; (split; [easy|]); (split; [exact W|reflexivity]).
Qed.

Lemma sec_objects_same rl : forall (w w' : world) i acc, w_auxs w = w_auxs w' -> w_sels w = w_sels w' -> sec_objects rl w i acc = sec_objects rl w' i acc.
Proof.
  induction rl as [|rl IH]; intros w w' i acc A S; cbn [sec_objects]; [easy|]. rewrite <- A, <- S. destruct (nth_error (w_auxs w) i) as [a|]; cbn; [|easy].
  match goal with |- rbind ?x _ = rbind ?x' _ => assert (X : x = x') end; [|now rewrite X].
  generalize acc as ac. induction (a_sec (a_ln a)) as [|[k j] l IHl]; intros ac; [easy|]. rewrite (IH w w' j ac A S). destruct (sec_objects rl w' j ac); cbn; [apply IHl|easy].
Qed.
Lemma to_dict_same rl (y : synth) (w' : world) : w_auxs (y_w y) = w_auxs w' -> w_sels (y_w y) = w_sels w' -> to_dict rl y = to_dict rl (with_w y w').
Proof.
  intros A S. unfold to_dict, selection_entry, conf_top. cbn [with_w y_sp y_spm y_lum y_lumm y_seed y_aux y_der y_flux y_fluxset y_dsel y_dset y_ssel y_w].
  rewrite <- A, <- S.
  assert (T : forall key ty i acc, (let? a := of_opt Unmodelled (nth_error (w_auxs (y_w y)) i) in let? e := conf_entry ty (w_sels (y_w y)) a in
      let acc1 := dset acc key e in match a_sec (a_ln a) with nil => Ok acc1 | _ => sec_objects rl (y_w y) i acc1 end) =
     (let? a := of_opt Unmodelled (nth_error (w_auxs (y_w y)) i) in let? e := conf_entry ty (w_sels (y_w y)) a in
      let acc1 := dset acc key e in match a_sec (a_ln a) with nil => Ok acc1 | _ => sec_objects rl w' i acc1 end)).
  { intros. destruct (nth_error (w_auxs (y_w y)) i) as [a|]; cbn; [|easy]. destruct (conf_entry ty (w_sels (y_w y)) a); cbn; [|easy].
    destruct (a_sec (a_ln a)); [easy|]. now apply sec_objects_same. }
  repeat match goal with |- rbind ?x _ = rbind ?x _ => destruct x; cbn [rbind]; [|easy] end.
  match goal with |- rbind (?f _ nil) _ = rbind (?f' _ nil) _ => assert (X : forall l acc, f l acc = f' l acc) end.
  { induction l as [|[k j] l IHl]; intros acc; [easy|]. cbn [of_opt]. destruct (nth_error (w_auxs (y_w y)) j) as [aa|] eqn:A1; [|easy]. cbn [of_opt rbind].
    assert (TT := T k (a_type (a_st aa)) j acc). rewrite A1 in TT. cbn [of_opt rbind] in TT. rewrite TT.
    match goal with |- rbind ?x _ = rbind ?x _ => destruct x; cbn [rbind]; [apply IHl|easy] end. }
  rewrite X. match goal with |- rbind ?x _ = rbind ?x _ => destruct x as [aa1|]; cbn [rbind]; [|easy] end.
  destruct (y_der y) as [i|]; [|easy]. destruct (nth_error (w_auxs (y_w y)) i) as [aa|] eqn:A1; [|easy]. cbn [of_opt rbind].
  assert (TT := T (name_of aa) (name_of aa) i aa1). rewrite A1 in TT. cbn [of_opt rbind] in TT. now rewrite TT.
Qed.

Lemma bind_get {S A} (f : S -> M S A) s : bind get f s = f s s.
Proof. reflexivity. Qed.
Lemma at_bind {S S' A B} (R : S -> S' -> Prop) (m : M S A) m' (k : A -> M S B) k' s s' :
  match m s, m' s' with (Ok a, t), (Ok b, t') => a = b /\ R t t' | (Err e, t), (Err e', t') => e = e' /\ R t t' | _, _ => False end ->
  (forall a, sim R eq (k a) (k' a)) ->
  match bind m k s, bind m' k' s' with (Ok a, t), (Ok b, t') => a = b /\ R t t' | (Err e, t), (Err e', t') => e = e' /\ R t t' | _, _ => False end.
Proof.
  intros H K. unfold bind. destruct (m s) as [[a|e] t], (m' s') as [[a'|e'] t']; try easy. destruct H as [<- H]. exact (K a t t' H).
Qed.

(** After the generator was seeded. *)
Lemma n_size ns nrm : forall y y', w_sels (y_w y) = w_sels (y_w y') -> w_auxs (y_w y) = w_auxs (y_w y') -> w_log (y_w y) = w_log (y_w y') ->
  (forall a, In a (w_auxs (y_w y)) -> numba_free (kind_of a)) -> with_w y (y_w y') = y' ->
  match survey_size ns nrm y, survey_size ns nrm y' with
  | (Ok a, t), (Ok b, t') => a = b /\ ny t t' | (Err e, t), (Err e', t') => e = e' /\ ny t t' | _, _ => False end.
Proof.
  intros y y' S A L F Q. unfold survey_size. apply at_bind.
  - cbn. split; [easy|]. split; [split; cbn; auto; rewrite <- Q; reflexivity|]. rewrite <- Q. reflexivity.
  - intros _. destruct ns; [now apply sim_ret|]. apply sim_eq; [apply n_in_sp|]. intros rate. apply n_in_g.
Qed.

Theorem survey_related prog fuel rl sg l10 ns nrm y y' : w_sels (y_w y) = w_sels (y_w y') -> w_auxs (y_w y) = w_auxs (y_w y') -> w_log (y_w y) = w_log (y_w y') ->
  (forall a, In a (w_auxs (y_w y)) -> numba_free (kind_of a)) -> with_w y (y_w y') = y' ->
  match draw_survey prog fuel rl sg l10 ns nrm y, draw_survey prog fuel rl sg l10 ns nrm y' with
  | (Ok a, t), (Ok b, t') => a = b /\ ny t t' | (Err e, t), (Err e', t') => e = e' /\ ny t t' | _, _ => False end.
Proof.
  intros S A L F Q. assert (H := n_size ns nrm y y' S A L F Q).
  unfold draw_survey. rewrite !bind_get. cbv beta zeta. replace (sd_name (y_sp y')) with (sd_name (y_sp y)) by (rewrite <- Q; reflexivity).
  replace (truth (sd_par (y_sp y'))) with (truth (sd_par (y_sp y))) by (rewrite <- Q; reflexivity).
  apply at_bind; [exact H|]. generalize (sd_name (y_sp y)) (truth (sd_par (y_sp y))). clear S A L F H Q y y'. intros nm0 tr0 n. apply sim_eq; [apply n_in_sp|intros _].
  eapply sim_bind; [apply sim_get|]. intros y y' H. apply sim_eq; [fields H; apply n_times|]. clear H y y'. intros p0.
  apply sim_eq; [apply n_in_sp|intros _]. apply sim_eq; [apply n_get_sp|intros sp]. apply sim_eq; [apply n_survey_lum|intros [[[lum p1] t1] st1]].
  apply sim_eq; [apply n_in_sp|intros c]. apply sim_eq; [apply sim_lift|intros fluxes]. eapply sim_bind; [apply sim_get|]. intros y y' H.
  assert (Q1 : y_aux y' = y_aux y /\ y_flux y' = y_flux y /\ y_ssel y' = y_ssel y /\ y_dsel y' = y_dsel y) by (destruct H as [_ Q]; rewrite <- Q; auto).
  destruct Q1 as (Q1 & Q2 & Q3 & Q4). rewrite Q1, Q2, Q3, Q4. clear H Q1 Q2 Q3 Q4 y'.
  apply sim_eq; [apply sim_fold; intros; apply n_survey_aux|intros [t2 st2]]. apply sim_eq; [apply n_survey_flux|intros [fobs sigma]].
  apply sim_eq; [apply n_in_w, n_upd_sel|intros _]. apply sim_eq; [apply n_in_w, n_on_sel|intros _].
  apply sim_eq; [apply sim_fold; intros; apply n_survey_selection|intros [p2 auxsel]]. apply sim_eq; [apply sim_lift|intros s1].
  apply sim_eq; [apply n_in_w, n_get_sel|intros sf]. apply sim_eq; [apply sim_lift|intros s2]. apply sim_eq.
  { destruct (y_ssel y); [|now apply sim_ret]. apply sim_eq; [apply n_get_sp|intros sp']. apply sim_eq; [apply n_in_w, n_get_sel|intros s].
    apply sim_eq; [apply sim_lift|intros s']. apply sim_eq; [apply n_in_w, n_put_sel|intros _]. apply sim_eq; [apply n_in_w, n_on_sel|intros _].
    apply sim_eq; [apply n_in_w, n_get_sel|intros s'']. apply sim_lift. }
  intros s3. apply sim_eq; [apply sim_lift|intros nsel]. apply sim_eq; [apply n_in_w, n_on_sel|intros _]. apply sim_eq; [apply n_in_w, n_get_sel|intros sd].
  apply sim_eq; [apply sim_lift|intros mask]. apply sim_eq; [apply sim_lift|intros dmask]. apply sim_eq; [apply sim_lift|intros detected].
  apply sim_eq; [apply sim_lift|intros known]. apply sim_eq; [destruct (Nat.ltb 0 nsel); [destruct known; [apply sim_raise|]|]; now apply sim_ret|intros _].
  apply sim_eq; [apply n_in_sp|intros rm]. apply sim_eq; [apply n_graph|intros g]. eapply sim_bind; [apply sim_get|]. intros z z' H.
  assert (TD : to_dict rl z = to_dict rl z'). { destruct H as [[W1 W2 W3 W4 _] Q]. rewrite <- Q. now apply to_dict_same. }
  rewrite TD. assert (Q := ny_eq _ _ H). rewrite <- Q. cbn [with_w y_sp y_spm y_lum y_lumm y_seed y_name y_nmodel y_spaces].
  apply sim_eq; [apply sim_lift|intros th]. apply sim_eq; [apply sim_lift|intros ph]. apply sim_eq; [apply sim_lift|intros conf].
  apply sim_eq; [apply sim_lift|intros aux]. apply sim_lift.
Qed.

Theorem survey_generators prog fuel rl sg l10 ns nrm (y : synth) g k g' k' :
  (forall a, In a (w_auxs (y_w y)) -> numba_free (kind_of a)) ->
  fst (draw_survey prog fuel rl sg l10 ns nrm (set_gens g k y)) = fst (draw_survey prog fuel rl sg l10 ns nrm (set_gens g' k' y)).
Proof.
  intros F. assert (H := survey_related prog fuel rl sg l10 ns nrm (set_gens g k y) (set_gens g' k' y) eq_refl eq_refl eq_refl F eq_refl).
  destruct (draw_survey prog fuel rl sg l10 ns nrm (set_gens g k y)) as [[a|e] t], (draw_survey prog fuel rl sg l10 ns nrm (set_gens g' k' y)) as [[b|e'] t']; try easy;
  destruct H as [<- _]; reflexivity.
Qed.

(** With the same state of numba's generator nothing is asked of the samplers, and
    the state afterwards is the same too. *)
Theorem survey_numpy prog fuel rl sg l10 ns nrm (y : synth) g g' k :
  draw_survey prog fuel rl sg l10 ns nrm (set_gens g k y) = draw_survey prog fuel rl sg l10 ns nrm (set_gens g' k y).
Proof. reflexivity. Qed.
End P.
