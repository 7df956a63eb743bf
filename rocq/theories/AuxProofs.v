From Verif Require Import Base BaseFacts Env ParamModel SelModel DistModel AuxModel AuxSpec.
Open Scope string_scope.
Open Scope list_scope.

Section P.
Variable E : env.
Notation V := (V E).
Notation sampler := (sampler E).
Notation world := (world E).
Implicit Types w : world.
Implicit Types a b : sampler.

(** ** Primitive operations *)
Lemma get_aux_inv i w a w' : get_aux i w = (Ok a, w') -> w' = w /\ at_ w i a.
Proof.
  unfold get_aux, at_. destruct (nth_error (w_auxs w) i); cbn; intros H; [|discriminate].
  now injection H as -> ->.
Qed.
Lemma get_aux_at i w a : at_ w i a -> get_aux i w = (Ok a, w).
Proof. unfold get_aux, at_. now intros ->. Qed.
Lemma get_sel_inv i w s w' : get_sel i w = (Ok s, w') -> w' = w /\ nth_error (w_sels w) i = Some s.
Proof.
  unfold get_sel. destruct (nth_error (w_sels w) i); cbn; intros H; [|discriminate].
  now injection H as -> ->.
Qed.

Lemma at_fun w i a b : at_ w i a -> at_ w i b -> a = b.
Proof. unfold at_. congruence. Qed.

(** Changes confined to sampler [i] and selector [s]. *)
Record local (i s : nat) w w' : Prop := Local {
  lo_aux : forall j, j <> i -> nth_error (w_auxs w') j = nth_error (w_auxs w) j;
  lo_wiring : same_wiring w w';
  lo_sel : forall k, k <> s -> nth_error (w_sels w') k = nth_error (w_sels w) k;
  lo_nsel : length (w_sels w') = length (w_sels w);
  lo_log : w_log w' = w_log w }.

Lemma local_refl i s w : local i s w w.
Proof. constructor; auto; reflexivity. Qed.
Lemma local_trans i s w1 w2 w3 : local i s w1 w2 -> local i s w2 w3 -> local i s w1 w3.
Proof.
  intros [A1 B1 C1 D1 E1] [A2 B2 C2 D2 E2]. constructor.
  - intros j N. rewrite A2, A1; auto.
  - unfold same_wiring in *. congruence.
  - intros k N. rewrite C2, C1; auto.
  - congruence.
  - congruence.
Qed.

Lemma map_lset A B (f : A -> B) l i x y : nth_error l i = Some x -> f y = f x ->
  map f (lset l i y) = map f l.
Proof.
  revert i. induction l as [|z l IH]; intros [|i] H F; cbn in *; try easy.
  - injection H as ->. now rewrite F.
  - f_equal. eauto.
Qed.

Lemma wiring_at w w' i a : same_wiring w w' -> at_ w i a ->
  exists a', at_ w' i a' /\ a_st a' = a_st a /\ a_ln a' = a_ln a.
Proof.
  unfold same_wiring, at_. intros H A.
  assert (M : nth_error (map (fun x : sampler => (a_st x, a_ln x)) (w_auxs w)) i = Some (a_st a, a_ln a))
    by now rewrite nth_error_map, A.
  rewrite H, nth_error_map in M. destruct (nth_error (w_auxs w') i) as [a'|]; [|discriminate].
  cbn in M. injection M as M1 M2. eauto.
Qed.
Lemma wiring_sym w w' : same_wiring w w' -> same_wiring w' w.
Proof. unfold same_wiring. auto. Qed.
Lemma wiring_trans w1 w2 w3 : same_wiring w1 w2 -> same_wiring w2 w3 -> same_wiring w1 w3.
Proof. unfold same_wiring. congruence. Qed.
Lemma wiring_depends w w' i j : same_wiring w w' -> depends w i j -> depends w' i j.
Proof.
  intros H (a & k & A & I). destruct (wiring_at _ _ _ _ H A) as (a' & A' & _ & L).
  exists a', k. now rewrite L.
Qed.
Lemma wiring_reaches w w' i j : same_wiring w w' -> reaches w i j -> reaches w' i j.
Proof.
  intros H R. induction R as [i|i j k D R IH]; [constructor|].
  apply reaches_step with j; [eapply wiring_depends; eauto|easy].
Qed.
Lemma wiring_acyclic w w' : same_wiring w w' -> acyclic w -> acyclic w'.
Proof.
  intros H (r & R). exists r. intros i j D. apply R. eapply wiring_depends; [apply wiring_sym|]; eauto.
Qed.
Lemma wiring_own w w' : same_wiring w w' -> own_selectors w -> own_selectors w'.
Proof.
  intros H O i j a b A B S. apply wiring_sym in H.
  destruct (wiring_at _ _ _ _ H A) as (a' & A' & _ & LA).
  destruct (wiring_at _ _ _ _ H B) as (b' & B' & _ & LB).
  apply (O i j a' b'); auto. congruence.
Qed.

Lemma upd_aux_inv i f w u w' : upd_aux i f w = (Ok u, w') ->
  exists a, at_ w i a /\ w' = w_set_auxs (lset (w_auxs w) i (upd_dy f a)) w.
Proof.
  unfold upd_aux. intros H. apply bind_inv_ok in H. destruct H as (a & w1 & H1 & H2).
  apply get_aux_inv in H1. destruct H1 as [-> A]. unfold put_aux, modify in H2. injection H2 as _ <-. eauto.
Qed.
Lemma upd_aux_at i f w a : at_ w i a ->
  upd_aux i f w = (Ok tt, w_set_auxs (lset (w_auxs w) i (upd_dy f a)) w).
Proof. intros A. unfold upd_aux. now rewrite (bind_ok _ _ _ (get_aux_at _ _ _ A)). Qed.

Lemma at_set w i a f : at_ w i a -> at_ (w_set_auxs (lset (w_auxs w) i (upd_dy f a)) w) i (upd_dy f a).
Proof.
  intros A. unfold at_ in *. cbn [w_auxs w_set_auxs]. apply nth_lset_eq.
  apply nth_error_Some. congruence.
Qed.
Lemma local_set w i s a f : at_ w i a -> local i s w (w_set_auxs (lset (w_auxs w) i (upd_dy f a)) w).
Proof.
  intros A. constructor; cbn [w_auxs w_sels w_log w_set_auxs]; auto.
  - intros j N. apply nth_lset_neq. auto.
  - unfold same_wiring. cbn [w_auxs w_set_auxs]. symmetry. apply map_lset with a; auto.
Qed.

Lemma upd_sel_inv s f w u w' : upd_sel s f w = (Ok u, w') ->
  exists x, nth_error (w_sels w) s = Some x /\ w' = w_set_sels (lset (w_sels w) s (f x)) w.
Proof.
  unfold upd_sel. intros H. apply bind_inv_ok in H. destruct H as (x & w1 & H1 & H2).
  apply get_sel_inv in H1. destruct H1 as [-> A]. unfold put_sel, modify in H2. injection H2 as _ <-. eauto.
Qed.
Lemma local_sel w i s x : local i s w (w_set_sels (lset (w_sels w) s x) w).
Proof.
  constructor; cbn [w_auxs w_sels w_log w_set_sels]; auto.
  - reflexivity.
  - intros k N. apply nth_lset_neq. auto.
  - apply lset_length.
Qed.
Lemma local_gens w i s g : local i s w (w_set_gens g w).
Proof. constructor; auto; reflexivity. Qed.

Lemma on_sel_inv A s (m : SM E A) w r w' : on_sel s m w = (Ok r, w') ->
  exists x x' g', nth_error (w_sels w) s = Some x /\ m (x, w_g w) = (Ok r, (x', g')) /\
    w' = w_set_gens (g', w_n w) (w_set_sels (lset (w_sels w) s x') w).
Proof.
  unfold on_sel. intros H. apply bind_inv_ok in H. destruct H as (x & w1 & H1 & H2).
  apply get_sel_inv in H1. destruct H1 as [-> S].
  destruct (m (x, w_g w)) as [r' [x' g']] eqn:HM. injection H2 as -> <-. eauto 8.
Qed.

(** ** One sampler *)

(** [a'] is sampler [a] with possibly new parameters store and values. *)
Definition evolves a a' : Prop :=
  a_st a' = a_st a /\ a_ln a' = a_ln a /\ a_lum (a_dy a') = a_lum (a_dy a) /\ a_sp (a_dy a') = a_sp (a_dy a).
Lemma evolves_refl a : evolves a a. Proof. repeat split. Qed.
Lemma evolves_trans a b c : evolves a b -> evolves b c -> evolves a c.
Proof. intros (A1 & A2 & A3 & A4) (B1 & B2 & B3 & B4). repeat split; congruence. Qed.

Lemma aux_reads_inv i ks w vals w' : aux_reads i ks w = (Ok vals, w') ->
  exists a o, at_ w i a /\ preads E (k_params (kind_of a)) ks (a_par (a_dy a)) = (Ok vals, o) /\
    w' = w_set_auxs (lset (w_auxs w) i (upd_dy (dy_par o) a)) w.
Proof.
  unfold aux_reads. intros H. apply bind_inv_ok in H. destruct H as (a & w1 & H1 & H2).
  apply get_aux_inv in H1. destruct H1 as [-> A].
  destruct (preads E (k_params (kind_of a)) ks (a_par (a_dy a))) as [r o] eqn:P.
  apply bind_inv_ok in H2. destruct H2 as (u & w2 & H2 & H3). unfold lift in H3.
  injection H3 as -> <-. apply upd_aux_inv in H2. destruct H2 as (a2 & A2 & ->).
  assert (a2 = a) by (eapply at_fun; eauto). subst. eauto.
Qed.

Lemma run_obs_inv i size w w' s : run_obs i size w = (Ok tt, w') ->
  exists a a', at_ w i a /\ at_ w' i a' /\ evolves a a' /\ local i s w w' /\
    a_sampled (a_dy a') = a_sampled (a_dy a) /\ a_true (a_dy a') = a_true (a_dy a).
Proof.
  unfold run_obs. intros H. apply bind_inv_ok in H. destruct H as (a & w1 & H1 & H).
  apply get_aux_inv in H1. destruct H1 as [-> A].
  apply bind_inv_ok in H. destruct H as (vals & w2 & H2 & H).
  apply aux_reads_inv in H2. destruct H2 as (a0 & o & A0 & _ & ->).
  assert (a0 = a) by (eapply at_fun; eauto). subst a0.
  apply bind_inv_ok in H. destruct H as (a1 & w3 & H3 & H).
  apply get_aux_inv in H3. destruct H3 as [-> A1].
  assert (a1 = upd_dy (dy_par o) a) by (eapply at_fun; [eassumption|now apply at_set]). subst a1.
  apply bind_inv_ok in H. destruct H as (x & w4 & H4 & H).
  match type of H4 with (let (_, _) := ?t in _) = _ => destruct t as [r g] end.
  injection H4 as -> <-.
  set (w2 := w_set_auxs (lset (w_auxs w) i (upd_dy (dy_par o) a)) w) in *.
  assert (L2 : local i s w w2) by now apply local_set.
  assert (L3 : local i s w (w_set_gens g w2)) by (eapply local_trans; [exact L2|apply local_gens]).
  destruct x as [l|].
  - apply upd_aux_inv in H. destruct H as (a3 & A3 & ->).
    assert (a3 = upd_dy (dy_par o) a) by (eapply at_fun; [exact A3|exact A1]). subst a3.
    exists a. eexists. split; [exact A|]. split; [apply at_set; exact A3|].
    split; [repeat split|]. split; [eapply local_trans; [exact L3|now apply local_set]|]. split; reflexivity.
  - injection H as <-. exists a. eexists. split; [exact A|]. split; [exact A1|].
    split; [repeat split|]. split; [exact L3|]. split; reflexivity.
Qed.

(** Nothing of the wiring or the recorded calls changes but for the new call. *)
Lemma run_true_inv i size w w' s : run_true i size w = (Ok tt, w') ->
  exists a a' w0, at_ w i a /\ at_ w' i a' /\ evolves a a' /\ w0 = w_add_log i w /\ local i s w0 w' /\
    a_sampled (a_dy a') = a_sampled (a_dy a).
Proof.
  unfold run_true. intros H. apply bind_inv_ok in H. destruct H as (a & w1 & H1 & H).
  apply get_aux_inv in H1. destruct H1 as [-> A].
  apply bind_inv_ok in H. destruct H as (u & w1 & H1 & H). unfold modify in H1. injection H1 as _ <-.
  set (w0 := w_add_log i w) in *.
  assert (A0' : at_ w0 i a) by exact A.
  apply bind_inv_ok in H. destruct H as (vals & w2 & H2 & H).
  apply aux_reads_inv in H2. destruct H2 as (a0 & o & A0 & _ & ->).
  assert (a0 = a) by (eapply at_fun; eauto). subst a0.
  apply bind_inv_ok in H. destruct H as (a1 & w3 & H3 & H).
  apply get_aux_inv in H3. destruct H3 as [-> A1].
  assert (a1 = upd_dy (dy_par o) a) by (eapply at_fun; [eassumption|now apply at_set]). subst a1.
  apply bind_inv_ok in H. destruct H as (x & w4 & H4 & H).
  match type of H4 with (let (_, _) := ?t in _) = _ => destruct t as [r g] end.
  injection H4 as -> <-.
  set (w2 := w_set_auxs (lset (w_auxs w0) i (upd_dy (dy_par o) a)) w0) in *.
  assert (L2 : local i s w0 w2) by now apply local_set.
  assert (L3 : local i s w0 (w_set_gens g w2)) by (eapply local_trans; [exact L2|apply local_gens]).
  destruct x as [l|].
  - apply upd_aux_inv in H. destruct H as (a3 & A3 & ->).
    assert (a3 = upd_dy (dy_par o) a) by (eapply at_fun; [exact A3|exact A1]). subst a3.
    exists a. do 2 eexists. split; [exact A|]. split; [apply at_set; exact A3|].
    split; [repeat split|]. split; [reflexivity|].
    split; [eapply local_trans; [exact L3|now apply local_set]|]. reflexivity.
  - injection H as <-. exists a. do 2 eexists. split; [exact A|]. split; [exact A1|].
    split; [repeat split|]. split; [reflexivity|]. split; [exact L3|]. reflexivity.
Qed.

Lemma run_prob_inv i w w' s : run_prob i w = (Ok tt, w') ->
  exists a a', at_ w i a /\ at_ w' i a' /\ evolves a a' /\ local i s w w' /\
    a_sampled (a_dy a') = a_sampled (a_dy a) /\ a_true (a_dy a') = a_true (a_dy a) /\
    a_obs (a_dy a') = a_obs (a_dy a) /\ w_sels w' = w_sels w.
Proof.
  unfold run_prob. intros H. apply bind_inv_ok in H. destruct H as (a & w1 & H1 & H).
  apply get_aux_inv in H1. destruct H1 as [-> A].
  apply bind_inv_ok in H. destruct H as (vals & w2 & H2 & H).
  apply aux_reads_inv in H2. destruct H2 as (a0 & o & A0 & _ & ->).
  assert (a0 = a) by (eapply at_fun; eauto). subst a0.
  apply bind_inv_ok in H. destruct H as (a1 & w3 & H3 & H).
  apply get_aux_inv in H3. destruct H3 as [-> A1].
  assert (a1 = upd_dy (dy_par o) a) by (eapply at_fun; [eassumption|now apply at_set]). subst a1.
  apply bind_inv_ok in H. destruct H as (x & w4 & H4 & H). unfold get in H4. injection H4 as <- <-.
  apply bind_inv_ok in H. destruct H as (x1 & w4 & H4 & H). unfold lift in H4. injection H4 as _ <-.
  set (w2 := w_set_auxs (lset (w_auxs w) i (upd_dy (dy_par o) a)) w) in *.
  apply upd_aux_inv in H. destruct H as (a3 & A3 & ->).
  assert (a3 = upd_dy (dy_par o) a) by (eapply at_fun; [exact A3|exact A1]). subst a3.
  assert (L2 : local i s w w2) by now apply local_set.
  exists a. eexists. split; [exact A|]. split; [apply at_set; exact A3|].
  split; [repeat split|]. split; [eapply local_trans; [exact L2|now apply local_set]|].
  repeat split.
Qed.

Lemma local_at i s w w' a a' : local i s w w' -> at_ w i a -> at_ w' i a' -> a_st a' = a_st a /\ a_ln a' = a_ln a.
Proof.
  intros L A A'. destruct (wiring_at _ _ _ _ (lo_wiring _ _ _ _ L) A) as (b & B & H1 & H2).
  assert (b = a') by (eapply at_fun; eauto). subst. auto.
Qed.

Lemma has_len_Some size v : has_len E size v = true -> exists l, v = Some l /\ length l = size.
Proof. destruct v as [l|]; cbn; [|discriminate]. intros H. apply Nat.eqb_eq in H. eauto. Qed.

(** What evaluating sampler [i] does. *)
Lemma finish_ok prog i size w w' a : at_ w i a ->
  aux_finish prog i size w = (Ok tt, w') ->
  local i (a_sel (a_ln a)) (w_add_log i w) w' /\
  exists a', at_ w' i a' /\ a_sampled (a_dy a') = true /\ filled size a' /\ selected_on prog size w' a' /\
    evolves a a'.
Proof.
  intros A H. set (s := a_sel (a_ln a)).
  unfold aux_finish in H. apply bind_inv_ok in H. destruct H as (u & w1 & H1 & H).
  destruct u. apply run_true_inv with (s := s) in H1.
  destruct H1 as (a0 & a1 & w0 & A0 & A1 & EV1 & -> & L1 & S1).
  assert (a0 = a) by (eapply at_fun; eauto). subst a0.
  apply bind_inv_ok in H. destruct H as (a1' & w1' & H1 & H).
  apply get_aux_inv in H1. destruct H1 as [-> A1']. assert (a1' = a1) by (eapply at_fun; eauto). subst a1'.
  apply bind_inv_ok in H. destruct H as (u & w2 & H2 & H). destruct u.
  assert (X : exists a2, at_ w2 i a2 /\ evolves a1 a2 /\ local i s w1 w2 /\
            (a_observed (a_st a2) = false -> a_obs (a_dy a2) = a_true (a_dy a2))).
  { destruct (a_observed (a_st a1)) eqn:OB.
    - apply run_obs_inv with (s := s) in H2. destruct H2 as (b & b' & B & B' & EV & L & _ & _).
      assert (b = a1) by (eapply at_fun; eauto). subst b. exists b'. repeat (split; [assumption|]).
      destruct EV as (EV & _). rewrite EV, OB. discriminate.
    - apply upd_aux_inv in H2. destruct H2 as (b & B & ->).
      assert (b = a1) by (eapply at_fun; eauto). subst b.
      eexists. split; [now apply at_set|]. split; [repeat split|]. split; [now apply local_set|]. reflexivity. }
  destruct X as (a2 & A2 & EV2 & L2 & OB). clear H2.
  apply bind_inv_ok in H. destruct H as (a2' & w2' & H2 & H).
  apply get_aux_inv in H2. destruct H2 as [-> A2']. assert (a2' = a2) by (eapply at_fun; eauto). subst a2'.
  assert (SEL : a_sel (a_ln a2) = s).
  { destruct EV1 as (_ & EL1 & _), EV2 as (_ & EL2 & _). unfold s. congruence. }
  rewrite SEL in H.
  apply bind_inv_ok in H. destruct H as (u & w3 & H3 & H). apply upd_sel_inv in H3.
  destruct H3 as (x & X & ->).
  apply bind_inv_ok in H. destruct H as (u1 & w4 & H4 & H). unfold lift in H4. injection H4 as R1 <-.
  apply bind_inv_ok in H. destruct H as (u2 & w4 & H4 & H). unfold lift in H4. injection H4 as R2 <-.
  unfold rassert in R1, R2.
  destruct (has_len E size (a_true (a_dy a2))) eqn:LT; [|discriminate].
  destruct (has_len E size (a_obs (a_dy a2))) eqn:LO; [|discriminate].
  apply has_len_Some in LT, LO. destruct LT as (tv & TV & LT), LO as (ov & OV & LO).
  set (w3 := w_set_sels (lset (w_sels w2) s (sel_set_obs (a_obs (a_dy a2)) x)) w2) in *.
  assert (A3 : at_ w3 i a2) by exact A2.
  apply bind_inv_ok in H. destruct H as (u3 & w4 & H4 & H). apply upd_aux_inv in H4.
  destruct H4 as (b & B & ->). assert (b = a2) by (eapply at_fun; eauto). subst b.
  set (a4 := upd_dy (dy_sampled true) a2) in *.
  set (w4 := w_set_auxs (lset (w_auxs w3) i a4) w3) in *.
  assert (A4 : at_ w4 i a4) by now apply at_set.
  apply bind_inv_ok in H. destruct H as (u4 & w5 & H5 & H). apply on_sel_inv in H5.
  destruct H5 as (y & y' & g' & Y & DY & ->). destruct u4.
  set (w5 := w_set_gens (g', w_n w4) (w_set_sels (lset (w_sels w4) s y') w4)) in *.
  assert (A5 : at_ w5 i a4) by exact A4.
  apply run_prob_inv with (s := s) in H. destruct H as (b & a6 & B6 & A6 & EV6 & L6 & S6 & T6 & O6 & SS6).
  assert (b = a4) by (eapply at_fun; eauto). subst b.
  assert (L3 : local i s w2 w3) by apply local_sel.
  assert (L4 : local i s w3 w4) by now apply local_set.
  assert (L5 : local i s w4 w5) by (eapply local_trans; [apply local_sel|apply local_gens]).
  split.
  { eapply local_trans; [exact L1|]. eapply local_trans; [exact L2|]. eapply local_trans; [exact L3|].
    eapply local_trans; [exact L4|]. eapply local_trans; eauto. }
  exists a6. split; [exact A6|]. split; [exact S6|].
  assert (EV : evolves a a6).
  { eapply evolves_trans; [exact EV1|]. eapply evolves_trans; [exact EV2|].
    eapply evolves_trans; [|exact EV6]. repeat split. }
  split; [|split; [|exact EV]].
  - exists tv, ov. rewrite T6, O6. repeat split; auto.
    + intros OF. assert (OF2 : a_observed (a_st a2) = false).
      { destruct EV6 as (E6 & _). rewrite <- OF. now rewrite E6. }
      specialize (OB OF2). congruence.
  - assert (Y' : y = sel_set_obs (a_obs (a_dy a2)) x).
    { assert (K : nth_error (w_sels w4) s = Some (sel_set_obs (a_obs (a_dy a2)) x)).
      { cbn [w4 w3 w_sels w_set_auxs w_set_sels]. apply nth_lset_eq. apply nth_error_Some. congruence. }
      congruence. }
    exists y, (w_g w4), y', g'. split; [|split; [exact DY|]].
    + rewrite O6, Y'. reflexivity.
    + destruct EV as (_ & EL & _). rewrite EL, SS6.
      cbn [w5 w_sels w_set_gens w_set_sels]. apply nth_lset_eq. apply nth_error_Some. fold s. congruence.
Qed.

(** ** Sequences of evaluations *)
Lemma same_values_refl a : same_values a a.
Proof. repeat split. Qed.
Lemma same_values_trans a b c : same_values a b -> same_values b c -> same_values a c.
Proof. unfold same_values. intuition congruence. Qed.

Lemma drew_nil prog n w : drew prog n w [] w.
Proof.
  constructor; try easy.
  - now rewrite app_nil_r.
  - constructor.
  - intros j. cbn. tauto.
  - intros j a _ A. exists a. split; [easy|apply same_values_refl].
  - intros t1 j t2 H. now apply app_cons_not_nil in H.
Qed.

Lemma filled_same n a b : same_values a b -> filled n a -> filled n b.
Proof.
  intros (H1 & _ & _ & _ & H5 & H6 & _) (t & o & T & O & L1 & L2 & F).
  exists t, o. rewrite <- H1, <- H5, <- H6. auto.
Qed.
Lemma selected_same prog n w w' a b : same_values a b ->
  nth_error (w_sels w') (a_sel (a_ln a)) = nth_error (w_sels w) (a_sel (a_ln a)) ->
  selected_on prog n w a -> selected_on prog n w' b.
Proof.
  intros (_ & H2 & _ & _ & _ & H6 & _) S (s0 & g0 & s1 & g1 & O & D & N).
  exists s0, g0, s1, g1. rewrite <- H2, <- H6, S. auto.
Qed.

Lemma split_app {A} (t1 t2 u1 u2 : list A) x : t1 ++ t2 = u1 ++ x :: u2 ->
  (exists v, t1 = u1 ++ x :: v) \/ (exists v, u1 = t1 ++ v /\ t2 = v ++ x :: u2).
Proof.
  revert u1. induction t1 as [|y t1 IH]; intros u1 H; cbn in *.
  - right. exists u1. now split.
  - destruct u1 as [|z u1]; cbn in H; injection H as -> H.
    + left. now exists t1.
    + destruct (IH _ H) as [(v & ->)|(v & -> & ->)]; [left; now exists v|right; now exists v].
Qed.

Lemma drew_app prog n w t1 w1 t2 w2 :
  drew prog n w t1 w1 -> drew prog n w1 t2 w2 -> drew prog n w (t1 ++ t2) w2.
Proof.
  intros D1 D2.
  assert (DJ : forall j, In j t1 -> ~ In j t2).
  { intros j I1 I2. apply (dr_new D2 I2), (dr_sampled D1). auto. }
  constructor.
  - eapply wiring_trans; [apply (dr_wiring D1)|apply (dr_wiring D2)].
  - rewrite (dr_nsel D2). apply (dr_nsel D1).
  - now rewrite (dr_log D2), (dr_log D1), app_assoc.
  - assert (N1 := dr_once D1). assert (N2 := dr_once D2). clear - N1 N2 DJ.
    induction t1 as [|x t1 IH]; cbn; [easy|]. inversion N1; subst. constructor.
    + rewrite in_app_iff. intros [H|H]; [contradiction|]. apply (DJ x); cbn; auto.
    + apply IH; try assumption. intros j I. apply DJ. cbn. auto.
  - intros j I S. apply in_app_iff in I. destruct I as [I|I].
    + now apply (dr_new D1 I).
    + apply (dr_new D2 I), (dr_sampled D1). auto.
  - intros j. rewrite (dr_sampled D2), (dr_sampled D1), in_app_iff. tauto.
  - intros j a N A. rewrite in_app_iff in N.
    destruct (dr_frame D1 (j:=j) (a:=a)) as (a1 & A1 & V1); [tauto|easy|].
    destruct (dr_frame D2 (j:=j) (a:=a1)) as (a2 & A2 & V2); [tauto|easy|].
    exists a2. split; [easy|]. eapply same_values_trans; eauto.
  - intros u1 j u2 H k D. apply split_app in H. destruct H as [(v & H)|(v & -> & H)].
    + apply (dr_order D1 _ _ H D).
    + destruct (dr_order D2 _ _ H (k:=k)) as [S|I].
      * eapply wiring_depends; [apply (dr_wiring D1)|easy].
      * apply (dr_sampled D1) in S. rewrite in_app_iff. tauto.
      * rewrite in_app_iff. tauto.
  - intros j I. apply in_app_iff in I. destruct I as [I|I].
    + destruct (dr_filled D1 _ I) as (a & A & F).
      destruct (dr_frame D2 (j:=j) (a:=a)) as (a2 & A2 & V2); [auto|easy|].
      exists a2. split; [easy|]. eapply filled_same; eauto.
    + apply (dr_filled D2 _ I).
  - intros i H. rewrite (dr_sels D2), (dr_sels D1); [easy| |].
    + intros j a I. apply H. rewrite in_app_iff. auto.
    + intros j a I A. destruct (wiring_at _ _ _ _ (wiring_sym _ _ (dr_wiring D1)) A) as (a0 & A0 & _ & L).
      rewrite <- L. apply (H j); [rewrite in_app_iff; auto|easy].
  - intros O j I. assert (O1 := wiring_own _ _ (dr_wiring D1) O). apply in_app_iff in I. destruct I as [I|I].
    + destruct (dr_mask D1 O _ I) as (a & A & F).
      destruct (dr_frame D2 (j:=j) (a:=a)) as (a2 & A2 & V2); [auto|easy|].
      exists a2. split; [easy|]. eapply selected_same; [exact V2| |exact F].
      apply (dr_sels D2). intros k b K B S. assert (k = j) by (eapply O1; eauto). subst. now apply (DJ j).
    + apply (dr_mask D2 O1 _ I).
Qed.

Lemma drew_set_sp prog n i sp w w' : set_sp i sp w = (Ok tt, w') -> drew prog n w [] w'.
Proof.
  unfold set_sp. intros H. apply upd_aux_inv in H. destruct H as (a & A & ->).
  assert (L : local i 0 w (w_set_auxs (lset (w_auxs w) i (upd_dy (dy_sp sp) a)) w)) by now apply local_set.
  assert (A' := at_set _ _ _ (dy_sp sp) A).
  set (w' := w_set_auxs _ _) in *.
  assert (SM : forall j b, at_ w j b -> exists b', at_ w' j b' /\ same_values b b').
  { intros j b B. destruct (Nat.eq_dec j i) as [->|N].
    - assert (b = a) by (eapply at_fun; eauto). subst b. exists (upd_dy (dy_sp sp) a). split; [easy|]. repeat split.
    - exists b. split; [|apply same_values_refl]. unfold at_. now rewrite (lo_aux _ _ _ _ L). }
  constructor; try easy.
  - apply (lo_wiring _ _ _ _ L).
  - now rewrite app_nil_r.
  - constructor.
  - intros j. cbn. split; [|intros [S|[]]].
    + intros (b & B & S). left. destruct (Nat.eq_dec j i) as [->|N].
      * exists a. split; [easy|]. assert (b = upd_dy (dy_sp sp) a) by (eapply at_fun; eauto). now subst b.
      * exists b. split; [|easy]. unfold at_ in *. now rewrite <- (lo_aux _ _ _ _ L).
    + destruct S as (b & B & S). destruct (SM _ _ B) as (b' & B' & V). exists b'. split; [easy|].
      destruct V as (_ & _ & _ & V & _). congruence.
  - intros j b _ B. now apply SM.
  - intros t1 j t2 H. now apply app_cons_not_nil in H.
Qed.

Lemma pre_inv a w w' : aux_pre a w = (Ok tt, w') ->
  exists sels, w' = w_set_sels sels w /\ length sels = length (w_sels w) /\
    forall k, k <> a_sel (a_ln a) -> nth_error sels k = nth_error (w_sels w) k.
Proof.
  unfold aux_pre. intros H. apply bind_inv_ok in H. destruct H as (u & w1 & H1 & H2).
  assert (X : exists sels, w1 = w_set_sels sels w /\ length sels = length (w_sels w) /\
    forall k, k <> a_sel (a_ln a) -> nth_error sels k = nth_error (w_sels w) k).
  { destruct (a_usesd (a_st a)).
    - destruct (a_sp (a_dy a)); [|discriminate]. apply upd_sel_inv in H1. destruct H1 as (x & X & ->).
      eexists. split; [reflexivity|]. split; [apply lset_length|]. intros k N. apply nth_lset_neq. auto.
    - injection H1 as _ <-. exists (w_sels w). destruct w; auto. }
  destruct X as (sels & -> & LS & K). destruct (a_lum (a_dy a)).
  - apply upd_sel_inv in H2. destruct H2 as (x & X & ->). cbn [w_sels w_set_sels] in *.
    eexists. split; [reflexivity|]. split; [now rewrite lset_length|]. intros k N.
    rewrite nth_lset_neq; auto.
  - injection H2 as <-. eauto.
Qed.

(** Evaluating sampler [i] once its secondaries are sampled. *)
Lemma drew_one prog n w i a sels t w1 w2 : at_ w i a -> ~ sampled w i ->
  length sels = length (w_sels w) ->
  (forall k, k <> a_sel (a_ln a) -> nth_error sels k = nth_error (w_sels w) k) ->
  drew prog n (w_set_sels sels w) t w1 -> ~ In i t ->
  (forall k, depends w i k -> sampled w k \/ In k t) ->
  aux_finish prog i n w1 = (Ok tt, w2) ->
  drew prog n w (t ++ [i]) w2 /\ sampled w2 i.
Proof.
  intros A NS LS K D NI DEP F. set (w0 := w_set_sels sels w) in *.
  destruct (dr_frame D (j:=i) (a:=a)) as (a1 & A1 & V1); [easy|exact A|].
  destruct (finish_ok _ _ _ _ _ _ A1 F) as (L & a2 & A2 & S2 & F2 & SEL2 & EV).
  assert (LN : a_ln a1 = a_ln a) by (destruct V1 as (_ & V1 & _); auto). rewrite LN in L.
  assert (W1 : same_wiring w w1) by exact (dr_wiring D).
  assert (W2 : same_wiring w w2).
  { eapply wiring_trans; [exact W1|]. apply (lo_wiring _ _ _ _ L). }
  assert (FR : forall j b, j <> i -> at_ w1 j b -> at_ w2 j b).
  { intros j b N B. unfold at_. rewrite (lo_aux _ _ _ _ L); [exact B|easy]. }
  assert (FR' : forall j b, j <> i -> at_ w2 j b -> at_ w1 j b).
  { intros j b N B. unfold at_ in *. rewrite (lo_aux _ _ _ _ L) in B; [exact B|easy]. }
  assert (SI : sampled w2 i) by (exists a2; auto).
  split; [|easy]. constructor.
  - exact W2.
  - rewrite (lo_nsel _ _ _ _ L). cbn [w_sels w_add_log]. rewrite (dr_nsel D). exact LS.
  - rewrite (lo_log _ _ _ _ L). cbn [w_log w_add_log]. now rewrite (dr_log D), <- app_assoc.
  - assert (N := dr_once D). clear - N NI. induction t as [|x t IH]; cbn; [repeat constructor; easy|].
    inversion N; subst. cbn in NI. constructor; [rewrite in_app_iff; cbn|apply IH; tauto].
    intros [H|[H|[]]]; [contradiction|subst; tauto].
  - intros j I. apply in_app_iff in I. destruct I as [I|[<-|[]]]; [|easy]. exact (dr_new D I).
  - intros j. rewrite in_app_iff. cbn. destruct (Nat.eq_dec j i) as [->|N]; [tauto|].
    assert (Q : sampled w2 j <-> sampled w1 j) by (split; intros (b & B & S); exists b; auto).
    rewrite Q, (dr_sampled D). change (sampled w0 j) with (sampled w j). intuition congruence.
  - intros j b N B. rewrite in_app_iff in N. cbn in N.
    destruct (dr_frame D (j:=j) (a:=b)) as (b' & B' & V); [tauto|exact B|].
    exists b'. split; [apply FR; [intros ->; tauto|easy]|easy].
  - intros u1 j u2 H k DK. apply split_app in H. destruct H as [(v & H)|(v & -> & H)].
    + exact (dr_order D _ _ H DK).
    + destruct v as [|x v]; cbn in H; injection H as H1 H2.
      * subst j. rewrite app_nil_r. auto.
      * now apply app_cons_not_nil in H2.
  - intros j I. apply in_app_iff in I. destruct I as [I|[<-|[]]]; [|eauto].
    destruct (dr_filled D _ I) as (b & B & Q). exists b. split; [apply FR; [intros ->; easy|easy]|easy].
  - intros k H. assert (NK : k <> a_sel (a_ln a)).
    { intros ->. apply (H i a); [rewrite in_app_iff; cbn; auto|easy|easy]. }
    rewrite (lo_sel _ _ _ _ L); [|easy]. cbn [w_sels w_add_log]. rewrite (dr_sels D); [now apply K|].
    intros j b I. apply H. rewrite in_app_iff. auto.
  - intros O j I. apply in_app_iff in I. destruct I as [I|[<-|[]]]; [|eauto].
    assert (N : j <> i) by (intros ->; easy).
    destruct (dr_mask D O _ I) as (b & B & Q). exists b. split; [now apply FR|].
    eapply selected_same; [apply same_values_refl| |exact Q].
    rewrite (lo_sel _ _ _ _ L); [reflexivity|]. intros S. apply N.
    apply (wiring_own _ _ W1 O j i b a1); auto. now rewrite LN.
Qed.

Lemma pending_mono w w' i j : same_wiring w w' -> (forall k, sampled w k -> sampled w' k) ->
  pending w' i j -> pending w i j.
Proof.
  intros W S P. induction P as [i N|i j k N D P IH].
  - constructor. auto.
  - apply pending_step with j; [auto| |easy]. eapply wiring_depends; [apply wiring_sym|]; eauto.
Qed.
Lemma pending_reaches w i j : pending w i j -> reaches w i j.
Proof. intros P. induction P; [constructor|econstructor; eauto]. Qed.
Lemma reaches_rank w (r : nat -> nat) i j : (forall i j, depends w i j -> r j < r i) -> reaches w i j -> r j <= r i.
Proof. intros R P. induction P as [i|i j k D P IH]; [easy|]. specialize (R _ _ D). lia. Qed.

Lemma sampled_dec w i : {sampled w i} + {~ sampled w i}.
Proof.
  unfold sampled, at_. destruct (nth_error (w_auxs w) i) as [a|].
  - destruct (a_sampled (a_dy a)) eqn:S; [left; eauto|right]. intros (b & B & S'). injection B as ->. congruence.
  - right. now intros (b & B & _).
Qed.

Theorem draw_drew prog fuel : forall i size w w' (r : nat -> nat),
  (forall i j, depends w i j -> r j < r i) ->
  aux_draw prog fuel i size w = (Ok tt, w') ->
  exists t, drew prog size w t w' /\ sampled w' i /\
    (forall j, In j t -> pending w i j) /\ (~ sampled w i -> exists t1, t = t1 ++ [i]).
Proof.
  induction fuel as [|fuel IH]; intros i size w w' r R H; cbn [aux_draw] in H; [discriminate|].
  apply bind_inv_ok in H. destruct H as (a & w1 & H1 & H).
  apply get_aux_inv in H1. destruct H1 as [-> A].
  destruct (a_sampled (a_dy a)) eqn:S.
  { injection H as <-. assert (SI : sampled w i) by (exists a; auto).
    exists []. split; [apply drew_nil|]. repeat split; [easy|easy|tauto]. }
  assert (NS : ~ sampled w i).
  { intros (b & B & SB). assert (b = a) by (eapply at_fun; eauto). subst. congruence. }
  apply bind_inv_ok in H. destruct H as (u & w1 & H1 & H). destruct u.
  apply pre_inv in H1. destruct H1 as (sels & -> & LS & K).
  apply bind_inv_ok in H. destruct H as (u & w1 & H1 & H). destruct u.
  set (w0 := w_set_sels sels w) in *.
  assert (X : forall l wa wb, same_wiring w wa -> (forall k, sampled w k -> sampled wa k) ->
    (forall kv, In kv l -> depends w i (snd kv)) ->
    iterM (fun kv : string * nat =>
          let! b := get_aux (snd kv) in
          if a_issec (a_ln b) then
            match a_sp (a_dy a) with
            | None => raise AttributeError
            | Some sp => set_sp (snd kv) sp ;; aux_draw prog fuel (snd kv) size
            end
          else raise RuntimeError) l wa = (Ok tt, wb) ->
    exists t, drew prog size wa t wb /\ (forall kv, In kv l -> sampled wb (snd kv)) /\
      forall j, In j t -> exists kv, In kv l /\ pending w (snd kv) j).
  { clear H1 H w1. induction l as [|kv l IHl]; intros wa wb W MS DL H; cbn [iterM] in H.
    - injection H as <-. exists []. split; [apply drew_nil|]. split; easy.
    - apply bind_inv_ok in H. destruct H as (u & wc & H1 & H). destruct u.
      apply bind_inv_ok in H1. destruct H1 as (b & w1 & H1 & H2). apply get_aux_inv in H1.
      destruct H1 as [-> B]. destruct (a_issec (a_ln b)); [|discriminate].
      destruct (a_sp (a_dy a)) as [sp|]; [|discriminate].
      apply bind_inv_ok in H2. destruct H2 as (u & w1 & H1 & H2). destruct u.
      assert (D1 := drew_set_sp prog size _ _ _ _ H1).
      apply IH with (r := r) in H2.
      2:{ intros x y D. apply R. eapply wiring_depends; [|exact D]. apply wiring_sym.
          eapply wiring_trans; [exact W|apply (dr_wiring D1)]. }
      destruct H2 as (t1 & D2 & SC & P1 & _).
      assert (D3 := drew_app _ _ _ _ _ _ _ D1 D2). cbn in D3.
      apply IHl in H.
      + destruct H as (t2 & D4 & SL & P2). exists (t1 ++ t2). split; [eapply drew_app; eauto|]. split.
        * intros kv' [<-|I]; [|auto]. apply (dr_sampled D4). auto.
        * intros j I. apply in_app_iff in I. destruct I as [I|I].
          -- exists kv. split; [cbn; auto|]. apply P1 in I. eapply pending_mono; [| |exact I].
             ++ eapply wiring_trans; [exact W|apply (dr_wiring D1)].
             ++ intros k Sk. apply (dr_sampled D1). auto.
          -- destruct (P2 j I) as (kv' & I' & P). exists kv'. cbn. auto.
      + eapply wiring_trans; [exact W|apply (dr_wiring D3)].
      + intros k Sk. apply (dr_sampled D3). auto.
      + intros kv' I. apply DL. cbn. auto. }
  destruct (X (a_sec (a_ln a)) w0 w1) as (t & D & SL & P); [reflexivity|easy| |exact H1|].
  { intros [k j] I. exists a, k. auto. }
  assert (NI : ~ In i t).
  { intros I. destruct (P i I) as ([k j] & IK & PI). cbn in PI.
    assert (r j < r i) by (apply R; exists a, k; auto).
    apply pending_reaches in PI. apply (reaches_rank _ _ _ _ R) in PI. lia. }
  assert (DEP : forall k, depends w i k -> sampled w k \/ In k t).
  { intros k (b & nm & B & I). assert (b = a) by (eapply at_fun; eauto). subst b.
    exact (proj1 (dr_sampled D k) (SL _ I)). }
  destruct (drew_one _ _ _ _ _ _ _ _ _ A NS LS K D NI DEP H) as [DR SI].
  exists (t ++ [i]). split; [exact DR|]. split; [exact SI|]. split; [|eauto].
  intros j I. apply in_app_iff in I. destruct I as [I|[<-|[]]]; [|now constructor].
  destruct (P j I) as ([k c] & IK & PJ). apply pending_step with c; [easy| |easy]. exists a, k. auto.
Qed.

Lemma pending_drawn prog n w t w' i j : drew prog n w t w' -> In i t -> pending w i j -> In j t.
Proof.
  intros D I P. revert I. induction P as [i N|i k j N DP P IH]; intros I; [easy|].
  apply IH. apply in_split in I. destruct I as (t1 & t2 & ->).
  destruct (dr_order D _ _ eq_refl DP) as [S|Q].
  - exfalso. inversion P; subst; easy.
  - rewrite in_app_iff. auto.
Qed.

Theorem draw_exactly prog fuel i size w w' : acyclic w ->
  aux_draw prog fuel i size w = (Ok tt, w') ->
  exists t, drew prog size w t w' /\ sampled w' i /\ (forall j, In j t <-> pending w i j) /\
    (~ sampled w i -> exists t1, t = t1 ++ [i]).
Proof.
  intros (r & R) H. destruct (draw_drew _ _ _ _ _ _ r R H) as (t & D & S & P & L).
  exists t. split; [easy|]. split; [easy|]. split; [|easy]. intros j. split; [apply P|].
  intros PJ. eapply pending_drawn; [exact D| |exact PJ].
  assert (N : ~ sampled w i) by (inversion PJ; subst; easy).
  destruct (L N) as (t1 & ->). rewrite in_app_iff. cbn. auto.
Qed.

End P.
