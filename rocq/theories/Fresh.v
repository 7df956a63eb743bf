From Verif Require Import Base BaseFacts Keeps Env ParamModel SelModel DistModel DistSpec DistProofs
  AuxModel AuxSpec AuxProofs AuxCycle AuxMore Bisim FreshSpec.
Open Scope nat_scope.

Section P.
Variable E : env.
Notation V := (V E).
Notation world := (world E).
Notation sampler := (sampler E).
Notation selector := (selector E).
Notation same_reads := (same_reads E).
Notation base := (Bisim.base E same_reads).

Lemma same_get c k o o' : same_reads c o o' ->
  fst (pread E c k o) = fst (pread E c k o') /\ same_reads c (snd (pread E c k o)) (snd (pread E c k o')).
Proof.
  intros H. split; [apply H|]. eapply same_trans; [apply same_sym, pread_same|]. eapply same_trans; [exact H|apply pread_same].
Qed.
Lemma preads_same c ks o : same_reads c o (snd (preads E c ks o)).
Proof.
  revert o. induction ks as [|k ks IH]; intros o; [apply same_refl|]. unfold preads in *. cbn [mapM]. unfold bind.
  assert (X := pread_same E c k o). destruct (pread E c k o) as [[v|e] o1]; [|exact X]. cbn in X. specialize (IH o1).
  destruct (mapM (pread E c) ks o1) as [[l|e] o2]; cbn in *; eapply same_trans; eauto.
Qed.
(** Assigning to two objects that read the same. *)
Lemma set_same c d k v o o' : dget c k = Some d -> same_reads c o o' ->
  same_reads c (snd (param_set (@ge E) (vle E) d k v o)) (snd (param_set (@ge E) (vle E) d k v o')).
Proof.
  intros D H k2. rewrite !reading_eq. specialize (H k2). rewrite !reading_eq in H. destruct (dget c k2) as [d2|] eqn:D2; [|reflexivity].
  assert (T : forall o, po_store (touch_norm d k o) = po_store o) by (intros x; unfold touch_norm; destruct (pd_norm d); reflexivity).
  unfold param_set. destruct (pd_free d); [|cbn; now rewrite !T]. destruct (rbind _ _); cbn [snd po_store]; rewrite !T; [|exact H].
  destruct (String.eqb_spec k2 k) as [->|N]; [now rewrite !dget_dset_eq|]. now rewrite !dget_dset_neq.
Qed.

(** ** What drawing leaves alone *)
Record slike (s s' : selector) : Prop := {
  sl_kind : s_kind s' = s_kind s;
  sl_flags : s_fobs s = s_fobs s' /\ s_fdist s = s_fdist s' /\ s_flum s = s_flum s' /\ s_fflux s = s_fflux s';
  sl_par : same_reads (sel_class (s_kind s)) (s_par s) (s_par s');
  sl_of : d_oflux (s_data s') = d_oflux (s_data s);
  sl_sp : d_sp (s_data s') = d_sp (s_data s);
  sl_sam : s_sampled s' = s_sampled s;
  sl_dummy : s_kind s = KDummy E -> s_mask s' = s_mask s }.
Lemma slike_refl s : slike s s. Proof. split; auto. apply same_refl. Qed.
Lemma slike_trans a b c : slike a b -> slike b c -> slike a c.
Proof.
  intros [] []. rewrite sl_kind0 in *. split; [congruence| | |congruence|congruence|congruence|].
  - destruct sl_flags0 as (?&?&?&?), sl_flags1 as (?&?&?&?). repeat split; congruence.
  - eapply same_trans; eauto.
  - intros K. rewrite sl_dummy1, sl_dummy0; auto.
Qed.
Record alike (a b : sampler) : Prop := {
  al_st : a_st b = a_st a; al_ln : a_ln b = a_ln a; al_lum : a_lum (a_dy b) = a_lum (a_dy a);
  al_par : same_reads (k_params (kind_of a)) (a_par (a_dy a)) (a_par (a_dy b)) }.
Lemma alike_refl a : alike a a. Proof. split; auto. apply same_refl. Qed.
Lemma alike_trans a b c : alike a b -> alike b c -> alike a c.
Proof.
  intros [] []. assert (K : kind_of b = kind_of a) by (unfold kind_of; now rewrite al_st0). split; [congruence|congruence|congruence|]. rewrite K in *. eapply same_trans; eauto.
Qed.
Definition nodist (w : world) k := forall j a, at_ w j a -> a_sel (a_ln a) = k -> a_usesd (a_st a) = false.
Definition nolum (w : world) k := forall j a, at_ w j a -> a_sel (a_ln a) = k -> a_lum (a_dy a) = None.
Record still (w w' : world) : Prop := {
  st_aux : forall j a, at_ w j a -> exists b, at_ w' j b /\ alike a b;
  st_back : forall j b, at_ w' j b -> exists a, at_ w j a;
  st_sel : forall k s, nth_error (w_sels w) k = Some s -> exists t, nth_error (w_sels w') k = Some t /\ slike s t /\
    (nodist w k -> d_dist (s_data t) = d_dist (s_data s)) /\ (nolum w k -> d_lum (s_data t) = d_lum (s_data s)) }.
Lemma still_refl w : still w w.
Proof. split; eauto using alike_refl. intros k s H. exists s. split; [auto|]. split; [apply slike_refl|auto]. Qed.
Lemma still_trans a b c : still a b -> still b c -> still a c.
Proof.
  intros H1 H2. split.
  - intros j x X. destruct (st_aux _ _ H1 j x X) as (y & Y & L). destruct (st_aux _ _ H2 j y Y) as (z & Zz & L2). eauto using alike_trans.
  - intros j z Hz. destruct (st_back _ _ H2 j z Hz) as (y & Y). eapply st_back; eauto.
  - intros k s Hs. destruct (st_sel _ _ H1 k s Hs) as (t & T & L & D1 & D2). destruct (st_sel _ _ H2 k t T) as (u & U & L2 & D3 & D4).
    exists u. split; [auto|]. split; [eapply slike_trans; eauto|]. split.
    + intros N. rewrite D3, D1; auto. intros j y Y K. destruct (st_back _ _ H1 j y Y) as (x & X).
      destruct (st_aux _ _ H1 j x X) as (y2 & Y2 & []). assert (y2 = y) by (unfold at_ in *; congruence). subst. rewrite al_st0. eapply N; eauto. congruence.
    + intros N. rewrite D4, D2; auto. intros j y Y K. destruct (st_back _ _ H1 j y Y) as (x & X).
      destruct (st_aux _ _ H1 j x X) as (y2 & Y2 & []). assert (y2 = y) by (unfold at_ in *; congruence). subst. rewrite al_lum0. eapply N; eauto. congruence.
Qed.
Lemma still_put w i a b : at_ w i a -> alike a b -> still w (w_set_auxs (lset (w_auxs w) i b) w).
Proof.
  intros A L. unfold at_ in *. split; unfold at_; cbn.
  - intros j x X. destruct (Nat.eq_dec j i) as [->|N].
    + rewrite nth_lset_eq by (apply nth_error_Some; congruence). assert (x = a) by congruence. subst. eauto.
    + rewrite nth_lset_neq by auto. eauto using alike_refl.
  - intros j x X. destruct (Nat.eq_dec j i) as [->|N]; [eauto|]. rewrite nth_lset_neq in X by auto. eauto.
  - intros k s H. exists s. split; [auto|]. split; [apply slike_refl|auto].
Qed.
Lemma still_upd i f : (forall a, alike a (upd_dy f a)) -> keeps still (@upd_aux E i f).
Proof.
  intros H w. unfold upd_aux, bind, get_aux. destruct (nth_error (w_auxs w) i) as [a|] eqn:A; cbn; [|apply still_refl]. now apply (still_put w i a).
Qed.
Lemma still_sels w k s t g n l : nth_error (w_sels w) k = Some s -> slike s t ->
  (nodist w k -> d_dist (s_data t) = d_dist (s_data s)) -> (nolum w k -> d_lum (s_data t) = d_lum (s_data s)) ->
  still w (World g n (lset (w_sels w) k t) (w_auxs w) l).
Proof.
  intros K L D1 D2. split; unfold at_; cbn; eauto using alike_refl. intros j x X. destruct (Nat.eq_dec j k) as [->|N].
  - rewrite nth_lset_eq by (apply nth_error_Some; congruence). assert (x = s) by congruence. subst. exists t. auto.
  - rewrite nth_lset_neq by auto. exists x. split; [auto|]. split; [apply slike_refl|auto].
Qed.
Lemma still_gens w g n l : still w (World g n (w_sels w) (w_auxs w) l).
Proof. split; unfold at_; cbn; eauto using alike_refl. intros j x X. exists x. split; [auto|]. split; [apply slike_refl|auto]. Qed.
Lemma still_reads i ks : keeps still (@aux_reads E i ks).
Proof.
  intros w. unfold aux_reads, upd_aux, bind, get_aux. destruct (nth_error (w_auxs w) i) as [a|] eqn:A; cbn [of_opt]; [|apply still_refl].
  assert (X := preads_same (k_params (kind_of a)) ks (a_par (a_dy a))). destruct (preads E (k_params (kind_of a)) ks (a_par (a_dy a))) as [r o]. cbn in X.
  rewrite A. cbn. apply (still_put w i a); auto. split; auto.
Qed.
(** A selector's own draw. *)
Definition sstill (x y : selector * Rst E) : Prop := s_kind (fst x) <> KDummy E -> slike (fst x) (fst y) /\ s_data (fst y) = s_data (fst x).
Lemma ssr x : sstill x x. Proof. split; [apply slike_refl|auto]. Qed.
Lemma sst a b c : sstill a b -> sstill b c -> sstill a c.
Proof.
  intros H1 H2 N. destruct (H1 N) as [L1 D1]. destruct H2 as [L2 D2]; [now rewrite (sl_kind _ _ L1)|]. split; [eapply slike_trans; eauto|congruence].
Qed.
Lemma ss_read k : keeps sstill (@read_par E k).
Proof.
  intros [s g] N. unfold read_par. destruct (dget (sel_class (s_kind s)) k) as [d|] eqn:D; [|now apply ssr].
  assert (X := pread_same E (sel_class (s_kind s)) k (s_par s)). unfold pread in X. rewrite D in X.
  destruct (param_get d k (s_par s)) as [r o]. cbn in *. split; cbn; auto. split; cbn; auto.
Qed.
Lemma ss_store m : keeps sstill (@store_mask E m).
Proof. intros [s g] N. cbn. split; cbn; auto. split; cbn; auto; [apply same_refl|easy]. Qed.
Lemma ss_bern1 p : keeps sstill (@bern1 E p).
Proof. intros [s g]. unfold bern1. destruct (r_bern_ok E p); [|apply ssr]. cbn. destruct (r_bern E p g). split; [apply slike_refl|auto]. Qed.
Lemma ss_bern_vec p : keeps sstill (@bern_vec E p).
Proof. intros [s g]. unfold bern_vec. destruct (forallb _ p); [|apply ssr]. cbn. destruct (rmapdraws _ p g). split; [apply slike_refl|auto]. Qed.
Lemma ss_bern_n p n : keeps sstill (@bern_n E p n).
Proof. intros [s g]. unfold bern_n. destruct (r_bern_ok E p); [|apply ssr]. cbn. destruct (rdraws _ n g). split; [apply slike_refl|auto]. Qed.
Ltac kg rf tr := repeat first
  [ match goal with
    | |- keeps _ (bind _ _) => apply keeps_bind; [exact tr| |intros ?]
    | |- keeps _ (iterM _ _) => apply keeps_iter; [exact rf|exact tr|intros ?]
    | |- keeps _ (repeatM _ _) => apply keeps_repeat; [exact rf|exact tr|]
    | |- keeps _ (ret _) => apply keeps_ret; exact rf
    | |- keeps _ (raise _) => apply keeps_raise; exact rf
    | |- keeps _ (lift _) => apply keeps_lift; exact rf
    | |- keeps _ get => apply keeps_get; exact rf
    end
  | solve [trivial with fresh]
  | match goal with
    | |- keeps _ (match ?x with _ => _ end) => destruct x
    | |- keeps _ (if ?x then _ else _) => destruct x
    | |- keeps _ (let (_, _) := ?x in _) => destruct x
    end ].
Hint Resolve ss_read ss_store ss_bern1 ss_bern_vec ss_bern_n : fresh.
Lemma ss_draw prog n : keeps sstill (@sel_draw E prog n).
Proof.
  unfold sel_draw, bern_loop. apply keeps_bind; [exact sst|intros x; apply ssr|intros s]. destruct (s_kind s); kg ssr sst.
  intros [t g] N. cbn. destruct (draw (s_data s) n g) as [[m|e] g2]; cbn; (split; [|cbn; auto]); [|apply slike_refl]. split; cbn; auto; [apply same_refl|easy].
Qed.
Lemma dummy_draw prog n s g : s_kind s = KDummy E -> @sel_draw E prog n (s, g) = (Ok tt, (s, g)).
Proof. intros K. unfold sel_draw. rewrite (bind_ok (@here E) _ (s, g) (a := s) (s1 := (s, g)) eq_refl), K. reflexivity. Qed.
Lemma sel_draw_like prog n s g r t g' : @sel_draw E prog n (s, g) = (r, (t, g')) -> slike s t /\ s_data t = s_data s.
Proof.
  intros H. assert (X := ss_draw prog n (s, g)). rewrite H in X. cbn in X. unfold sstill in X. cbn in X.
  destruct (s_kind s) eqn:K; try (apply X; discriminate). rewrite dummy_draw in H by auto. injection H as <- <- <-. split; [apply slike_refl|auto].
Qed.

Lemma still_draw_sel k prog n : keeps still (on_sel k (@sel_draw E prog n)).
Proof.
  intros w. unfold on_sel, bind, get_sel. destruct (nth_error (w_sels w) k) as [s|] eqn:K; cbn [of_opt]; [|apply still_refl].
  destruct (sel_draw prog n (s, w_g w)) as [r [t g]] eqn:D. destruct (sel_draw_like _ _ _ _ _ _ _ D) as [L DT]. cbn.
  apply (still_sels w k s t); auto; now rewrite DT.
Qed.
Lemma still_set_obs k v : keeps still (@upd_sel E k (sel_set_obs v)).
Proof.
  intros w. unfold upd_sel, bind, get_sel. destruct (nth_error (w_sels w) k) as [s|] eqn:K; cbn [of_opt]; [|apply still_refl].
  cbn. apply (still_sels w k s); auto. split; cbn; auto. apply same_refl.
Qed.
Lemma still_genf A (f : world -> res A * gens E) : keeps still (fun w => let (r, g) := f w in (r, w_set_gens g w)).
Proof. intros w. destruct (f w) as [r g]. apply still_gens. Qed.
Lemma still_log i : keeps still (modify (@w_add_log E i)). Proof. intros w. apply still_gens. Qed.
Lemma still_get i : keeps still (@get_aux E i). Proof. intros w. apply still_refl. Qed.
Hint Resolve still_draw_sel still_set_obs still_log still_get still_reads : fresh.
Hint Extern 0 (keeps still (fun w => let (r, g) := _ in (r, w_set_gens g w))) => apply still_genf : fresh.
Hint Extern 0 (keeps still (upd_aux _ _)) => apply still_upd; intros; split; try reflexivity; apply same_refl : fresh.
Lemma still_true i n : keeps still (@run_true E i n). Proof. unfold run_true. kg still_refl still_trans. Qed.
Lemma still_obs i n : keeps still (@run_obs E i n). Proof. unfold run_obs. kg still_refl still_trans. Qed.
Lemma still_prob i : keeps still (@run_prob E i). Proof. unfold run_prob. kg still_refl still_trans. Qed.
Hint Resolve still_true still_obs still_prob : fresh.
Lemma still_finish prog i n : keeps still (@aux_finish E prog i n).
Proof. unfold aux_finish. kg still_refl still_trans. Qed.
Lemma still_sp i p : keeps still (@set_sp E i p). Proof. unfold set_sp. kg still_refl still_trans. Qed.
Hint Resolve still_finish still_sp : fresh.
Lemma still_pre w i a : at_ w i a -> still w (snd (aux_pre a w)).
Proof.
  intros A. unfold aux_pre.
  match goal with |- still w (snd (bind ?m _ w)) => set (m0 := m) end.
  assert (D : still w (snd (m0 w)) /\ forall r w1, m0 w = (r, w1) -> w_auxs w1 = w_auxs w).
  { subst m0. destruct (a_usesd (a_st a)) eqn:U; [|split; [apply still_refl|intros r w1 X; now injection X as <- <-]]. destruct (a_sp (a_dy a)) as [sp|]; [|split; [apply still_refl|intros r w1 X; now injection X as <- <-]].
    unfold upd_sel, bind, get_sel. destruct (nth_error (w_sels w) (a_sel (a_ln a))) as [s|] eqn:K; cbn; [|split; [apply still_refl|intros r w1 X; now injection X as <- <-]].
    split; [|intros r w1 X; injection X as <- <-; reflexivity]. apply (still_sels w (a_sel (a_ln a)) s); auto.
    - split; cbn; auto. apply same_refl.
    - intros N. specialize (N i a A eq_refl). congruence. }
  destruct D as [D W]. unfold bind. clearbody m0. destruct (m0 w) as [[[]|e] w1] eqn:X; [|exact D]. cbn in D.
  specialize (W _ _ eq_refl). eapply still_trans; [exact D|]. assert (A1 : at_ w1 i a) by (unfold at_ in *; congruence).
  destruct (a_lum (a_dy a)) as [l|] eqn:L; [|apply still_refl]. unfold upd_sel, bind, get_sel.
  destruct (nth_error (w_sels w1) (a_sel (a_ln a))) as [s|] eqn:K; cbn; [|apply still_refl].
  apply (still_sels w1 (a_sel (a_ln a)) s); auto.
  - split; cbn; auto. apply same_refl.
  - intros N. specialize (N i a A1 eq_refl). congruence.
Qed.
Lemma still_draw prog fuel : forall i n, keeps still (@aux_draw E prog fuel i n).
Proof.
  induction fuel as [|fuel IH]; intros i n; cbn [aux_draw]; [apply keeps_raise; exact still_refl|].
  apply keeps_bind_ok; [exact still_trans|auto with fresh|]. intros a w w1 G. apply get_aux_inv in G. destruct G as [-> A].
  destruct (a_sampled (a_dy a)); [apply still_refl|]. unfold bind at 1. assert (X := still_pre w i a A). destruct (aux_pre a w) as [[u|e] w1]; [|exact X].
  eapply still_trans; [exact X|]. revert w1 X. clear - IH. intros w1 _. revert w1.
  change (keeps still (iterM (fun kv : string * nat =>
          let! b := get_aux (snd kv) in
          if a_issec (a_ln b) then
            match a_sp (a_dy a) with
            | None => raise AttributeError
            | Some sp => set_sp (snd kv) sp ;; aux_draw prog fuel (snd kv) n
            end
          else raise RuntimeError) (a_sec (a_ln a)) ;; aux_finish prog i n)).
  kg still_refl still_trans.
Qed.

(** ** Along a history *)
Record inv (w c : world) : Prop := {
  iv_wir : same_wiring w c;
  iv_len : length (w_sels w) = length (w_sels c);
  iv_aux : forall i a b, at_ w i a -> at_ c i b ->
    same_reads (k_params (kind_of a)) (a_par (a_dy a)) (a_par (a_dy b)) /\ a_lum (a_dy a) = a_lum (a_dy b) /\
    (a_sampled (a_dy a) = false -> a_true (a_dy a) = None /\ a_obs (a_dy a) = None);
  iv_sel : forall k s t, nth_error (w_sels w) k = Some s -> nth_error (w_sels c) k = Some t ->
    base s t /\ s_sampled s = false /\
    (nodist c k -> d_dist (s_data s) = d_dist (s_data t)) /\ (nolum c k -> d_lum (s_data s) = d_lum (s_data t));
  iv_un : forall i b, at_ c i b -> a_sampled (a_dy b) = false /\ a_true (a_dy b) = None /\ a_obs (a_dy b) = None }.

Lemma base_refl s : base s s.
Proof. split; auto. apply same_refl. Qed.
Lemma base_like s s' t : slike s s' -> base s t -> base s' t.
Proof.
  intros [] []. rewrite <- sl_kind0 in *. split; auto.
  - destruct sl_flags0 as (?&?&?&?), b_flags as (?&?&?&?). repeat split; congruence.
  - eapply same_trans; [apply same_sym; exact sl_par0|exact b_par].
  - congruence.
  - congruence.
  - intros K. rewrite sl_dummy0; auto.
Qed.

Lemma inv_new w : unused w -> inv w w.
Proof.
  intros [H1 H2]. split; auto.
  - reflexivity.
  - intros i a b A B. assert (a = b) by (unfold at_ in *; congruence). subst. split; [apply same_refl|]. split; [auto|]. apply H1 in A. tauto.
  - intros k s t S T. assert (s = t) by congruence. subst. split; [apply base_refl|]. apply H2 in S. tauto.
Qed.

Lemma upd_wiring i f (w : world) : same_wiring w (snd (upd_aux i f w)).
Proof.
  unfold upd_aux, bind, get_aux. destruct (nth_error (w_auxs w) i) as [a|] eqn:A; cbn; [|reflexivity]. unfold same_wiring. cbn. symmetry. eapply map_lset; eauto.
Qed.
Lemma upd_at i f (w : world) j b : at_ (snd (upd_aux i f w)) j b -> exists a, at_ w j a /\ b = if Nat.eqb j i then upd_dy f a else a.
Proof.
  unfold upd_aux, bind, get_aux, at_. destruct (nth_error (w_auxs w) i) as [a|] eqn:A; cbn.
  - destruct (Nat.eqb_spec j i) as [->|N].
    + rewrite nth_lset_eq by (apply nth_error_Some; congruence). intros X. injection X as <-. eauto.
    + rewrite nth_lset_neq by auto. eauto.
  - intros X. exists b. split; [auto|]. destruct (Nat.eqb_spec j i) as [->|N]; congruence.
Qed.
Lemma upd_sels i f (w : world) : w_sels (snd (upd_aux i f w)) = w_sels w.
Proof. unfold upd_aux, bind, get_aux. destruct (nth_error (w_auxs w) i) as [a|] eqn:A; reflexivity. Qed.

Lemma inv_upd w c i f f' : inv w c ->
  (forall a b, at_ w i a -> at_ c i b -> same_reads (k_params (kind_of a)) (a_par (a_dy a)) (a_par (a_dy b)) -> a_lum (a_dy a) = a_lum (a_dy b) ->
     same_reads (k_params (kind_of a)) (a_par (f (a_dy a))) (a_par (f' (a_dy b))) /\ a_lum (f (a_dy a)) = a_lum (f' (a_dy b)) /\
     (a_lum (f' (a_dy b)) = None -> a_lum (a_dy b) = None)) ->
  (forall d, a_sampled (f d) = a_sampled d /\ a_true (f d) = a_true d /\ a_obs (f d) = a_obs d) ->
  (forall d, a_sampled (f' d) = a_sampled d /\ a_true (f' d) = a_true d /\ a_obs (f' d) = a_obs d) ->
  inv (snd (upd_aux i f w)) (snd (upd_aux i f' c)).
Proof.
  intros [W L A S U] H F1 F2. split.
  - eapply wiring_trans; [apply wiring_sym, upd_wiring|]. eapply wiring_trans; [exact W|apply upd_wiring].
  - now rewrite !upd_sels.
  - intros j a b A1 B1. apply upd_at in A1. apply upd_at in B1. destruct A1 as (a0 & A0 & ->), B1 as (b0 & B0 & ->).
    destruct (A j a0 b0 A0 B0) as (R1 & R2 & R3). destruct (Nat.eqb_spec j i) as [->|N]; [|auto].
    destruct (H a0 b0 A0 B0 R1 R2) as (Q1 & Q2 & Q3). cbn. split; [exact Q1|]. split; [exact Q2|].
    destruct (F1 (a_dy a0)) as (-> & -> & ->). exact R3.
  - intros k s t. rewrite !upd_sels. intros S1 T1. destruct (S k s t S1 T1) as (Q1 & Q2 & Q3 & Q4). split; [auto|]. split; [auto|]. split.
    + intros N. apply Q3. intros j b B1 K. assert (X : exists b1, at_ (snd (upd_aux i f' c)) j b1 /\ a_st b1 = a_st b /\ a_ln b1 = a_ln b) by (apply (wiring_at E c _ j b); auto using upd_wiring).
      destruct X as (b1 & X1 & X2 & X3). rewrite <- X2. eapply N; eauto. congruence.
    + intros N. apply Q4. intros j b B1 K. assert (X : exists b1, at_ (snd (upd_aux i f' c)) j b1 /\ a_st b1 = a_st b /\ a_ln b1 = a_ln b) by (apply (wiring_at E c _ j b); auto using upd_wiring).
      destruct X as (b1 & X1 & X2 & X3). assert (X4 := N j b1 X1). apply upd_at in X1. destruct X1 as (b0 & B0 & ->).
      assert (b0 = b) by (unfold at_ in *; congruence). subst b0. destruct (Nat.eqb_spec j i) as [->|NN]; [|apply X4; congruence].
      destruct (wiring_at E c w i b) as (a0 & A0 & _); [now apply wiring_sym|auto|]. destruct (A i a0 b A0 B0) as (R1 & R2 & _).
      apply (H a0 b A0 B0 R1 R2). apply X4. congruence.
  - intros j b B1. apply upd_at in B1. destruct B1 as (b0 & B0 & ->). apply U in B0. destruct (Nat.eqb_spec j i) as [->|N]; [|auto].
    cbn. destruct (F2 (a_dy b0)) as (-> & -> & ->). exact B0.
Qed.

Lemma assign_at i k v (w : world) a : nth_error (w_auxs w) i = Some a -> assign_aux i k v w =
  match dget (k_params (kind_of a)) k with
  | None => (Err AttributeError, w)
  | Some d => let (r, o) := param_set (@ge E) (vle E) d k v (a_par (a_dy a)) in (upd_aux i (dy_par o) ;; lift r) w
  end.
Proof.
  intros A. unfold assign_aux. rewrite (bind_ok (get_aux i) _ w (a := a) (s1 := w)) by (unfold get_aux; now rewrite A).
  destruct (dget _ k) as [d|]; [|reflexivity]. destruct (param_set _ _ _ _ _ _); reflexivity.
Qed.
Lemma inv_setting s w c : inv w c -> inv (snd (apply_setting s w)) (snd (apply_setting s c)) /\ same_wiring c (snd (apply_setting s c)).
Proof.
  intros H. destruct s as [i l|i p|i k v|i k v]; cbn [apply_setting].
  - split; [|apply upd_wiring]. apply inv_upd; auto. intros a b _ _ R1 _. split; [exact R1|]. split; [reflexivity|discriminate].
  - split; [|apply upd_wiring]. apply inv_upd; auto.
  - assert (IFF : nth_error (w_auxs w) i = None <-> nth_error (w_auxs c) i = None).
    { assert (Q := iv_wir _ _ H). apply (f_equal (@length _)) in Q. rewrite !map_length in Q. rewrite !nth_error_None. lia. }
    destruct (nth_error (w_auxs w) i) as [a|] eqn:A, (nth_error (w_auxs c) i) as [b|] eqn:B.
    2: { destruct IFF as [_ X]. discriminate X; auto. } 2: { destruct IFF as [X _]. discriminate X; auto. }
    2: { unfold assign_aux, bind, get_aux. rewrite A, B. now split. }
    rewrite (assign_at i k v w a A), (assign_at i k v c b B).
    destruct (wiring_at E w c i a (iv_wir _ _ H) A) as (b0 & B0 & ST & LN). assert (b0 = b) by (unfold at_ in *; congruence). subst b0.
    assert (KK : kind_of b = kind_of a) by (unfold kind_of; now rewrite ST). rewrite KK.
    destruct (dget (k_params (kind_of a)) k) as [d|] eqn:D; [|now split].
    destruct (iv_aux _ _ H i a b A B) as (R1 & _). assert (R2 := set_same _ d k v _ _ D R1).
    destruct (param_set (@ge E) (vle E) d k v (a_par (a_dy a))) as [r o], (param_set (@ge E) (vle E) d k v (a_par (a_dy b))) as [r' o']. cbn [snd] in R2.
    assert (EW : forall (w : world) i o (r : res unit), snd ((upd_aux i (dy_par o) ;; lift r) w) = snd (upd_aux i (dy_par o) w) \/ nth_error (w_auxs w) i = None).
    { intros w0 i0 o0 r0. unfold upd_aux, bind, get_aux. destruct (nth_error (w_auxs w0) i0); cbn; auto. }
    destruct (EW w i o r) as [->|X]; [|unfold at_ in *; congruence]. destruct (EW c i o' r') as [->|X]; [|unfold at_ in *; congruence].
    split; [|apply upd_wiring]. apply inv_upd; auto. intros a1 b1 A1 B1 _ LL. assert (a1 = a) by (unfold at_ in *; congruence). subst. cbn. auto.
  - assert (IFF : nth_error (w_sels w) i = None <-> nth_error (w_sels c) i = None).
    { assert (Q := iv_len _ _ H). rewrite !nth_error_None. lia. }
    unfold assign_sel, bind, get_sel. destruct (nth_error (w_sels w) i) as [s|] eqn:SW, (nth_error (w_sels c) i) as [t|] eqn:TC; cbn [of_opt].
    2: { destruct IFF as [_ X]. discriminate X; auto. } 2: { destruct IFF as [X _]. discriminate X; auto. } 2: now split.
    destruct (iv_sel _ _ H i s t SW TC) as (Q1 & Q2 & Q3 & Q4). rewrite <- (b_kind _ _ _ _ Q1).
    destruct (dget (sel_class (s_kind s)) k) as [d|] eqn:D; [|now split].
    assert (R2 := set_same _ d k v _ _ D (b_par _ _ _ _ Q1)).
    destruct (param_set (@ge E) (vle E) d k v (s_par s)) as [r o], (param_set (@ge E) (vle E) d k v (s_par t)) as [r' o']. cbn [snd] in R2. cbn.
    split; [|reflexivity]. destruct H as [W L A S U]. split; auto.
    + cbn. now rewrite !lset_length.
    + intros j x y. cbn. destruct (Nat.eq_dec j i) as [->|N].
      * rewrite !nth_lset_eq by (apply nth_error_Some; congruence). intros X Y. injection X as <-. injection Y as <-. cbn. split; [|auto].
        destruct Q1. split; cbn; auto.
      * rewrite !nth_lset_neq by auto. intros X Y. apply S; auto.
Qed.

Lemma reset_sels fuel : forall i (w : world), (forall k s, nth_error (w_sels w) k = Some s -> s_sampled s = false) ->
  w_sels (snd (aux_reset fuel i w)) = w_sels w.
Proof.
  set (T := fun w w' : world => (forall k s, nth_error (w_sels w) k = Some s -> s_sampled s = false) -> w_sels w' = w_sels w).
  assert (rf : forall w, T w w) by (intros w _; reflexivity).
  assert (tr : forall a b c, T a b -> T b c -> T a c).
  { intros a b c H1 H2 U. assert (X := H1 U). rewrite <- X. apply H2. now rewrite X. }
  change (forall i, keeps T (@aux_reset E fuel i)). induction fuel as [|fuel IH]; intros i; cbn [aux_reset]; [apply keeps_raise; exact rf|].
  apply keeps_bind; [exact tr|intros w; apply rf|intros a]. apply keeps_bind; [exact tr| |intros _; apply keeps_iter; auto].
  destruct (a_sampled (a_dy a)); [|apply keeps_ret; exact rf]. apply keeps_bind; [exact tr|intros w _; apply upd_sels|intros _].
  intros w U. unfold upd_sel, bind, get_sel. destruct (nth_error (w_sels w) (a_sel (a_ln a))) as [s|] eqn:K; cbn; [|auto].
  unfold sel_reset. rewrite (U _ _ K). now apply lset_id.
Qed.

Lemma still_wiring w w' : still w w' -> same_wiring w w'.
Proof.
  intros H. unfold same_wiring. apply list_ext. intros j. rewrite !nth_error_map. destruct (nth_error (w_auxs w) j) as [a|] eqn:A.
  - destruct (st_aux _ _ H j a A) as (b & B & []). unfold at_ in B. rewrite B. cbn. congruence.
  - destruct (nth_error (w_auxs w') j) as [b|] eqn:B; [|reflexivity]. destruct (st_back _ _ H j b B) as (a & A2). unfold at_ in *. congruence.
Qed.

Lemma setting_wiring s (c : world) : same_wiring c (snd (apply_setting s c)).
Proof.
  destruct s as [i l|i p|i k v|i k v]; cbn [apply_setting]; try apply upd_wiring.
  - destruct (nth_error (w_auxs c) i) as [a|] eqn:A; [|unfold assign_aux, bind, get_aux; rewrite A; reflexivity].
    rewrite (assign_at i k v c a A). destruct (dget _ k) as [d|]; [|reflexivity]. destruct (param_set _ _ d k v _) as [r o].
    assert (X := upd_wiring i (dy_par o) c). unfold bind. destruct (upd_aux i (dy_par o) c) as [[u|e] c1]; exact X.
  - unfold assign_sel, bind, get_sel. destruct (nth_error (w_sels c) i) as [t|]; cbn [of_opt]; [|reflexivity].
    destruct (dget _ k) as [d|]; [|reflexivity]. destruct (param_set _ _ d k v _) as [r o]. reflexivity.
Qed.
Lemma lived_inv w c : lived w c -> acyclic c -> inv w c.
Proof.
  induction 1 as [w U|s w c HL IH|prog fuel i n w c w' HL IH D|fuel i w c w' HL IH D]; intros AC.
  - now apply inv_new.
  - apply inv_setting, IH. eapply wiring_acyclic; [apply wiring_sym, setting_wiring|exact AC].
  - specialize (IH AC). assert (AW : acyclic w) by (eapply wiring_acyclic; [apply wiring_sym, (iv_wir _ _ IH)|exact AC]).
    assert (ST := still_draw prog fuel i n w). rewrite D in ST. cbn in ST.
    destruct (draw_exactly E _ _ _ _ _ _ AW D) as (t & DR & _). destruct IH as [W L A S U]. split; auto.
    + eapply wiring_trans; [apply wiring_sym, still_wiring; eauto|exact W].
    + rewrite (dr_nsel DR). exact L.
    + intros j a b A1 B1. destruct (st_back _ _ ST j a A1) as (a0 & A0). destruct (st_aux _ _ ST j a0 A0) as (a1 & A1' & AL).
      assert (a1 = a) by (unfold at_ in *; congruence). subst a1. destruct (A j a0 b A0 B1) as (R1 & R2 & R3).
      assert (KK : kind_of a = kind_of a0) by (unfold kind_of; now rewrite (al_st _ _ AL)). rewrite KK.
      split; [eapply same_trans; [apply same_sym, (al_par _ _ AL)|exact R1]|]. split; [rewrite (al_lum _ _ AL); exact R2|].
      intros NS. assert (NT : ~ In j t).
      { intros I. assert (X : sampled w' j) by (apply (dr_sampled DR); auto). destruct X as (x & X1 & X2). unfold at_ in *. congruence. }
      destruct (dr_frame DR NT A0) as (a2 & A2 & SV). assert (a2 = a) by (unfold at_ in *; congruence). subst a2.
      destruct SV as (_ & _ & _ & V1 & V2 & V3 & _). rewrite <- V2, <- V3. apply R3. congruence.
    + intros k s x S1 X1. destruct (nth_error (w_sels w) k) as [s0|] eqn:S0.
      2:{ apply nth_error_None in S0. assert (k < length (w_sels w')) by (apply nth_error_Some; congruence). rewrite (dr_nsel DR) in *. lia. }
      destruct (st_sel _ _ ST k s0 S0) as (s1 & S1' & SL & D1 & D2). assert (s1 = s) by congruence. subst s1.
      destruct (S k s0 x S0 X1) as (Q1 & Q2 & Q3 & Q4). split; [eapply base_like; eauto|]. split; [now rewrite (sl_sam _ _ SL)|]. split.
      * intros N. rewrite <- Q3 by auto. apply D1. intros j a A1 K. destruct (wiring_at E w c j a W A1) as (b & B1 & ST1 & LN1). rewrite <- ST1. eapply N; eauto. congruence.
      * intros N. rewrite <- Q4 by auto. apply D2. intros j a A1 K. destruct (wiring_at E w c j a W A1) as (b & B1 & ST1 & LN1).
        destruct (A j a b A1 B1) as (_ & -> & _). eapply N; eauto. congruence.
  - specialize (IH AC). assert (SE := reset_sels fuel i w). rewrite D in SE. cbn in SE.
    destruct (reset_inv E _ _ _ _ D) as [RE _]. destruct IH as [W L A S U].
    assert (SE' : w_sels w' = w_sels w).
    { apply SE. intros k s K. destruct (nth_error (w_sels c) k) as [t|] eqn:T; [apply (S k s t K T)|].
      apply nth_error_None in T. assert (k < length (w_sels w)) by (apply nth_error_Some; congruence). lia. }
    split; auto.
    + eapply wiring_trans; [apply wiring_sym, (re_wiring RE)|exact W].
    + now rewrite SE'.
    + intros j a b A1 B1. destruct (wiring_at E w' w j a (wiring_sym _ _ _ (re_wiring RE)) A1) as (a0 & A0 & ST1 & LN1).
      destruct (re_aux RE A0) as (a1 & A1' & K). assert (a1 = a) by (unfold at_ in *; congruence). subst a1.
      destruct (A j a0 b A0 B1) as (R1 & R2 & R3). assert (KK : kind_of a = kind_of a0) by (unfold kind_of; now rewrite ST1). rewrite KK.
      destruct K as [K|(K1 & K2 & K3 & K4 & K5 & K6 & K7)]; [rewrite K; auto|]. rewrite K5, K6. auto.
    + rewrite SE'. exact S.
Qed.

(** ** The next draw *)
Lemma reaches_at (c : world) i j : closed c -> reaches c i j -> (exists b, at_ c i b) -> exists b, at_ c j b.
Proof.
  intros CL R. induction R as [i|i m j (x & k & X & I) R IH]; [auto|]. intros _. destruct (CL i x X) as [_ Q]. apply IH. apply (Q k m I).
Qed.
Lemma reaches_end (c : world) i j k m b : reaches c i j -> at_ c j b -> In (k, m) (a_sec (a_ln b)) -> reaches c i m.
Proof.
  intros R B I. induction R as [i|i x j D R IH]; [|econstructor; eauto]. econstructor; [exists b, k; eauto|constructor].
Qed.
Theorem next_draw fuel i (w c w2 : world) : lived w c -> acyclic c -> own_selectors c -> closed c ->
  aux_reset fuel i w = (Ok tt, w2) ->
  (forall a b, at_ w2 i a -> at_ c i b -> a_sp (a_dy a) = a_sp (a_dy b)) ->
  forall prog fuel' n,
    match aux_draw prog fuel' i n w2, aux_draw prog fuel' i n (w_set_gens (w_g w2, w_n w2) c) with
    | (Ok _, w3), (Ok _, c3) => w_g w3 = w_g c3 /\ w_n w3 = w_n c3 /\ forall j, reaches c i j -> same_outcome w3 c3 j
    | (Err e, _), (Err e', _) => e = e'
    | _, _ => False
    end.
Proof.
  intros HL AC OW CL RS SP prog fuel' n.
  assert (IV : inv w2 c) by (apply lived_inv; [eapply lived_reset; eauto|auto]).
  destruct (reset_inv E _ _ _ _ RS) as [RE NS]. destruct IV as [W L A S U].
  set (c2 := w_set_gens (w_g w2, w_n w2) c).
  assert (AI : exists b, at_ c i b).
  { destruct fuel as [|fu]; [discriminate|]. cbn [aux_reset] in RS. apply bind_inv_ok in RS. destruct RS as (a & w1 & G & _). apply get_aux_inv in G. destruct G as [-> A0].
    destruct (wiring_at E w w2 i a (re_wiring RE) A0) as (a2 & A2 & _). destruct (wiring_at E w2 c i a2 W A2) as (b & B & _). eauto. }
  assert (RAT : forall j, reaches c i j -> exists b, at_ c j b).
  { intros j RJ. eapply reaches_at; eauto. }
  assert (NS2 : forall j, reaches c i j -> ~ sampled w2 j).
  { intros j R. apply NS. eapply wiring_reaches; [|exact R]. apply wiring_sym. eapply wiring_trans; [apply (re_wiring RE)|exact W]. }
  set (B := fun j j' => j = j' /\ reaches c i j).
  set (p0 := Kn (eq i) (fun _ => False) (fun _ => False) (fun _ => False) (fun _ => False)).
  assert (HR : R E same_reads B eq p0 w2 c2).
  { split; [reflexivity|reflexivity|]. intros j j' [<- RJ]. destruct (RAT j RJ) as (b & BJ). destruct (wiring_at E c w2 j b (wiring_sym _ _ _ W) BJ) as (a & AJ & ST & LN).
    destruct (CL j b BJ) as [(t & TT) SC]. assert (X : exists s, nth_error (w_sels w2) (a_sel (a_ln b)) = Some s).
    { destruct (nth_error (w_sels w2) (a_sel (a_ln b))) eqn:Q; [eauto|]. apply nth_error_None in Q. assert (a_sel (a_ln b) < length (w_sels c)) by (apply nth_error_Some; congruence). lia. }
    destruct X as (s & SS). exists a, b, s, t. rewrite LN. repeat (split; [assumption|]).
    destruct (A j a b AJ BJ) as (R1 & R2 & R3). destruct (U j b BJ) as (U1 & U2 & U3).
    assert (NA : a_sampled (a_dy a) = false).
    { destruct (a_sampled (a_dy a)) eqn:Q; [|auto]. exfalso. apply (NS2 j RJ). exists a. auto. }
    destruct (R3 NA) as [T1 T2]. destruct (S _ _ _ SS TT) as (Q1 & Q2 & Q3 & Q4). split.
    - split; auto; try congruence.
      + assert (FF : forall l : dict nat, (forall k m, In (k, m) l -> reaches c i m) -> Forall2 (fun x y : string * nat => fst x = fst y /\ B (snd x) (snd y)) l l).
        { induction l as [|[k m] l IH]; intros H; constructor; [split; [auto|split; [auto|apply (H k m); now left]]|apply IH; intros k' m' I; apply (H k' m'); now right]. }
        rewrite LN. apply FF. intros k m I. eapply reaches_end; eauto.
      + intros Q. cbn in Q. subst j. auto.
    - split; auto.
      + intros [Q|[]]. apply Q3. intros j2 b2 B2 K2. assert (j2 = j) by (apply (OW j2 j b2 b); auto). subst j2. assert (b2 = b) by (unfold at_ in *; congruence). subst. now rewrite <- ST.
      + intros [Q|[]]. apply Q4. intros j2 b2 B2 K2. assert (j2 = j) by (apply (OW j2 j b2 b); auto). subst j2. assert (b2 = b) by (unfold at_ in *; congruence). subst. now rewrite <- R2.
      + intros [].
      + cbn. intros [[Q _]|[]]. congruence. }
  assert (FIN := both_draw E same_reads same_get B eq).
  specialize (FIN ltac:(intros x y z [-> _] [-> _]; auto) ltac:(intros x y z [-> _] [-> _]; auto) ltac:(congruence) ltac:(congruence) prog n fuel' p0 i i).
  specialize (FIN ltac:(split; [auto|constructor]) eq_refl w2 c2 HR).
  destruct (aux_draw prog fuel' i n w2) as [[u|e] w3] eqn:D1, (aux_draw prog fuel' i n c2) as [[u'|e'] c3] eqn:D2; try easy.
  destruct FIN as [_ H3]. split; [apply (R_g _ _ _ _ _ _ _ H3)|]. split; [apply (R_n _ _ _ _ _ _ _ H3)|]. intros j RJ.
  destruct (R_a _ _ _ _ _ _ _ H3 j j) as (a & b & s & t & A1 & B1 & S1 & T1 & X & Y); [split; auto|].
  destruct u. assert (AC2 : acyclic w2) by (eapply wiring_acyclic; [apply wiring_sym; exact W|exact AC]).
  destruct (fresh_draw E prog fuel' i n w2 w3 AC2) with (j := j) as (a' & A' & SA & _); auto.
  { intros x RX. apply NS2. eapply wiring_reaches; eauto. } { eapply wiring_reaches; [apply wiring_sym; exact W|auto]. }
  assert (a' = a) by (unfold at_ in *; congruence). subst a'.
  exists a, b, s, t. repeat (split; [assumption|]). split; [apply (ar_true _ _ _ _ _ _ _ _ X)|]. split; [apply (ar_obs _ _ _ _ _ _ _ _ X)|].
  split; [|apply (sr_mask _ _ _ _ _ _ _ Y); left; split; [auto|intros []]].
  unfold probability_of. rewrite (ar_prob _ _ _ _ _ _ _ _ X SA) by (intros []). now rewrite (ar_true _ _ _ _ _ _ _ _ X).
Qed.
End P.
