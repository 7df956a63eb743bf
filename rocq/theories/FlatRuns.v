(** A survey with independent auxiliary samplers and the default selections returns. *)
From Verif Require Import Base BaseFacts Keeps Env ParamModel SelModel SimVarModel DistModel DistSpec DistProofs AuxModel Tree AuxSpec AuxProofs PopModel SynthModel SynthSpec RunSpec FlatSpec SurveyRuns.
From Verif Require SurveyProofs SurveyFinal.
Import ListNotations.
Open Scope nat_scope.
Open Scope list_scope.

(** ** Drawing one sampler *)
Section One.
Variable E : env.
Notation V := (V E).
Notation world := (world E).
Notation sampler := (sampler E).
Notation selector := (selector E).
Variables i j : nat.

Definition now (w : world) (a : sampler) (s : selector) : Prop :=
  nth_error (w_auxs w) i = Some a /\ nth_error (w_sels w) j = Some s.
(** Nothing else changes. *)
Definition frame (w w' : world) : Prop :=
  (forall k, k <> i -> nth_error (w_auxs w') k = nth_error (w_auxs w) k) /\
  (forall k, k <> j -> nth_error (w_sels w') k = nth_error (w_sels w) k).
Lemma frame_trans w1 w2 w3 : frame w1 w2 -> frame w2 w3 -> frame w1 w3.
Proof. intros [A B] [C D]. split; intros k N; [rewrite C, A|rewrite D, B]; auto. Qed.
Lemma frame_refl w : frame w w. Proof. split; auto. Qed.

(** [m] returns [x] and ends with this sampler and selector. *)
Definition gives {A} (m : AM E A) (w : world) (x : A) (a : sampler) (s : selector) : Prop :=
  exists w', m w = (Ok x, w') /\ now w' a s /\ frame w w'.
Lemma gives_ret A (x : A) w a s : now w a s -> gives (ret x) w x a s.
Proof. intros N. exists w. split; [reflexivity|]. split; [exact N|apply frame_refl]. Qed.
Lemma gives_bind A B (m : AM E A) (k : A -> AM E B) w x a s y a' s' :
  gives m w x a s -> (forall w', now w' a s -> gives (k x) w' y a' s') -> gives (bind m k) w y a' s'.
Proof.
  intros (w1 & H1 & N1 & F1) H2. destruct (H2 w1 N1) as (w2 & H3 & N2 & F2). exists w2.
  split; [erewrite bind_ok; [exact H3|exact H1]|]. split; [exact N2|]. now apply frame_trans with w1.
Qed.
Lemma gives_get w a s : now w a s -> gives (get_aux (E := E) i) w a a s.
Proof. intros N. exists w. unfold get_aux. destruct N as [N1 N2]. rewrite N1. split; [reflexivity|]. split; [now split|apply frame_refl]. Qed.
Lemma gives_upd w a s f : now w a s -> gives (upd_aux i f) w tt (upd_dy f a) s.
Proof.
  intros [N1 N2]. unfold upd_aux. eexists. split; [erewrite bind_ok; [|unfold get_aux; rewrite N1; reflexivity]; reflexivity|]. split.
  - split; [|exact N2]. cbn. apply nth_lset_eq, nth_error_Some. congruence.
  - split; [|auto]. intros k K. cbn. apply nth_lset_neq. auto.
Qed.
Lemma gives_sel w a s f : now w a s -> gives (upd_sel j f) w tt a (f s).
Proof.
  intros [N1 N2]. unfold upd_sel. eexists. split; [erewrite bind_ok; [|unfold get_sel; rewrite N2; reflexivity]; reflexivity|]. split.
  - split; [exact N1|]. cbn. apply nth_lset_eq, nth_error_Some. congruence.
  - split; [auto|]. intros k K. cbn. apply nth_lset_neq. auto.
Qed.
Lemma gives_lift A (r : res A) x w a s : r = Ok x -> now w a s -> gives (lift r) w x a s.
Proof. intros -> N. exists w. split; [reflexivity|]. split; [exact N|apply frame_refl]. Qed.
Lemma gives_reads w a s ks vals : values E (k_params (kind_of a)) (a_par (a_dy a)) ks vals -> now w a s ->
  exists o, same_reads E (k_params (kind_of a)) (a_par (a_dy a)) o /\ gives (aux_reads (E := E) i ks) w vals (upd_dy (@dy_par E o) a) s.
Proof.
  intros VA N. destruct (preads_succeeds _ _ _ _ _ VA) as (o & R). destruct (preads_ok _ _ _ _ _ _ R) as [_ S]. exists o. split; [exact S|].
  unfold aux_reads. eapply gives_bind; [apply gives_get; exact N|]. intros w1 N1. rewrite R.
  eapply gives_bind; [apply gives_upd; exact N1|]. intros w2 N2. now apply gives_lift.
Qed.
(** A step that consumes only generators. *)
Lemma gives_gens A (f : world -> res A * gens E) w a s x g : now w a s -> f w = (Ok x, g) ->
  gives (fun w => let (r, g) := f w in (r, w_set_gens g w)) w x a s.
Proof. intros [N1 N2] H. exists (w_set_gens g w). rewrite H. split; [reflexivity|]. split; [now split|]. split; auto. Qed.

Variable n : nat.
(** The same sampler later on: class and wiring as before, parameters that read the same. *)
Definition later (a b : sampler) : Prop :=
  a_st b = a_st a /\ a_ln b = a_ln a /\ same_reads E (k_params (kind_of a)) (a_par (a_dy a)) (a_par (a_dy b)).
Lemma later_refl a : later a a. Proof. repeat split. Qed.
Lemma later_trans a b c : later a b -> later b c -> later a c.
Proof.
  intros (S1 & L1 & R1) (S2 & L2 & R2). split; [congruence|]. split; [congruence|].
  intros k. rewrite R1. unfold kind_of in *. rewrite S1 in R2. apply R2.
Qed.
Lemma later_samples a b : later a b -> samples a n -> samples b n.
Proof.
  intros (S & L & R) (tv & ov & pv & T & O & P & D). assert (K : kind_of b = kind_of a) by (unfold kind_of; now rewrite S).
  exists tv, ov, pv. rewrite K, S. split; [eapply values_same; eassumption|]. split; [intros Q; eapply values_same; [eassumption|auto]|].
  split; [eapply values_same; eassumption|exact D].
Qed.
Lemma later_par a o : same_reads E (k_params (kind_of a)) (a_par (a_dy a)) o -> later a (upd_dy (@dy_par E o) a).
Proof. intros S. split; [reflexivity|]. split; [reflexivity|exact S]. Qed.
Lemma later_dy a f : (forall d, a_par (f d) = a_par d) -> later a (upd_dy f a).
Proof. intros F. split; [reflexivity|]. split; [reflexivity|]. intros k. cbn. now rewrite F. Qed.

(** Like [gives], about the sampler only through a property. *)
Definition reaches_ {A} (m : AM E A) (w : world) (a : sampler) (P : A -> sampler -> Prop) : Prop :=
  forall s, now w a s -> s_kind s = KUnity E -> exists x b s', s_kind s' = KUnity E /\ later a b /\ P x b /\ gives m w x b s'.
Lemma reaches_bind A B (m : AM E A) (k : A -> AM E B) w a (P : A -> sampler -> Prop) (Q : B -> sampler -> Prop) :
  reaches_ m w a P -> (forall w' x b, P x b -> later a b -> reaches_ (k x) w' b Q) -> reaches_ (bind m k) w a Q.
Proof.
  intros H1 H2 s N K. destruct (H1 s N K) as (x & b & s1 & K1 & L1 & P1 & (w1 & R1 & N1 & F1)).
  destruct (H2 w1 x b P1 L1 s1 N1 K1) as (y & c & s2 & K2 & L2 & Q2 & (w2 & R2 & N2 & F2)).
  exists y, c, s2. split; [exact K2|]. split; [now apply later_trans with b|]. split; [exact Q2|].
  exists w2. split; [erewrite bind_ok; [exact R2|exact R1]|]. split; [exact N2|now apply frame_trans with w1].
Qed.
Lemma reaches_ret A (x : A) w a (P : A -> sampler -> Prop) : P x a -> reaches_ (ret x) w a P.
Proof. intros Q s N K. exists x, a, s. split; [exact K|]. split; [apply later_refl|]. split; [exact Q|now apply gives_ret]. Qed.
Lemma reaches_lift A (r : res A) x w a (P : A -> sampler -> Prop) : r = Ok x -> P x a -> reaches_ (lift r) w a P.
Proof. intros R Q s N K. exists x, a, s. split; [exact K|]. split; [apply later_refl|]. split; [exact Q|now apply gives_lift]. Qed.
Lemma reaches_get w a (P : sampler -> sampler -> Prop) : P a a -> reaches_ (get_aux (E := E) i) w a P.
Proof. intros Q s N K. exists a, a, s. split; [exact K|]. split; [apply later_refl|]. split; [exact Q|now apply gives_get]. Qed.
Lemma reaches_upd w a f (P : unit -> sampler -> Prop) : (forall d, a_par (f d) = a_par d) -> P tt (upd_dy f a) -> reaches_ (upd_aux i f) w a P.
Proof. intros F Q s N K. exists tt, (upd_dy f a), s. split; [exact K|]. split; [now apply later_dy|]. split; [exact Q|now apply gives_upd]. Qed.
Lemma reaches_sel w a f (P : unit -> sampler -> Prop) : (forall s, s_kind (f s) = s_kind s) -> P tt a -> reaches_ (upd_sel j f) w a P.
Proof. intros F Q s N K. exists tt, a, (f s). split; [now rewrite F|]. split; [apply later_refl|]. split; [exact Q|now apply gives_sel]. Qed.
Lemma reaches_reads w a ks vals (P : list V -> sampler -> Prop) : values E (k_params (kind_of a)) (a_par (a_dy a)) ks vals ->
  (forall o, same_reads E (k_params (kind_of a)) (a_par (a_dy a)) o -> P vals (upd_dy (@dy_par E o) a)) -> reaches_ (aux_reads (E := E) i ks) w a P.
Proof.
  intros VA Q s N K. destruct (gives_reads w a s ks vals VA N) as (o & S & G). exists vals, (upd_dy (@dy_par E o) a), s.
  split; [exact K|]. split; [now apply later_par|]. split; [now apply Q|exact G].
Qed.
Lemma reaches_gens A (f : world -> res A * gens E) w a (P : A -> sampler -> Prop) : (exists x g, f w = (Ok x, g) /\ P x a) ->
  reaches_ (fun w => let (r, g) := f w in (r, w_set_gens g w)) w a P.
Proof. intros (x & g & H & Q) s N K. exists x, a, s. split; [exact K|]. split; [apply later_refl|]. split; [exact Q|now apply gives_gens with g]. Qed.

Definition drawn_now (a : sampler) : Prop :=
  exists t o, a_true (a_dy a) = Some t /\ a_obs (a_dy a) = Some o /\ length t = n /\ length o = n.
Lemma draw_sel_unity prog w a (P : unit -> sampler -> Prop) : P tt a -> reaches_ (on_sel j (@sel_draw E prog n)) w a P.
Proof.
  intros Q s N K. exists tt, a, (with_mask s (Some (repeat true n))). split; [exact K|]. split; [apply later_refl|]. split; [exact Q|].
  destruct N as [N1 N2]. unfold on_sel.
  assert (SD : sel_draw prog n (s, w_g w) = (Ok tt, (with_mask s (Some (repeat true n)), w_g w))).
  { unfold sel_draw, here, bind, gets. cbn [fst]. rewrite K. reflexivity. }
  eexists. split; [erewrite bind_ok; [|unfold get_sel; rewrite N2; reflexivity]; cbn beta; rewrite SD; reflexivity|]. split.
  - split; [exact N1|]. cbn. apply nth_lset_eq, nth_error_Some. congruence.
  - split; [auto|]. intros k Kk. cbn. apply nth_lset_neq. auto.
Qed.

Lemma finish_flat prog w a : a_sel (a_ln a) = j -> samples a n ->
  reaches_ (aux_finish (E := E) prog i n) w a (fun _ b => drawn_now b).
Proof.
  intros J SA. destruct SA as (tv & ov & pv & VT & VO & VP & D).
  unfold aux_finish, run_true.
  eapply reaches_bind with (P := fun _ b => exists t, a_true (a_dy b) = Some t /\ length t = n /\
      forall v', vw_true v' = Some t ->
        (a_observed (a_st a) = true -> forall g1, exists o g2, k_obs (kind_of a) ov v' n g1 = (Ok (Some o), g2) /\ length o = n) /\
        exists q, k_prob (kind_of a) pv v' = Ok q).
  { eapply reaches_bind; [apply reaches_get with (P := fun x b => x = a /\ b = a); auto|].
    intros w1 x b [-> ->] _.
    eapply reaches_bind with (P := fun _ b => b = a).
    { intros s N K. exists tt, a, s. split; [exact K|]. split; [apply later_refl|]. split; [reflexivity|]. exists (w_add_log i w1).
      split; [reflexivity|]. split; [exact N|]. split; auto. }
    intros w2 x b -> _. eapply reaches_bind; [apply reaches_reads with (vals := tv) (P := fun vals b => vals = tv /\ later a b)|].
    { exact VT. } { intros o S. split; [reflexivity|now apply later_par]. }
    intros w3 x' b [-> L] _. eapply reaches_bind; [apply reaches_get with (P := fun x b' => x = b' /\ later a b'); auto|].
    intros w4 y c [-> L'] _.
    eapply reaches_bind.
    { apply reaches_gens with (P := fun o b => b = c /\ exists t, o = Some t /\ length t = n /\ forall v', vw_true v' = Some t ->
        (a_observed (a_st a) = true -> forall g1, exists o g2, k_obs (kind_of a) ov v' n g1 = (Ok (Some o), g2) /\ length o = n) /\
        exists q, k_prob (kind_of a) pv v' = Ok q).
      destruct (D (view_of (w_auxs w4) c) (w_g w4, w_n w4)) as (t & g' & H & LT & REST). exists (Some t), g'. split; [exact H|]. split; [reflexivity|]. exists t. auto. }
    intros w5 o b' [-> (t & -> & LT & REST)] _. apply reaches_upd; [reflexivity|]. exists t. cbn. auto. }
  intros w1 x b (t & T & LT & REST) L. eapply reaches_bind; [apply reaches_get with (P := fun x b' => x = b' /\ b' = b); auto|].
  intros w2 y c [-> ->] _. assert (ST : a_st b = a_st a) by apply L.
  assert (KB : kind_of b = kind_of a) by (unfold kind_of; now rewrite ST).
  eapply reaches_bind with (P := fun _ c => later b c /\ exists o, a_true (a_dy c) = Some t /\ a_obs (a_dy c) = Some o /\ length o = n).
  { rewrite ST. destruct (a_observed (a_st a)) eqn:OB.
    - unfold run_obs. eapply reaches_bind; [apply reaches_get with (P := fun x b' => x = b' /\ b' = b); auto|]. intros w3 x' c' [-> ->] _.
      eapply reaches_bind; [apply reaches_reads with (vals := ov) (P := fun vals b' => vals = ov /\ later b b' /\ a_true (a_dy b') = Some t)|].
      { rewrite KB. eapply values_same; [apply L|]. now apply VO. }
      { intros o S. split; [reflexivity|]. split; [now apply later_par|]. exact T. }
      intros w4 vals d (-> & LD & TD) _. eapply reaches_bind; [apply reaches_get with (P := fun x b' => x = b' /\ b' = d); auto|]. intros w5 x' c' [-> ->] _.
      eapply reaches_bind.
      { apply reaches_gens with (P := fun o b' => b' = d /\ exists l, o = Some l /\ length l = n).
        destruct (REST (view_of (w_auxs w5) d) TD) as [O _]. destruct (O eq_refl (w_g w5, w_n w5)) as (o & g2 & H & LO). rewrite KB.
        exists (Some o), g2. split; [exact H|]. split; [reflexivity|]. eauto. }
      intros w6 o b' (-> & l & -> & LO) _. apply reaches_upd; [reflexivity|]. split.
      + eapply later_trans; [exact LD|]. now apply later_dy.
      + exists l. cbn. auto.
    - apply reaches_upd; [reflexivity|]. split; [now apply later_dy|]. exists t. cbn. rewrite T. auto. }
  intros w3 x' c (LC & o & TC & OC & LO) _. eapply reaches_bind; [apply reaches_get with (P := fun x b' => x = b' /\ b' = c); auto|]. intros w4 y' c' [-> ->] _.
  assert (LAC : later a c) by (now apply later_trans with b).
  assert (LN : a_ln c = a_ln a) by apply LAC. rewrite LN, J.
  eapply reaches_bind; [apply reaches_sel with (P := fun _ b' => b' = c); reflexivity|]. intros w5 u b' -> _.
  rewrite TC, OC. cbn [has_len]. rewrite LT, LO, !Nat.eqb_refl.
  eapply reaches_bind; [apply reaches_lift with (x := tt) (P := fun _ b' => b' = c); reflexivity|]. intros w6 u2 b' -> _.
  eapply reaches_bind; [apply reaches_lift with (x := tt) (P := fun _ b' => b' = c); reflexivity|]. intros w7 u3 b' -> _.
  eapply reaches_bind; [apply reaches_upd with (P := fun _ b' => b' = upd_dy (@dy_sampled E true) c); reflexivity|]. intros w8 u4 b' -> LD.
  set (d := upd_dy (@dy_sampled E true) c) in *.
  eapply reaches_bind; [apply draw_sel_unity with (P := fun _ b' => b' = d); reflexivity|]. intros w9 u5 b' -> _.
  unfold run_prob. assert (LAD : later a d) by (now apply later_trans with c).
  assert (KD : kind_of d = kind_of a) by (unfold kind_of; now rewrite (proj1 LAD)).
  eapply reaches_bind; [apply reaches_get with (P := fun x b' => x = b' /\ b' = d); auto|]. intros w10 y6 b' [-> ->] _.
  eapply reaches_bind; [apply reaches_reads with (vals := pv) (P := fun vals b' => vals = pv /\ a_true (a_dy b') = Some t /\ a_obs (a_dy b') = Some o)|].
  { rewrite KD. eapply values_same; [apply LAD|exact VP]. }
  { intros o' S. split; [reflexivity|]. split; [exact TC|exact OC]. }
  intros w11 vals e (-> & TE & OE) _. eapply reaches_bind; [apply reaches_get with (P := fun x b' => x = b' /\ b' = e); auto|]. intros w12 y7 b' [-> ->] _.
  eapply reaches_bind with (P := fun _ b' => b' = e).
  { intros s N K. exists w12, e, s. split; [exact K|]. split; [apply later_refl|]. split; [reflexivity|]. exists w12. split; [reflexivity|]. split; [exact N|apply frame_refl]. }
  intros w13 w14 b' -> _. destruct (REST (view_of (w_auxs w14) e) TE) as [_ (q & PQ)].
  eapply reaches_bind; [apply reaches_lift with (x := q) (P := fun x b' => b' = e /\ x = q); [rewrite KD; exact PQ|auto]|]. intros w15 u6 b' [-> ->] _.
  apply reaches_upd; [reflexivity|]. exists t, o. cbn. auto.
Qed.
Lemma draw_flat prog r w a : a_sel (a_ln a) = j -> samples a n -> a_sampled (a_dy a) = false -> a_sec (a_ln a) = [] -> a_sp (a_dy a) <> None ->
  reaches_ (aux_draw (E := E) prog (S r) i n) w a (fun _ b => drawn_now b).
Proof.
  intros J SA NS NC SP. cbn [aux_draw]. eapply reaches_bind; [apply reaches_get with (P := fun x b' => x = b' /\ b' = a); auto|]. intros w1 x b [-> ->] _.
  rewrite NS, NC. eapply reaches_bind with (P := fun _ b' => b' = a).
  { unfold aux_pre. rewrite J. eapply reaches_bind with (P := fun _ b' => b' = a).
    - destruct (a_usesd (a_st a)); [|now apply reaches_ret]. destruct (a_sp (a_dy a)) as [sp|]; [|easy]. now apply reaches_sel.
    - intros w2 u b -> _. destruct (a_lum (a_dy a)); [now apply reaches_sel|now apply reaches_ret]. }
  intros w2 u b -> _. cbn [iterM]. eapply reaches_bind; [apply reaches_ret with (P := fun _ b' => b' = a); reflexivity|].
  intros w3 u' b -> _. now apply finish_flat.
Qed.
End One.

(** ** One sampler of a survey *)
Section Survey.
Variable E : env.
Notation V := (V E).
Notation synth := (synth E).
Notation world := (world E).
Variables (prog : bool) (r n : nat).

(** A registered sampler without secondaries whose selector keeps every object. *)
Definition wired (w : world) (fi di i : nat) : Prop :=
  exists a s, nth_error (w_auxs w) i = Some a /\ a_sec (a_ln a) = [] /\ a_issec (a_ln a) = false /\
    nth_error (w_sels w) (a_sel (a_ln a)) = Some s /\ s_kind s = KUnity E /\ a_sel (a_ln a) <> fi /\ a_sel (a_ln a) <> di.
Definition good_entry (w : world) (kv : string * container E) : Prop :=
  usable_name (fst kv) /\ exists t o s, c_true (snd kv) = Some t /\ c_obs (snd kv) = Some o /\ length t = n /\ length o = n /\
    nth_error (w_sels w) (c_sel (snd kv)) = Some s /\ s_kind s = KUnity E.
Definition kinds_kept (w w' : world) : Prop :=
  forall k s, nth_error (w_sels w) k = Some s -> exists s', nth_error (w_sels w') k = Some s' /\ s_kind s' = s_kind s.

Lemma props_flat (h : list (sampler E)) i b : nth_error h i = Some b -> a_sec (a_ln b) = [] ->
  fst (sec_props (S r) h i "" None) = Ok [(name_of b, container_of b)].
Proof. intros A C. cbn [sec_props]. rewrite A, C. reflexivity. Qed.

Lemma aux_step z sp lum acc k i : spatial_values (y_sp z) = Ok sp -> flat_sampler z n i ->
  exists acc' w' j a b, survey_aux prog (S r) n lum acc (k, i) z = (Ok acc', with_w z w') /\
    frame E i j (y_w z) w' /\ wired w' (y_flux z) (y_dsel z) i /\ kinds_kept (y_w z) w' /\ j <> y_flux z /\ j <> y_dsel z /\
    nth_error (w_auxs (y_w z)) i = Some a /\ a_sel (a_ln a) = j /\
    snd acc' = st_add (snd acc) [(name_of b, container_of b)] /\ good_entry w' (name_of b, container_of b).
Proof.
  intros SP (a & s & AT & NS & NC & NI & ST & KU & JF & JD & UN & SA). set (j := a_sel (a_ln a)) in *.
  assert (N0 : now E i j (y_w z) a s) by (split; assumption).
  match goal with |- exists acc' w' j a b, ?m = _ /\ _ => destruct m as [q z'] eqn:Q end.
  unfold survey_aux in Q. cbn [snd] in Q.
  erewrite bind_ok in Q; [|unfold in_w, get_aux; rewrite AT; reflexivity].
  erewrite bind_lift in Q; [|rewrite NI; reflexivity].
  destruct (gives_upd E i j _ _ _ (@dy_lum E lum) N0) as (w1 & R1 & N1 & F1).
  erewrite bind_ok in Q; [|unfold in_w; cbn [y_w with_w]; unfold set_lum; rewrite R1; reflexivity].
  erewrite bind_ok in Q; [|unfold get_sp; rewrite bind_get; cbn [y_sp with_w]; rewrite SP; reflexivity].
  destruct (gives_upd E i j _ _ _ (@dy_sp E sp) N1) as (w2 & R2 & N2 & F2).
  erewrite bind_ok in Q; [|unfold in_w; cbn [y_w with_w]; unfold set_sp; rewrite R2; reflexivity].
  rewrite NC in Q. cbn [iterM] in Q. erewrite bind_ok in Q; [|reflexivity].
  set (a2 := upd_dy (@dy_sp E sp) (upd_dy (@dy_lum E lum) a)) in *.
  assert (L2 : later E a a2). { eapply later_trans; apply later_dy; reflexivity. }
  destruct (draw_flat E i j n prog r w2 a2) with (s := s) as (u & b & s' & KS & LB & (t & o & TB & OB & LT & LO) & (w3 & R3 & N3 & F3));
    [reflexivity|now apply later_samples with a|exact NS|exact NC|discriminate|exact N2|exact KU|].
  erewrite bind_ok in Q; [|unfold in_w; cbn [y_w with_w]; rewrite R3; reflexivity].
  destruct N3 as [AB SB].
  erewrite bind_ok in Q.
  2:{ unfold add_truth, sampler_truth. erewrite bind_ok; [|erewrite bind_ok; [|unfold in_w, get_aux; cbn [y_w with_w]; rewrite AB; reflexivity]; reflexivity]. reflexivity. }
  erewrite bind_ok in Q.
  2:{ unfold check_len. erewrite bind_ok; [|unfold in_w, get_aux; cbn [y_w with_w]; rewrite AB; reflexivity].
      rewrite TB, OB. cbn [has_len]. rewrite LT, LO, Nat.eqb_refl. reflexivity. }
  assert (LAB : later E a b) by (now apply later_trans with a2).
  assert (LN : a_ln b = a_ln a) by apply LAB. assert (SB' : a_st b = a_st a) by apply LAB.
  erewrite bind_ok in Q.
  2:{ unfold props. rewrite bind_get. cbn [y_w with_w]. rewrite (props_flat _ _ b); [reflexivity|exact AB|now rewrite LN]. }
  cbn [foldM] in Q. erewrite bind_ok in Q; [|reflexivity]. unfold ret in Q. injection Q as <- <-.
  assert (F : frame E i j (y_w z) w3) by (eapply frame_trans; [|exact F3]; eapply frame_trans; eassumption).
  eexists _, w3, j, a, b. split; [reflexivity|]. split; [exact F|].
  split; [exists b, s'; rewrite LN; fold j; split; [exact AB|]; split; [exact NC|]; split; [exact NI|]; split; [exact SB|]; split; [exact KS|]; split; assumption|].
  split; [intros k0 s0 K0; destruct (Nat.eq_dec k0 j) as [->|NE];
    [exists s'; split; [exact SB|]; rewrite KS; assert (s0 = s) as -> by congruence; now rewrite KU|exists s0; rewrite (proj2 F) by exact NE; auto]|].
  split; [exact JF|]. split; [exact JD|]. split; [exact AT|]. split; [reflexivity|]. split; [reflexivity|].
  split; [unfold name_of; cbn; rewrite SB'; exact UN|]. exists t, o, s'. cbn. rewrite LN. fold j. repeat (split; [assumption|]). assumption.
Qed.

Lemma good_kept w w' kv : kinds_kept w w' -> good_entry w kv -> good_entry w' kv.
Proof.
  intros K (U & t & o & s & T & O & L1 & L2 & S & KS). split; [exact U|]. destruct (K _ _ S) as (s' & S' & KS').
  exists t, o, s'. repeat (split; [assumption|]). congruence.
Qed.
Lemma st_add_good w s o : Forall (good_entry w) s -> Forall (good_entry w) o -> Forall (good_entry w) (st_add s o).
Proof.
  intros A B. unfold st_add. destruct (st_empty s); [exact B|]. destruct (st_empty o); [exact A|].
  unfold dupdate. revert s A. induction B as [|[k v] o P B IH]; intros s A; cbn [fold_left]; [exact A|]. apply IH.
  cbn. clear IH B. induction A as [|[k' v'] s Q A IH]; cbn; [constructor; [exact P|constructor]|].
  destruct (String.eqb k k') eqn:Ek; constructor; auto. apply String.eqb_eq in Ek. subst k'. exact P.
Qed.

Lemma aux_fold sp lum l z acc : spatial_values (y_sp z) = Ok sp -> NoDup (map snd l) ->
  (forall k i, In (k, i) l -> flat_sampler z n i) -> Forall (good_entry (y_w z)) (snd acc) ->
  exists acc' w', foldM (survey_aux prog (S r) n lum) acc l z = (Ok acc', with_w z w') /\
    Forall (good_entry w') (snd acc') /\ kinds_kept (y_w z) w' /\
    nth_error (w_sels w') (y_flux z) = nth_error (w_sels (y_w z)) (y_flux z) /\
    nth_error (w_sels w') (y_dsel z) = nth_error (w_sels (y_w z)) (y_dsel z) /\
    (forall i, wired (y_w z) (y_flux z) (y_dsel z) i -> wired w' (y_flux z) (y_dsel z) i) /\
    (forall q, (forall k i a, In (k, i) l -> nth_error (w_auxs (y_w z)) i = Some a -> a_sel (a_ln a) <> q) ->
       nth_error (w_sels w') q = nth_error (w_sels (y_w z)) q).
Proof.
  revert z acc. induction l as [|[k i] l IH]; intros z acc SP ND FS GE.
  - exists acc, (y_w z). split; [unfold foldM, ret; destruct z; reflexivity|]. split; [exact GE|]. split; [intros k s H; eauto|]. auto.
  - destruct (aux_step z sp lum acc k i SP (FS k i (or_introl eq_refl))) as (acc1 & w1 & j & a & b & R1 & [F1 F2] & W1 & K1 & J1 & J2 & AT & AJ & S1 & G1).
    inversion ND as [|? ? NI ND']; subst.
    destruct (IH (with_w z w1) acc1) as (acc2 & w2 & R2 & G2 & K2 & X1 & X2 & X3 & X4).
    + exact SP.
    + exact ND'.
    + intros k' i' I. destruct (FS k' i' (or_intror I)) as (a' & s' & A1 & A2 & A3 & A4 & A5 & A6 & A7).
      assert (NE : i' <> i) by (intros ->; apply NI; change i with (snd (k', i)); now apply in_map).
      destruct (K1 _ _ A5) as (s2 & B1 & B2). exists a', s2. cbn [y_w with_w y_flux y_dsel]. split; [now rewrite F1|].
      split; [exact A2|]. split; [exact A3|]. split; [exact A4|]. split; [exact B1|]. split; [congruence|]. exact A7.
    + cbn [y_w with_w]. destruct acc1 as [t1 st1]. cbn [snd] in S1 |- *. rewrite S1. apply st_add_good; [|constructor; [exact G1|constructor]].
      eapply Forall_impl; [|exact GE]. intros kv. apply good_kept. exact K1.
    + exists acc2, w2. split; [cbn [foldM]; erewrite bind_ok; [|exact R1]; rewrite R2; reflexivity|]. cbn [y_w with_w y_flux y_dsel] in *.
      split; [exact G2|]. split; [intros k' s H; destruct (K1 _ _ H) as (s1 & H1 & Q1); destruct (K2 _ _ H1) as (s2 & H2 & Q2); exists s2; split; [exact H2|congruence]|].
      split; [rewrite X1; now apply F2, not_eq_sym|]. split; [rewrite X2; now apply F2, not_eq_sym|].
      split; [|intros q NQ; rewrite X4; [apply F2; intros ->; exact (NQ k i a (or_introl eq_refl) AT eq_refl)|]; intros k' i' a' I A';
        assert (NE : i' <> i) by (intros ->; apply NI; change i with (snd (k', i)); now apply in_map); rewrite F1 in A' by exact NE; exact (NQ k' i' a' (or_intror I) A')].
      intros i' (a' & s' & A1 & A2 & A3 & A4 & A5 & A6). destruct (Nat.eq_dec i' i) as [->|NE]; [apply X3; exact W1|].
      apply X3. destruct (K1 _ _ A4) as (s2 & B1 & B2). exists a', s2. split; [now rewrite F1|]. split; [exact A2|]. split; [exact A3|].
      split; [exact B1|]. split; [congruence|exact A6].
Qed.
End Survey.

(** ** The rest of the survey *)
Section Rest.
Variable E : env.
Notation V := (V E).
Notation synth := (synth E).
Notation one := (vofnat E 1).
Notation zero := (vofnat E 0).

Lemma unity_fold (l : storage E) acc (z : synth) : (forall kv, In kv l -> exists s, nth_error (w_sels (y_w z)) (c_sel (snd kv)) = Some s /\ s_kind s = KUnity E) ->
  foldM (survey_selection (E := E)) acc l z = (Ok acc, z).
Proof.
  revert acc. induction l as [|kv l IH]; intros acc H; [reflexivity|]. cbn [foldM]. destruct (H kv (or_introl eq_refl)) as (s & S & K).
  erewrite bind_ok; [apply IH; intros; apply H; now right|].
  unfold survey_selection. erewrite bind_ok; [|unfold in_w, get_sel; rewrite S; reflexivity]. rewrite K. cbn. unfold ret. destruct z; reflexivity.
Qed.
Lemma graph_ok rl h spn aux g : (forall k i, In (k, i) aux -> exists a, nth_error h i = Some a /\ a_sec (a_ln a) = [] /\ a_issec (a_ln a) = false) ->
  exists g', iterM (graph_aux (E := E) rl h spn) aux g = (Ok tt, g').
Proof.
  revert g. induction aux as [|[k i] l IH]; intros g H; [eexists; reflexivity|]. cbn [iterM].
  destruct (H k i (or_introl eq_refl)) as (a & A & C & NI).
  assert (X : exists g1, graph_aux rl h spn (k, i) g = (Ok tt, g1)).
  { unfold graph_aux, gaux. cbn [fst snd]. rewrite A. cbn [of_opt]. erewrite bind_lift by reflexivity. rewrite C, NI. destruct (a_observed (a_st a)), (a_usesd (a_st a)); eexists; reflexivity. }
  destruct X as (g1 & X). destruct (IH g1) as (g2 & Y); [intros; eapply H; right; eassumption|].
  exists g2. erewrite bind_ok; [exact Y|exact X].
Qed.
Lemma read_graph_ok rl (z : synth) : y_der z = None -> y_lum z <> None ->
  (forall k i, In (k, i) (y_aux z) -> exists a, nth_error (w_auxs (y_w z)) i = Some a /\ a_sec (a_ln a) = [] /\ a_issec (a_ln a) = false) ->
  exists g, read_graph rl z = (Ok g, with_graph z g).
Proof.
  intros D L H. unfold read_graph, build_graph. rewrite D. destruct (y_lum z) as [l|]; [|easy]. cbn [option_map].
  match goal with |- context [bind (gnode ?a ?b) _ ?g] => set (g0 := g) end.
  destruct (graph_ok rl (w_auxs (y_w z)) (sd_name (y_sp z)) (y_aux z)
    (add_edge (ld_name l) "obs_flux" (add_edge (sd_name (y_sp z)) "obs_flux" (add_node "obs_flux" (Some true) g0))) H) as (g' & G).
  exists g'. unfold bind, gnode, gedge, modify. rewrite G. reflexivity.
Qed.
Lemma to_dict_ok rl (z : synth) : nth_error (w_sels (y_w z)) (y_flux z) <> None -> nth_error (w_sels (y_w z)) (y_dsel z) <> None ->
  match y_ssel z with None => True | Some i => nth_error (w_sels (y_w z)) i <> None end -> y_der z = None ->
  (forall k i, In (k, i) (y_aux z) -> exists a s, nth_error (w_auxs (y_w z)) i = Some a /\ a_sec (a_ln a) = [] /\ nth_error (w_sels (y_w z)) (a_sel (a_ln a)) = Some s) ->
  exists c, to_dict rl z = Ok c.
Proof.
  intros Z1 Z2 Z3 Z5 H. unfold to_dict, selection_entry. rewrite Z5.
  destruct (nth_error (w_sels (y_w z)) (y_flux z)); [|easy]. destruct (nth_error (w_sels (y_w z)) (y_dsel z)); [|easy].
  assert (G : exists c, (fix go l acc := match l with
                              | nil => Ok acc
                              | (k, i) :: r =>
                                  let? a := of_opt Unmodelled (nth_error (w_auxs (y_w z)) i) in
                                  let? acc' := conf_top rl (y_w z) k (a_type (a_st a)) i acc in go r acc'
                              end) (y_aux z) (@nil (string * tree V)) = Ok c).
  { generalize (@nil (string * tree V)). induction (y_aux z) as [|[k i] l IH]; intros acc; [eauto|].
    destruct (H k i (or_introl eq_refl)) as (a & sx & A & C & SX). rewrite A. cbn [of_opt rbind]. unfold conf_top. rewrite A. cbn [of_opt rbind].
    unfold conf_entry. rewrite SX, C. cbn [of_opt rbind]. apply IH. intros; eapply H; right; eassumption. }
  destruct G as (c & G). rewrite G.
  destruct (y_ssel z) as [i|]; [destruct (nth_error (w_sels (y_w z)) i); [|easy]|]; destruct (y_fluxset z), (y_dset z); cbn; eauto.
Qed.
Variable n : nat.
Definition good_quantity (kv : string * (list V * list V)) : Prop := usable_name (fst kv) /\ length (fst (snd kv)) = n /\ length (snd (snd kv)) = n.
Lemma quantities_ok w (l : storage E) : Forall (good_entry E n w) l -> exists q, rmapM (quantity (E := E)) l = Ok q /\ Forall good_quantity q.
Proof.
  induction 1 as [|kv l (U & t & o & s & T & O & L1 & L2 & _) F (q & IH & G)]; [eexists; split; [reflexivity|constructor]|].
  cbn [rmapM]. unfold quantity at 1. rewrite T, O. cbn [of_opt rbind]. rewrite IH. cbn [rbind]. eexists. split; [reflexivity|].
  constructor; [|exact G]. split; [exact U|]. now split.
Qed.
Lemma mem_out k l : ~ In k l -> mem k l = false.
Proof. intros N. destruct (mem k l) eqn:M; [|reflexivity]. apply SurveyProofs.mem_In in M. contradiction. Qed.
Lemma attrs_ok (l : list (string * (list V * list V))) : Forall good_quantity l ->
  exists v, rmapM (fun kv => rmap (pair (fst kv)) (aux_attr E (repeat true n) (fst kv) (snd kv))) l = Ok v.
Proof.
  induction 1 as [|[k [t o]] l (U & L1 & L2) F (v & IH)]; [eexists; reflexivity|]. cbn [rmapM fst snd] in *.
  unfold usable_name in U. rewrite !in_app_iff in U.
  assert (X : aux_attr E (repeat true n) k (t, o) = Ok (SimVar o t (MB (repeat true n)) DFloat)).
  { unfold aux_attr. cbn [fst snd]. rewrite fvar_ok by (now rewrite repeat_length). cbn [rbind]. rewrite !mem_out by tauto. reflexivity. }
  rewrite X. cbn [rmap rbind]. rewrite IH. cbn [rbind]. eauto.
Qed.
End Rest.

Section P.
Variable E : env.
Notation V := (V E).
Notation synth := (synth E).
Notation selector := (selector E).
Notation one := (vofnat E 1).
Notation zero := (vofnat E 0).
Variables (prog : bool) (fuel rl : nat) (fs : option V) (l10 norm : bool) (n : nat) (y : synth) (l : ldist E).

Theorem flat_returns d1 g1 : flat y n -> 0 < rl -> y_lum y = Some l -> draws_luminosities l n ->
  wf_par E (sc_params (sd_cls (y_sp y))) (sd_par (y_sp y)) -> places (sd_cls (y_sp y)) n ->
  draw_distance prog fuel n norm (y_sp y, r_seed E (y_seed y)) = (Ok tt, (d1, g1)) ->
  exists p y', draw_survey prog fuel rl fs l10 (Some n) norm y = (Ok p, y') /\ p_nobj p = n /\ all_detected p.
Proof.
  intros (FS & NDI & ND & (NS & NE & SE) & SP) RL YL (vals & pvals & VA & VP & DR) W SK H.
  destruct (draw_distance_ok _ _ _ _ _ _ _ _ _ W H) as (rs & ps & o & DW & -> & SR & WO).
  destruct DW as (rm & dv & uv & ig & ys & ym & RM & _ & _ & _ & _ & _ & AM & PS).
  assert (LR := accept_many_len E _ _ _ _ _ _ _ _ AM). assert (LP := rmapM_length _ _ PS). rewrite LR in LP.
  destruct (SE _ (or_introl eq_refl)) as (sf & SF & KF & UF). destruct (SE _ (or_intror eq_refl)) as (sd & SD & KD & UD).
  destruct y as [[g0 n0 sels auxs log] sp spm lum lumm seed nm nmod spaces aux der fi fset di dset ss gr].
  pr. subst der ss lum. destruct rl as [|rl0]; [lia|].
  match goal with |- exists p y', ?m = _ /\ _ => destruct m as [r y'] eqn:Q end.
  unfold draw_survey, survey_size in Q. rewrite bind_get in Q.
  erewrite bind_ok in Q; [|unfold modify, bind, ret; reflexivity]. pr.
  erewrite bind_ok in Q; [|unfold in_sp; pr; rewrite H; reflexivity]. rewrite bind_get in Q.
  destruct (inplace_ok _ _ (vmul E) (repeat one n) ps) as (p0 & P0 & L0); [now rewrite repeat_length|]. rewrite repeat_length in L0.
  erewrite bind_ok in Q; [|unfold times, lift; pr; cbn [of_opt rbind]; rewrite P0; reflexivity].
  destruct (sky_step E (with_prob (with_dist (with_spar sp o) rs) ps) n rs g1 SK eq_refl LR) as (rs2 & th & ph & g2 & SKY & LR2 & LT & LPH).
  erewrite bind_ok in Q; [|unfold in_sp; pr; rewrite SKY; reflexivity]. pr.
  erewrite bind_ok in Q; [|unfold get_sp; rewrite bind_get; unfold lift, spatial_values; pr; reflexivity]. pr.
  (* luminosities *)
  destruct (DR g2) as (ls & g3 & DL & LL & PL).
  destruct (preads_succeeds _ _ _ _ _ VA) as (o1 & R1). destruct (preads_ok _ _ _ _ _ _ R1) as [_ S1].
  assert (VP1 : values E (lc_params (ld_cls l)) o1 (lc_preads (ld_cls l)) pvals) by (eapply values_same; [exact S1|exact VP]).
  destruct (preads_succeeds _ _ _ _ _ VP1) as (o2 & R2).
  assert (QS : exists qs, rmapM (lc_phi (ld_cls l) pvals) ls = Ok qs).
  { clear - PL. induction ls as [|x ls IH]; [eexists; reflexivity|]. cbn [rmapM]. destruct (PL x (or_introl eq_refl)) as (q & ->).
    destruct IH as (qs & ->); [intros; apply PL; now right|]. cbn. eauto. }
  destruct QS as (qs & QS). assert (LQ := rmapM_length _ _ QS). rewrite LL in LQ.
  destruct (inplace_ok _ _ (vmul E) p0 qs) as (p1 & P1 & L1); [congruence|].
  erewrite bind_ok in Q.
  2:{ unfold survey_lum. rewrite bind_get. pr.
    erewrite bind_ok; [|unfold in_lum; pr; unfold draw_luminosity, bind, gets, in_lpar; pr; rewrite R1; pr; rewrite DL; pr; reflexivity].
    erewrite bind_ok; [|unfold in_lum; pr; unfold compute_probability, bind, gets, in_lpar; pr; rewrite R2; pr; unfold lift; rewrite QS; unfold modify; pr; reflexivity].
    rewrite bind_get. erewrite bind_lift; [|pr; reflexivity]. erewrite bind_ok; [|unfold times, lift; pr; cbn [of_opt rbind]; rewrite P1; reflexivity]. pr. reflexivity. }
  pr.
  erewrite bind_ok in Q; [|unfold in_sp, cls, gets; pr; reflexivity]. pr.
  destruct (bcast_ok _ _ _ (sc_transform (sd_cls sp)) ls rs2) as (fl & FL & LF); [congruence|]. rewrite LL in LF.
  erewrite bind_lift in Q; [|exact FL]. rewrite bind_get in Q. pr.
  match type of Q with bind (foldM (survey_aux prog (S rl0) n ls) ?acc aux) _ ?z = _ =>
    destruct (aux_fold E prog rl0 n (SpVals E rs2 th ph) ls aux z acc) as (acc' & w' & RA & GA & KA & XF & XD & WA & _) end;
    [reflexivity|exact NDI| |constructor|].
  { intros k i I. destruct (FS k i I) as (a & s & H1). exists a, s. exact H1. }
  assert (WR : forall k i, In (k, i) aux -> wired E w' fi di i).
  { intros k i I. apply WA. destruct (FS k i I) as (a & s & A1 & A2 & A3 & A4 & A5 & A6 & A7 & A8 & _). exists a, s. auto 10. }
  erewrite bind_ok in Q; [|exact RA]. destruct acc' as [t2 st2]. cbn [snd] in GA. clear RA WA. destruct w' as [g4 n4 sels' auxs' log']. pr.
  rewrite SF in XF. rewrite SD in XD. clear KA FS. rename sels into sels0. rename sels' into sels. rename XF into SF'. rename XD into SD'. clear SF SD. rename SF' into SF. rename SD' into SD.
  erewrite bind_ok in Q.
  2:{ unfold survey_flux. rewrite bind_get. pr. erewrite bind_ok; [|unfold in_w, get_sel; pr; rewrite SF; pr; reflexivity]. rewrite KF. cbn [is_unity]. unfold ret. reflexivity. }
  pr. set (sf1 := set_observed_flux sf fl) in *. set (sels1 := lset sels fi sf1).
  assert (SF1 : nth_error sels1 fi = Some sf1) by (apply nth_lset_eq, nth_error_Some; congruence).
  assert (SD1 : nth_error sels1 di = Some sd) by (unfold sels1; rewrite nth_lset_neq; auto).
  erewrite bind_ok in Q; [|unfold in_w, upd_sel, put_sel, modify, bind, get_sel; pr; rewrite SF; pr; reflexivity]. pr. fold sf1 sels1 in Q.
  set (sf2 := with_sampled (with_mask sf1 (Some (repeat true n))) true). set (sels2 := lset sels1 fi sf2).
  assert (SF2 : nth_error sels2 fi = Some sf2) by (apply nth_lset_eq, nth_error_Some; congruence).
  assert (SD2 : nth_error sels2 di = Some sd) by (unfold sels2; rewrite nth_lset_neq; auto).
  erewrite bind_ok in Q; [|unfold in_w, on_sel, bind, get_sel; pr; rewrite SF1; pr; rewrite select_unity by assumption; reflexivity]. pr. fold sf2 sels2 in Q.
  erewrite bind_ok in Q.
  2:{ match goal with |- foldM _ _ _ ?z = _ => assert (UN : forall kv, In kv st2 -> exists s, nth_error (w_sels (y_w z)) (c_sel (snd kv)) = Some s /\ s_kind s = KUnity E) end.
      { intros kv I. destruct (proj1 (Forall_forall _ _) GA kv I) as (_ & tx & ox & s & _ & _ & _ & _ & S & KS). pr.
        unfold sels2, sels1. destruct (Nat.eq_dec (c_sel (snd kv)) fi) as [EQ|EQ].
        - rewrite EQ. exists sf2. split; [exact SF2|exact KF].
        - exists s. rewrite !nth_lset_neq by auto. auto. }
      apply unity_fold. exact UN. }
  pr.
  erewrite bind_lift in Q; [|unfold sel_add; cbn [sel_selection s_mask all_selected with_sampled with_mask of_opt rbind]; rewrite and_true; reflexivity].
  erewrite bind_ok in Q; [|unfold in_w, get_sel; pr; rewrite SF2; pr; reflexivity].
  erewrite bind_lift in Q; [|unfold sel_add; cbn [sel_selection s_mask sf2 with_sampled with_mask of_opt rbind dummy new_selector]; rewrite and_true; reflexivity].
  erewrite bind_ok in Q; [|unfold ret; reflexivity].
  erewrite bind_lift in Q; [|unfold n_selected, sel_mask; cbn [s_mask with_mask of_opt rmap]; rewrite count_true; reflexivity].
  set (sd2 := with_sampled (with_mask sd (Some (repeat true n))) true). set (sels3 := lset sels2 di sd2).
  assert (SD3 : nth_error sels3 di = Some sd2) by (apply nth_lset_eq, nth_error_Some; congruence).
  erewrite bind_ok in Q; [|unfold in_w, on_sel, bind, get_sel; pr; rewrite SD2; pr; rewrite select_unity by assumption; reflexivity]. pr. fold sd2 sels3 in Q.
  erewrite bind_ok in Q; [|unfold in_w, get_sel; pr; rewrite SD3; pr; reflexivity].
  erewrite bind_lift in Q; [|unfold sel_selection; cbn [s_mask with_mask]; pr; reflexivity].
  erewrite bind_lift in Q; [|unfold sel_selection; cbn [s_mask with_mask with_sampled sd2]; pr; reflexivity].
  erewrite bind_lift in Q; [|apply select_all; exact LR2]. erewrite bind_lift in Q; [|apply select_all; exact LR2].
  assert (KN : forall s : synth, (if Nat.ltb 0 n then match rs2 with [] => raise ValueError | _ => ret tt end else ret tt) s = (Ok tt, s)).
  { intros s. destruct (Nat.ltb 0 n) eqn:LN; [|reflexivity]. apply Nat.ltb_lt in LN. destruct rs2; [cbn in LR2; lia|reflexivity]. }
  erewrite bind_ok in Q; [|apply KN].
  set (d2 := with_sky (with_dist (with_prob (with_dist (with_spar sp o) rs) ps) rs2) th ph) in *.
  destruct (rd_rmax_fwd _ d2 g4 rm) as (o3 & RX & _); [cbn; rewrite <- (SR "r_max"%string); exact RM|].
  erewrite bind_ok in Q; [|unfold in_sp; pr; rewrite RX; reflexivity]. pr.
  assert (WF : forall z : synth, y_der z = None -> y_lum z <> None -> y_aux z = aux -> w_auxs (y_w z) = auxs' -> exists gg, read_graph (S rl0) z = (Ok gg, with_graph z gg)).
  { intros z Z1 Z2 Z3 Z4. apply (read_graph_ok E); [exact Z1|exact Z2|]. rewrite Z3, Z4. intros k i I.
    destruct (WR k i I) as (a & s & A1 & A2 & A3 & _). exists a. auto. }
  match type of Q with context [bind (read_graph (S rl0)) _ ?z] => destruct (WF z) as (gg & RG); [reflexivity|discriminate|reflexivity|reflexivity|] end.
  erewrite bind_ok in Q; [|exact RG]. clear RG WF.
  rewrite bind_get in Q. pr. erewrite bind_lift in Q; [|reflexivity]. erewrite bind_lift in Q; [|reflexivity].
  match type of Q with context [to_dict (S rl0) ?z] => destruct (to_dict_ok E (S rl0) z) as (cf & CF) end; pr; try reflexivity; try exact I.
  { unfold sels3. rewrite nth_lset_neq by auto. congruence. }
  { congruence. }
  { intros k i I. destruct (WR k i I) as (a & s & A1 & A2 & A3 & A4 & A5 & A6 & A7). cbn [w_sels] in A4. exists a, s. split; [exact A1|]. split; [exact A2|].
    unfold sels3, sels2, sels1. rewrite !nth_lset_neq by auto. exact A4. }
  erewrite bind_lift in Q; [|exact CF]. destruct (quantities_ok E n _ st2 GA) as (qs2 & QQ & QN). erewrite bind_lift in Q; [|exact QQ].
  unfold lift, pop_new in Q. cbn [pa_lum pa_sel pa_dist pa_theta pa_phi pa_known pa_uidx pa_fobs pa_flux pa_prob pa_aux pa_spaces pa_nmodel] in Q.
  rewrite !fvar_ok in Q by (rewrite repeat_length; congruence). cbn [rbind rmap] in Q.
  rewrite not_true, where_false, count_true, LR2 in Q. cbn [length] in Q. rewrite Nat.add_0_r, Nat.eqb_refl in Q. cbn [rassert rbind] in Q.
  destruct (attrs_ok E n qs2 QN) as (av & AV). rewrite AV in Q. cbn [rbind] in Q.
  destruct (spaces_ok _ _ _ SP) as (u & SU). rewrite SU in Q. cbn [rbind] in Q. injection Q as <- <-.
  eexists _, _. split; [reflexivity|]. cbn. rewrite repeat_length. split; [reflexivity|]. split; [reflexivity|]. split; [cbn; lia|]. split; reflexivity.
Qed.
End P.
