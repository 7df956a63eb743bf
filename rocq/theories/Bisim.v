(** Drawing from corresponding samplers of two worlds gives the same values, whatever
    has been left behind in the attributes that drawing overwrites. *)
From Verif Require Import Base BaseFacts Env ParamModel SelModel DistModel AuxModel AuxSpec.
Open Scope nat_scope.

(** Two programs have the same outcome if the states before correspond; the states
    after a success correspond too. *)
Definition both {S S' A B : Type} (R1 R2 : S -> S' -> Prop) (Q : A -> B -> Prop) (m : M S A) (m' : M S' B) : Prop :=
  forall s s', R1 s s' ->
    match m s, m' s' with
    | (Ok a, t), (Ok b, t') => Q a b /\ R2 t t'
    | (Err e, t), (Err e', t') => e = e'
    | _, _ => False
    end.
Section Both.
Variables S S' : Type.
Implicit Types R : S -> S' -> Prop.
Lemma both_ret R A B (Q : A -> B -> Prop) a b : Q a b -> both R R Q (ret a) (ret b).
Proof. intros H s s' HR. cbn. auto. Qed.
Lemma both_raise R1 R2 A B (Q : A -> B -> Prop) e : both R1 R2 Q (raise e) (raise e).
Proof. intros s s' HR. reflexivity. Qed.
Lemma both_lift R A (r r' : res A) : r = r' -> both R R eq (lift r) (lift r').
Proof. intros <- s s' HR. unfold lift. destruct r; auto. Qed.
Lemma both_get R : both R R R get get.
Proof. intros s s' HR. cbn. auto. Qed.
Lemma both_modify R1 R2 f f' : (forall s s', R1 s s' -> R2 (f s) (f' s')) -> both R1 R2 eq (modify f) (modify f').
Proof. intros H s s' HR. cbn. auto. Qed.
Lemma both_bind R1 R2 R3 A A' B B' (Q : A -> A' -> Prop) (P : B -> B' -> Prop) m m' k k' :
  both R1 R2 Q m m' -> (forall a a', Q a a' -> both R2 R3 P (k a) (k' a')) -> both R1 R3 P (bind m k) (bind m' k').
Proof.
  intros H K s s' HR. specialize (H s s' HR). unfold bind.
  destruct (m s) as [[a|e] t], (m' s') as [[a'|e'] t']; try easy. destruct H as [HQ HR']. now apply K.
Qed.
Lemma both_eq R1 R2 R3 A B B' (P : B -> B' -> Prop) (m : M S A) (m' : M S' A) k k' :
  both R1 R2 eq m m' -> (forall a, both R2 R3 P (k a) (k' a)) -> both R1 R3 P (bind m k) (bind m' k').
Proof. intros H K. eapply both_bind; [exact H|]. intros a a' <-. apply K. Qed.
Lemma both_weak R1 R2 R1' R2' A B (Q P : A -> B -> Prop) m m' : both R1 R2 Q m m' ->
  (forall s s', R1' s s' -> R1 s s') -> (forall s s', R2 s s' -> R2' s s') -> (forall a b, Q a b -> P a b) -> both R1' R2' P m m'.
Proof.
  intros H H1 H2 QP s s' HR. specialize (H s s' (H1 _ _ HR)). destruct (m s) as [[a|e] t], (m' s') as [[b|e'] t']; auto. destruct H. auto.
Qed.
Lemma both_use R1 R2 A B (Q : A -> B -> Prop) m m' s s' : R1 s s' -> both R1 R2 Q m m' ->
    match m s, m' s' with
    | (Ok a, t), (Ok b, t') => Q a b /\ R2 t t'
    | (Err e, t), (Err e', t') => e = e'
    | _, _ => False
    end.
Proof. intros H X. exact (X _ _ H). Qed.
Lemma both_iter R A A' (f : A -> M S unit) (f' : A' -> M S' unit) l l' (T : A -> A' -> Prop) : Forall2 T l l' ->
  (forall a a', T a a' -> both R R eq (f a) (f' a')) -> both R R eq (iterM f l) (iterM f' l').
Proof.
  intros F H. induction F; cbn; [now apply both_ret|]. eapply both_eq; [now apply H|]. intros _. exact IHF.
Qed.
Lemma both_fold R A A' B B' (Q : B -> B' -> Prop) (f : B -> A -> M S B) (f' : B' -> A' -> M S' B') l l' (T : A -> A' -> Prop) : Forall2 T l l' ->
  (forall b b' a a', Q b b' -> T a a' -> both R R Q (f b a) (f' b' a')) -> forall b b', Q b b' -> both R R Q (foldM f b l) (foldM f' b' l').
Proof.
  intros F H. induction F; cbn; intros b b' HQ; [now apply both_ret|]. eapply both_bind; [now apply H|]. intros c c' HC. now apply IHF.
Qed.
Lemma both_repeat R A (f : M S A) (f' : M S' A) n : both R R eq f f' -> both R R eq (repeatM f n) (repeatM f' n).
Proof.
  intros H. induction n as [|n IH]; cbn; [now apply both_ret|]. eapply both_eq; [exact H|]. intros a. eapply both_eq; [exact IH|]. intros l. now apply both_ret.
Qed.
End Both.

Section Bisim.
Variable E : env.
Notation V := (V E).
Notation world := (world E).
Notation sampler := (sampler E).
Notation selector := (selector E).

(** How the parameters of corresponding objects correspond. *)
Variable P : pclass V -> pobj V -> pobj V -> Prop.
Hypothesis P_get : forall c k o o', P c o o' ->
  fst (pread E c k o) = fst (pread E c k o') /\ P c (snd (pread E c k o)) (snd (pread E c k o')).
(** Corresponding samplers and selectors. *)
Variables B S : nat -> nat -> Prop.
Hypothesis B_fun : forall i i' j', B i i' -> B i j' -> i' = j'.
Hypothesis B_inj : forall i j i', B i i' -> B j i' -> i = j.
Hypothesis S_fun : forall i i' j', S i i' -> S i j' -> i' = j'.
Hypothesis S_inj : forall i j i', S i i' -> S j i' -> i = j.

Lemma P_reads c ks : forall o o', P c o o' ->
  fst (preads E c ks o) = fst (preads E c ks o') /\ P c (snd (preads E c ks o)) (snd (preads E c ks o')).
Proof.
  induction ks as [|k ks IH]; intros o o' H; cbn; [auto|]. destruct (P_get c k o o' H) as [Q1 Q2]. unfold preads in *. cbn [mapM]. unfold bind.
  destruct (pread E c k o) as [r o1], (pread E c k o') as [r' o1']. cbn [fst snd] in *. subst r'. destruct r as [v|e]; [|auto].
  destruct (IH o1 o1' Q2) as [Q3 Q4]. destruct (mapM (pread E c) ks o1) as [r2 o2], (mapM (pread E c) ks o1') as [r2' o2']. cbn [fst snd] in *. subst r2'.
  destruct r2; cbn; auto.
Qed.

(** ** Selectors *)
Record base (s s' : selector) : Prop := {
  b_kind : s_kind s = s_kind s';
  b_flags : s_fobs s = s_fobs s' /\ s_fdist s = s_fdist s' /\ s_flum s = s_flum s' /\ s_fflux s = s_fflux s';
  b_par : P (sel_class (s_kind s)) (s_par s) (s_par s');
  b_oflux : d_oflux (s_data s) = d_oflux (s_data s');
  b_sp : d_sp (s_data s) = d_sp (s_data s');
  b_dummy : s_kind s = KDummy E -> s_mask s = s_mask s' }.
(** A selector and the generator, all data agreeing; [m]: the masks too. *)
Definition sg (m : bool) (x y : selector * Rst E) : Prop :=
  base (fst x) (fst y) /\ s_data (fst x) = s_data (fst y) /\ snd x = snd y /\ (m = true -> s_mask (fst x) = s_mask (fst y)).
Lemma sg_read m k : both (sg m) (sg m) eq (read_par (E := E) k) (read_par (E := E) k).
Proof.
  intros [s g] [s' g'] (H & D & G & M). cbn in *. subst g'. destruct H as [K F Pa Of Sp Du]. assert (X := P_get _ k _ _ Pa). unfold pread in X. rewrite <- K.
  destruct (dget (sel_class (s_kind s)) k) as [d|] eqn:Hd; [|easy]. destruct X as [X1 X2].
  destruct (param_get d k (s_par s)) as [r o], (param_get d k (s_par s')) as [r' o']. cbn [fst snd] in *. subst r'.
  destruct r; [|easy]. split; [easy|]. split; [|cbn; auto]. split; cbn; auto.
Qed.
Lemma sg_store m x : both (sg m) (sg true) eq (store_mask (E := E) x) (store_mask (E := E) x).
Proof.
  intros [s g] [s' g'] (H & D & G & M). cbn in *. subst g'. split; [easy|]. split; [|cbn; auto]. destruct H. split; cbn; auto.
Qed.
Lemma sg_here m : both (sg m) (sg m) (fun s s' => base s s' /\ s_data s = s_data s' /\ (m = true -> s_mask s = s_mask s')) (here (E := E)) (here (E := E)).
Proof. intros [s g] [s' g'] (H & D & G & M). cbn in *. subst g'. split; [auto|]. split; cbn; auto. Qed.
Lemma sg_bern1 m p : both (sg m) (sg m) eq (bern1 (E := E) p) (bern1 (E := E) p).
Proof.
  intros [s g] [s' g'] (H & D & G & M). cbn in *. subst g'. unfold bern1. destruct (r_bern_ok E p); [|easy]. cbn. destruct (r_bern E p g). split; [easy|]. split; cbn; auto.
Qed.
Lemma sg_bern_vec m ps : both (sg m) (sg m) eq (bern_vec (E := E) ps) (bern_vec (E := E) ps).
Proof.
  intros [s g] [s' g'] (H & D & G & M). cbn in *. subst g'. unfold bern_vec. destruct (forallb _ ps); [|easy]. cbn. destruct (rmapdraws _ ps g). split; [easy|]. split; cbn; auto.
Qed.
Lemma sg_bern_n m p n : both (sg m) (sg m) eq (bern_n (E := E) p n) (bern_n (E := E) p n).
Proof.
  intros [s g] [s' g'] (H & D & G & M). cbn in *. subst g'. unfold bern_n. destruct (r_bern_ok E p); [|easy]. cbn. destruct (rdraws _ n g). split; [easy|]. split; cbn; auto.
Qed.
Lemma sg_read' m k A Q (f f' : V -> SM E A) : (forall v, both (sg m) (sg true) Q (f v) (f' v)) ->
  both (sg m) (sg true) Q (let! v := read_par k in f v) (let! v := read_par k in f' v).
Proof. intros H. eapply both_eq; [apply sg_read|exact H]. Qed.
Lemma sg_lift' m A (r : res A) C Q (f f' : A -> SM E C) : (forall v, both (sg m) (sg true) Q (f v) (f' v)) ->
  both (sg m) (sg true) Q (let! v := lift r in f v) (let! v := lift r in f' v).
Proof. intros H. eapply both_eq; [now apply both_lift|exact H]. Qed.
Lemma sg_draw prog n : both (sg false) (sg true) eq (sel_draw (E := E) prog n) (sel_draw (E := E) prog n).
Proof.
  intros x y H. pose proof H as (Hb & Hd & Hg & _). destruct x as [s g], y as [s' g']. cbn [fst snd] in *. unfold sel_draw.
  rewrite (bind_ok (@here E) _ (s, g) (a := s) (s1 := (s, g)) eq_refl), (bind_ok (@here E) _ (s', g') (a := s') (s1 := (s', g')) eq_refl). assert (K := b_kind _ _ Hb). rewrite <- K, <- Hd.
  assert (VS : values_source s = values_source s').
  { unfold values_source. destruct (b_flags _ _ Hb) as (-> & -> & -> & ->). now rewrite Hd. }
  rewrite <- VS. assert (DU := b_dummy _ _ Hb). clear VS K.
  destruct (s_kind s) eqn:KK.
  - eapply both_use; [exact H|]. apply sg_store.
  - cbn. split; [easy|]. split; [exact Hb|]. repeat (split; [assumption|]). cbn. auto.
  - eapply both_use; [exact H|]. destruct prog.
    + eapply both_eq; [apply sg_store|intros _]. eapply both_eq; [|intros l; apply sg_store].
      apply both_repeat. eapply both_eq; [apply sg_read|intros p]. apply sg_bern1.
    + apply sg_read'; intros p. eapply both_eq; [apply sg_bern_n|intros l]. apply sg_store.
  - eapply both_use; [exact H|]. do 1 apply sg_lift'; intros. apply sg_read'; intros. apply sg_lift'; intros. apply sg_read'; intros. apply sg_lift'; intros. apply sg_lift'; intros. apply sg_store.
  - eapply both_use; [exact H|]. apply sg_lift'; intros. apply sg_read'; intros. apply sg_lift'; intros. apply sg_store.
  - eapply both_use; [exact H|]. apply sg_lift'; intros. apply sg_read'; intros. apply sg_lift'; intros. apply sg_store.
  - eapply both_use; [exact H|]. apply sg_lift'; intros. apply sg_read'; intros. apply sg_lift'; intros. apply sg_read'; intros.
    eapply both_eq; [apply sg_bern_vec|intros l]. apply sg_store.
  - eapply both_use; [exact H|]. apply sg_lift'; intros. apply sg_read'; intros. apply sg_read'; intros. apply sg_lift'; intros. apply sg_store.
  - eapply both_use; [exact H|]. apply sg_lift'; intros. apply sg_read'; intros. apply sg_read'; intros. apply sg_lift'; intros. apply sg_store.
  - cbn [fst snd] in *. subst g'. destruct (draw (s_data s) n g) as [[m|e] g2]; [|easy]. split; [easy|].
    split; [|cbn; auto]. destruct Hb. split; cbn; auto.
Qed.

(** ** Samplers *)
(** What is known to agree so far, by sampler: the spatial values; the distances and
    luminosities given to the selector; the observed values given to it; its mask.
    Last, the samplers whose results are not complete yet. *)
Record kn := Kn { kF : nat -> Prop; kG : nat -> Prop; kO : nat -> Prop; kM : nat -> Prop; kZ : nat -> Prop }.
Definition below (i : nat) (p p' : kn) : Prop := forall j, j <> i ->
  (kF p' j -> kF p j) /\ (kG p' j -> kG p j) /\ (kO p' j -> kO p j) /\ (kM p' j -> kM p j) /\ (kZ p j -> kZ p' j).

Record arel (p : kn) (i : nat) (a a' : sampler) : Prop := {
  ar_st : a_st a = a_st a';
  ar_issec : a_issec (a_ln a) = a_issec (a_ln a');
  ar_sel : S (a_sel (a_ln a)) (a_sel (a_ln a'));
  ar_secs : Forall2 (fun x y => fst x = fst y /\ B (snd x) (snd y)) (a_sec (a_ln a)) (a_sec (a_ln a'));
  ar_par : P (k_params (kind_of a)) (a_par (a_dy a)) (a_par (a_dy a'));
  ar_sampled : a_sampled (a_dy a) = a_sampled (a_dy a');
  ar_true : a_true (a_dy a) = a_true (a_dy a');
  ar_obs : a_obs (a_dy a) = a_obs (a_dy a');
  ar_lum : a_lum (a_dy a) = a_lum (a_dy a');
  ar_sp : kF p i -> a_sp (a_dy a) = a_sp (a_dy a');
  ar_prob : a_sampled (a_dy a) = true -> ~ kZ p i -> a_prob (a_dy a) = a_prob (a_dy a') }.
Record srel (p : kn) (i : nat) (a : sampler) (s s' : selector) : Prop := {
  sr_base : base s s';
  sr_dist : a_usesd (a_st a) = false \/ kG p i -> d_dist (s_data s) = d_dist (s_data s');
  sr_lum : a_lum (a_dy a) = None \/ kG p i -> d_lum (s_data s) = d_lum (s_data s');
  sr_obs : kO p i -> d_oval (s_data s) = d_oval (s_data s');
  sr_mask : (a_sampled (a_dy a) = true /\ ~ kZ p i) \/ kM p i -> s_mask s = s_mask s' }.
Record R (p : kn) (w w' : world) : Prop := {
  R_g : w_g w = w_g w';
  R_n : w_n w = w_n w';
  R_a : forall i i', B i i' -> exists a a' s s', at_ w i a /\ at_ w' i' a' /\
    nth_error (w_sels w) (a_sel (a_ln a)) = Some s /\ nth_error (w_sels w') (a_sel (a_ln a')) = Some s' /\
    arel p i a a' /\ srel p i a s s' }.
(** The same, and [k], [k'] are the selectors of [i], [i']. *)
Definition Rk (p : kn) (i i' k k' : nat) (w w' : world) : Prop :=
  R p w w' /\ (exists a, at_ w i a /\ a_sel (a_ln a) = k) /\ (exists a', at_ w' i' a' /\ a_sel (a_ln a') = k').

Lemma below_arel i p p' j a a' : below i p p' -> j <> i -> arel p j a a' -> arel p' j a a'.
Proof. intros H N []. destruct (H j N) as (HF & HG & HO & HM & HZ). split; auto. Qed.
Lemma below_srel i p p' j a s s' : below i p p' -> j <> i -> srel p j a s s' -> srel p' j a s s'.
Proof. intros H N []. destruct (H j N) as (HF & HG & HO & HM & HZ). split; intuition. Qed.
Lemma below_R p p' w w' : (forall j, below j p p') -> R p w w' -> R p' w w'.
Proof.
  intros H [Hg Hn Ha]. split; auto. intros j j' Hj. destruct (Ha j j' Hj) as (a & a' & s & s' & A1 & A2 & S1 & S2 & X & Y).
  exists a, a', s, s'. repeat (split; [assumption|]). assert (N : j <> Datatypes.S j) by lia.
  split; [apply (below_arel (Datatypes.S j) p)|apply (below_srel (Datatypes.S j) p)]; auto.
Qed.
Lemma Rk_R p i i' k k' w w' : Rk p i i' k k' w w' -> R p w w'. Proof. now intros []. Qed.

Lemma both_sampler p R3 A C (Q : A -> C -> Prop) i i' m m' : B i i' ->
  (forall a a', arel p i a a' -> both (Rk p i i' (a_sel (a_ln a)) (a_sel (a_ln a'))) R3 Q (m a) (m' a')) ->
  both (R p) R3 Q (bind (get_aux i) m) (bind (get_aux i') m').
Proof.
  intros Hi H w w' HR. destruct (R_a _ _ _ HR i i' Hi) as (a & a' & s & s' & A1 & A2 & S1 & S2 & X & Y).
  unfold bind, get_aux. rewrite A1, A2. cbn. apply H; auto. split; [auto|]. split; eauto.
Qed.
Lemma both_samplerk p R3 A C (Q : A -> C -> Prop) i i' k k' m m' : B i i' ->
  (forall a a', arel p i a a' -> a_sel (a_ln a) = k -> a_sel (a_ln a') = k' -> both (Rk p i i' k k') R3 Q (m a) (m' a')) ->
  both (Rk p i i' k k') R3 Q (bind (get_aux i) m) (bind (get_aux i') m').
Proof.
  intros Hi H w w' HR. pose proof HR as (HR0 & (b & Hb & Kb) & (b' & Hb' & Kb')).
  destruct (R_a _ _ _ HR0 i i' Hi) as (a & a' & s & s' & A1 & A2 & S1 & S2 & X & Y).
  unfold bind, get_aux. rewrite A1, A2. cbn. assert (a = b) by congruence. assert (a' = b') by congruence. subst b b'. apply H; auto.
Qed.

Lemma R_put p p' w w' i i' a a' b b' : B i i' -> R p w w' -> at_ w i a -> at_ w' i' a' ->
  a_ln b = a_ln a -> a_ln b' = a_ln a' ->
  (forall s s', arel p i a a' -> srel p i a s s' -> arel p' i b b' /\ srel p' i b s s') -> below i p p' ->
  R p' (w_set_auxs (lset (w_auxs w) i b) w) (w_set_auxs (lset (w_auxs w') i' b') w').
Proof.
  intros Hi HR A1 A2 L1 L2 H Hb. destruct HR as [Hg Hn Ha]. split; auto. intros j j' Hj.
  destruct (Ha j j' Hj) as (c & c' & s & s' & C1 & C2 & S1 & S2 & X & Y). destruct (Nat.eq_dec j i) as [->|N].
  - assert (j' = i') by eauto. subst j'. assert (c = a) by (unfold at_ in *; congruence). assert (c' = a') by (unfold at_ in *; congruence). subst c c'.
    exists b, b', s, s'. unfold at_ in *. cbn. split; [apply nth_lset_eq, nth_error_Some; congruence|]. split; [apply nth_lset_eq, nth_error_Some; congruence|].
    rewrite L1, L2. split; [auto|]. split; auto.
  - assert (N' : j' <> i') by (intros ->; apply N; eauto).
    exists c, c', s, s'. unfold at_ in *. cbn. rewrite !nth_lset_neq; auto. repeat (split; [assumption|]).
    split; [eapply below_arel|eapply below_srel]; eauto.
Qed.
Lemma both_upd p p' i i' f f' : B i i' ->
  (forall a a' s s', arel p i a a' -> srel p i a s s' -> arel p' i (upd_dy f a) (upd_dy f' a') /\ srel p' i (upd_dy f a) s s') ->
  below i p p' -> both (R p) (R p') eq (upd_aux i f) (upd_aux i' f').
Proof.
  intros Hi H Hb w w' HR. destruct (R_a _ _ _ HR i i' Hi) as (a & a' & s & s' & A1 & A2 & S1 & S2 & X & Y).
  unfold upd_aux, bind, get_aux. rewrite A1, A2. cbn. split; [easy|]. eapply R_put; eauto.
Qed.
Lemma both_updk p p' i i' k k' f f' : B i i' ->
  (forall a a' s s', arel p i a a' -> srel p i a s s' -> arel p' i (upd_dy f a) (upd_dy f' a') /\ srel p' i (upd_dy f a) s s') ->
  below i p p' -> both (Rk p i i' k k') (Rk p' i i' k k') eq (upd_aux i f) (upd_aux i' f').
Proof.
  intros Hi H Hb w w' (HR & (b & A1 & K1) & (b' & A2 & K2)). 
  unfold upd_aux, bind, get_aux. rewrite A1, A2. cbn. split; [easy|]. split; [eapply R_put; eauto|]. unfold at_ in *. cbn.
  split; eexists; (split; [apply nth_lset_eq, nth_error_Some; congruence|assumption]).
Qed.

(** A pair of selector methods that keeps agreeing attributes in agreement. *)
Record tame (s s' t t' : selector) : Prop := {
  t_base : base s s' -> base t t';
  t_dist : d_dist (s_data s) = d_dist (s_data s') -> d_dist (s_data t) = d_dist (s_data t');
  t_lum : d_lum (s_data s) = d_lum (s_data s') -> d_lum (s_data t) = d_lum (s_data t');
  t_obs : d_oval (s_data s) = d_oval (s_data s') -> d_oval (s_data t) = d_oval (s_data t');
  t_mask : s_mask s = s_mask s' -> s_mask t = s_mask t' }.
Lemma tame_srel p i a s s' t t' : tame s s' t t' -> srel p i a s s' -> srel p i a t t'.
Proof. intros [] []. split; auto. Qed.
Lemma R_put_sel p p' w w' i i' a a' s s' t t' : B i i' -> R p w w' -> at_ w i a -> at_ w' i' a' ->
  nth_error (w_sels w) (a_sel (a_ln a)) = Some s -> nth_error (w_sels w') (a_sel (a_ln a')) = Some s' ->
  tame s s' t t' -> (arel p i a a' -> srel p i a s s' -> arel p' i a a' /\ srel p' i a t t') -> below i p p' ->
  R p' (w_set_sels (lset (w_sels w) (a_sel (a_ln a)) t) w) (w_set_sels (lset (w_sels w') (a_sel (a_ln a')) t') w').
Proof.
  intros Hi HR A1 A2 K1 K2 T H Hb. destruct HR as [Hg Hn Ha]. split; auto. intros j j' Hj.
  destruct (Ha i i' Hi) as (d & d' & x & x' & D1 & D2 & X1 & X2 & Xi & Yi).
  assert (d = a) by (unfold at_ in *; congruence). assert (d' = a') by (unfold at_ in *; congruence). subst d d'.
  assert (x = s) by congruence. assert (x' = s') by congruence. subst x x'.
  destruct (Ha j j' Hj) as (c & c' & u & u' & C1 & C2 & S1 & S2 & X & Y). destruct (Nat.eq_dec j i) as [->|N].
  - assert (j' = i') by eauto. subst j'. assert (c = a) by (unfold at_ in *; congruence). assert (c' = a') by (unfold at_ in *; congruence). subst c c'.
    exists a, a', t, t'. cbn. repeat (split; [assumption|]). rewrite !nth_lset_eq by (apply nth_error_Some; congruence). split; [easy|]. split; [easy|]. auto.
  - exists c, c'. destruct (Nat.eq_dec (a_sel (a_ln c)) (a_sel (a_ln a))) as [E1|E1].
    + assert (E2 : a_sel (a_ln c') = a_sel (a_ln a')).
      { apply (S_fun (a_sel (a_ln c))); [apply (ar_sel _ _ _ _ X)|]. rewrite E1. apply (ar_sel _ _ _ _ Xi). }
      exists t, t'. cbn. rewrite E1, E2. repeat (split; [assumption|]). rewrite !nth_lset_eq by (apply nth_error_Some; congruence).
      split; [easy|]. split; [easy|]. split; [eapply below_arel; eauto|]. rewrite E1 in S1. rewrite E2 in S2.
      assert (u = s) by congruence. assert (u' = s') by congruence. subst u u'. eapply below_srel; eauto. eapply tame_srel; eauto.
    + assert (E2 : a_sel (a_ln c') <> a_sel (a_ln a')).
      { intros E2. apply E1. apply (S_inj _ _ (a_sel (a_ln c'))); [apply (ar_sel _ _ _ _ X)|]. rewrite E2. apply (ar_sel _ _ _ _ Xi). }
      exists u, u'. cbn. rewrite !nth_lset_neq by auto. repeat (split; [assumption|]). split; [eapply below_arel|eapply below_srel]; eauto.
Qed.
Lemma both_sel p p' i i' k k' f f' : B i i' -> (forall s s', tame s s' (f s) (f' s')) ->
  (forall a a' s s', arel p i a a' -> srel p i a s s' -> arel p' i a a' /\ srel p' i a (f s) (f' s')) -> below i p p' ->
  both (Rk p i i' k k') (Rk p' i i' k k') eq (upd_sel k f) (upd_sel k' f').
Proof.
  intros Hi T H Hb w w' (HR & (b & B1 & K1) & (b' & B2 & K2)).
  destruct (R_a _ _ _ HR i i' Hi) as (a & a' & s & s' & A1 & A2 & S1 & S2 & X & Y).
  assert (a = b) by (unfold at_ in *; congruence). assert (a' = b') by (unfold at_ in *; congruence). subst b b' k k'.
  unfold upd_sel, bind, get_sel. rewrite S1, S2. cbn. split; [easy|]. split; [eapply R_put_sel; eauto|]. split; eauto.
Qed.

Lemma below_refl i p : below i p p. Proof. intros j N. tauto. Qed.
Lemma R_gens p w w' g : R p w w' -> R p (w_set_gens g w) (w_set_gens g w').
Proof. intros [Hg Hn Ha]. now split. Qed.
Lemma Rk_gens p i i' k k' w w' g : Rk p i i' k k' w w' -> Rk p i i' k k' (w_set_gens g w) (w_set_gens g w').
Proof. intros (HR & X & Y). split; [now apply R_gens|]. now split. Qed.
Lemma Rk_log p i i' k k' w w' j j' : Rk p i i' k k' w w' -> Rk p i i' k k' (w_add_log j w) (w_add_log j' w').
Proof. intros ([Hg Hn Ha] & X & Y). split; [now split|]. now split. Qed.

Lemma both_reads p i i' k k' ks : B i i' -> both (Rk p i i' k k') (Rk p i i' k k') eq (aux_reads i ks) (aux_reads i' ks).
Proof.
  intros Hi w w' (HR & (b & A1 & K1) & (b' & A2 & K2)).
  destruct (R_a _ _ _ HR i i' Hi) as (c & c' & s & s' & C1 & C2 & S1 & S2 & X & Y).
  assert (c = b) by (unfold at_ in *; congruence). assert (c' = b') by (unfold at_ in *; congruence). subst c c'.
  unfold aux_reads, upd_aux, bind, get_aux. rewrite A1, A2. cbn [of_opt].
  assert (KK : kind_of b' = kind_of b) by (unfold kind_of; now rewrite (ar_st _ _ _ _ X)). rewrite KK.
  destruct (P_reads _ ks _ _ (ar_par _ _ _ _ X)) as [Q1 Q2].
  destruct (preads E (k_params (kind_of b)) ks (a_par (a_dy b))) as [r o], (preads E (k_params (kind_of b)) ks (a_par (a_dy b'))) as [r' o']. cbn [fst snd] in *. subst r'.
  rewrite A1, A2. cbn [of_opt put_aux modify]. unfold lift. destruct r as [l|e]; [|easy]. split; [easy|].
  split; [apply (R_put p p w w' i i' b b' (upd_dy (dy_par o) b) (upd_dy (dy_par o') b')); auto using below_refl|].
  - intros t t' U W. destruct U, W. split; split; cbn; auto.
  - unfold at_ in *. cbn. split; eexists; (split; [apply nth_lset_eq, nth_error_Some; congruence|assumption]).
Qed.

Lemma sec_eq p w w' l l' : R p w w' -> Forall2 (fun x y => fst x = fst y /\ B (snd x) (snd y)) l l' ->
  sec_values (w_auxs w) l = sec_values (w_auxs w') l'.
Proof.
  intros HR. induction 1 as [|[k j] [k' j'] l l' [H1 H2] HF IH]; cbn; [auto|]. cbn in *. subst k'.
  destruct (R_a _ _ _ HR j j' H2) as (a & a' & s & s' & A1 & A2 & _ & _ & X & _). unfold at_ in *. rewrite A1, A2, IH, (ar_true _ _ _ _ X), (ar_obs _ _ _ _ X). reflexivity.
Qed.
Lemma view_eq p w w' i a a' : R p w w' -> arel p i a a' -> kF p i -> view_of (w_auxs w) a = view_of (w_auxs w') a'.
Proof.
  intros HR X HF. unfold view_of. rewrite (ar_sp _ _ _ _ X HF), (ar_lum _ _ _ _ X), (ar_true _ _ _ _ X), (ar_obs _ _ _ _ X).
  f_equal. eapply sec_eq; [eassumption|apply (ar_secs _ _ _ _ X)].
Qed.
Lemma kind_eq p i a a' : arel p i a a' -> kind_of a' = kind_of a.
Proof. intros X. unfold kind_of. now rewrite (ar_st _ _ _ _ X). Qed.

Lemma both_gens p i i' k k' A (f : view E -> gens E -> res A * gens E) a a' : arel p i a a' -> kF p i ->
  both (Rk p i i' k k') (Rk p i i' k k') eq
    (fun w => let (r, g) := f (view_of (w_auxs w) a) (w_g w, w_n w) in (r, w_set_gens g w))
    (fun w => let (r, g) := f (view_of (w_auxs w) a') (w_g w, w_n w) in (r, w_set_gens g w)).
Proof.
  intros X HF w w' HR. rewrite <- (view_eq p w w' i a a' (Rk_R _ _ _ _ _ _ _ HR) X HF), <- (R_g _ _ _ (Rk_R _ _ _ _ _ _ _ HR)), <- (R_n _ _ _ (Rk_R _ _ _ _ _ _ _ HR)).
  destruct (f (view_of (w_auxs w) a) (w_g w, w_n w)) as [[r|e] g]; [|easy]. split; [easy|]. now apply Rk_gens.
Qed.

Lemma both_true p i i' k k' n : B i i' -> kF p i -> both (Rk p i i' k k') (Rk p i i' k k') eq (run_true i n) (run_true i' n).
Proof.
  intros Hi HF. unfold run_true. apply both_samplerk; auto. intros a a' X _ _. rewrite (kind_eq _ _ _ _ X).
  eapply both_eq; [apply both_modify; intros w w' H; apply Rk_log, H|intros _].
  eapply both_eq; [now apply both_reads|intros vals].
  apply both_samplerk; auto. intros b b' Y _ _.
  eapply both_eq; [apply (both_gens p i i' k k' _ (fun v g => k_true (kind_of a) vals v n g) b b' Y HF)|].
  intros [l|]; [|now apply both_ret]. apply both_updk; auto using below_refl.
  intros c c' s s' U W. destruct U, W. split; split; cbn; auto.
Qed.
Lemma both_obs p i i' k k' n : B i i' -> kF p i -> both (Rk p i i' k k') (Rk p i i' k k') eq (run_obs i n) (run_obs i' n).
Proof.
  intros Hi HF. unfold run_obs. apply both_samplerk; auto. intros a a' X _ _. rewrite (kind_eq _ _ _ _ X).
  eapply both_eq; [now apply both_reads|intros vals].
  apply both_samplerk; auto. intros b b' Y _ _.
  eapply both_eq; [apply (both_gens p i i' k k' _ (fun v g => k_obs (kind_of a) vals v n g) b b' Y HF)|].
  intros [l|]; [|now apply both_ret]. apply both_updk; auto using below_refl.
  intros c c' s s' U W. destruct U, W. split; split; cbn; auto.
Qed.

(** Knowledge after a step. *)
Definition addF i p := Kn (fun j => kF p j \/ j = i) (kG p) (kO p) (kM p) (kZ p).
Definition addG i p := Kn (kF p) (fun j => kG p j \/ j = i) (kO p) (kM p) (kZ p).
Definition addO i p := Kn (kF p) (kG p) (fun j => kO p j \/ j = i) (kM p) (kZ p).
Definition addM i p := Kn (kF p) (kG p) (kO p) (fun j => kM p j \/ j = i) (kZ p).
Definition addZ i p := Kn (kF p) (kG p) (kO p) (kM p) (fun j => kZ p j \/ j = i).
Ltac bel := intros ?j ?N; cbn; tauto.

Lemma both_prob p i i' k k' : B i i' -> kF p i -> kM p i ->
  both (Rk (addZ i p) i i' k k') (Rk p i i' k k') eq (run_prob i) (run_prob i').
Proof.
  intros Hi HF HM. unfold run_prob. apply both_samplerk; auto. intros a a' X _ _. rewrite (kind_eq _ _ _ _ X).
  eapply both_eq; [now apply both_reads|intros vals].
  apply both_samplerk; auto. intros b b' Y _ _. intros w w' HR. unfold bind, get. rewrite <- (view_eq _ w w' i b b' (Rk_R _ _ _ _ _ _ _ HR) Y HF).
  unfold lift. destruct (k_prob (kind_of a) vals (view_of (w_auxs w) b)) as [x|e]; [|easy].
  revert w w' HR. apply both_updk; auto.
  - intros c c' s s' U W. destruct U, W. split; split; cbn; cbn in *; auto.
  - bel.
Qed.

Lemma both_draw_sel p i i' k k' prog n : B i i' -> kG p i -> kO p i ->
  both (Rk p i i' k k') (Rk (addM i p) i i' k k') eq (on_sel k (@sel_draw E prog n)) (on_sel k' (@sel_draw E prog n)).
Proof.
  intros Hi HG HO w w' (HR & (b & A1 & K1) & (b' & A2 & K2)).
  destruct (R_a _ _ _ HR i i' Hi) as (c & c' & s & s' & C1 & C2 & S1 & S2 & X & Y).
  assert (c = b) by (unfold at_ in *; congruence). assert (c' = b') by (unfold at_ in *; congruence). subst c c' k k'.
  unfold on_sel, bind, get_sel. rewrite S1, S2. cbn [of_opt].
  assert (SG : sg false (s, w_g w) (s', w_g w')).
  { destruct Y. split; [auto|]. split; [|split; [apply (R_g _ _ _ HR)|easy]]. cbn. destruct sr_base0.
    destruct (s_data s), (s_data s'). cbn in *. subst. rewrite sr_dist0, sr_lum0, sr_obs0; auto. }
  assert (T := sg_draw prog n _ _ SG).
  destruct (sel_draw prog n (s, w_g w)) as [[[]|e] [t g]] eqn:D1, (sel_draw prog n (s', w_g w')) as [[[]|e'] [t' g']] eqn:D2; try easy.
  destruct T as [_ (TB & TD & TG & TM)]. cbn [fst snd] in *. subst g'. split; [easy|].
  rewrite <- (R_n _ _ _ HR). apply Rk_gens. split; [|split; eauto]. eapply R_put_sel; eauto.
  - split; intros; auto; now rewrite TD.
  - intros U W. split; [destruct U; split; auto|]. split; intros; auto; try now rewrite TD.
  - bel.
Qed.

Definition Ra p i i' a a' (w w' : world) : Prop := R p w w' /\ at_ w i a /\ at_ w' i' a'.
Lemma both_samplera p R3 A C (Q : A -> C -> Prop) i i' m m' : B i i' ->
  (forall a a', arel p i a a' -> both (Ra p i i' a a') R3 Q (m a) (m' a')) ->
  both (R p) R3 Q (bind (get_aux i) m) (bind (get_aux i') m').
Proof.
  intros Hi H w w' HR. destruct (R_a _ _ _ HR i i' Hi) as (a & a' & s & s' & A1 & A2 & S1 & S2 & X & Y).
  unfold bind, get_aux. rewrite A1, A2. cbn. apply H; auto. now split.
Qed.
Lemma set_sel_set (w : world) k x y : w_set_sels (lset (w_sels (w_set_sels (lset (w_sels w) k x) w)) k y) (w_set_sels (lset (w_sels w) k x) w) = w_set_sels (lset (w_sels w) k y) w.
Proof.
  unfold w_set_sels. cbn. f_equal. generalize (w_sels w). intros l. revert k. induction l as [|z l IH]; intros [|k]; cbn; auto. now rewrite IH.
Qed.
Lemma both_pre p i i' a a' : B i i' -> arel p i a a' -> kF p i ->
  both (Ra p i i' a a') (Rk (addG i p) i i' (a_sel (a_ln a)) (a_sel (a_ln a'))) eq (aux_pre a) (aux_pre a').
Proof.
  intros Hi X HF w w' (HR & A1 & A2).
  destruct (R_a _ _ _ HR i i' Hi) as (c & c' & s & s' & C1 & C2 & S1 & S2 & _ & Y).
  assert (c = a) by (unfold at_ in *; congruence). assert (c' = a') by (unfold at_ in *; congruence). subst c c'.
  assert (N1 : a_sel (a_ln a) < length (w_sels w)) by (apply nth_error_Some; congruence).
  assert (N2 : a_sel (a_ln a') < length (w_sels w')) by (apply nth_error_Some; congruence).
  assert (G0 : forall t t', tame s s' t t' -> d_dist (s_data t) = d_dist (s_data t') -> d_lum (s_data t) = d_lum (s_data t') ->
    Rk (addG i p) i i' (a_sel (a_ln a)) (a_sel (a_ln a')) (w_set_sels (lset (w_sels w) (a_sel (a_ln a)) t) w) (w_set_sels (lset (w_sels w') (a_sel (a_ln a')) t') w')).
  { intros t t' T D L. split; [|split; eauto]. eapply R_put_sel; eauto; [|bel]. intros U W. split; [destruct U; split; auto|].
    apply (tame_srel _ _ _ _ _ _ _ T) in W. destruct W. split; auto. }
  unfold aux_pre. rewrite <- (ar_st _ _ _ _ X), <- (ar_sp _ _ _ _ X HF), <- (ar_lum _ _ _ _ X).
  unfold bind. destruct (a_usesd (a_st a)) eqn:UD.
  - destruct (a_sp (a_dy a)) as [sp|] eqn:SP; [|easy]. unfold upd_sel, bind, get_sel. rewrite S1, S2. cbn [of_opt put_sel modify]. destruct (a_lum (a_dy a)) as [l|] eqn:LU.
    + cbn [w_sels w_set_sels]. rewrite !nth_lset_eq by auto. cbn [of_opt]. split; [easy|]. rewrite !set_sel_set. apply G0; [|easy|easy]. split; cbn; auto.
      intros []. split; cbn; auto.
    + cbn. split; [easy|]. apply G0; [|easy|]. { split; cbn; auto. intros []. split; cbn; auto. } cbn. apply (sr_lum _ _ _ _ _ Y). auto.
  - cbn [ret]. destruct (a_lum (a_dy a)) as [l|] eqn:LU.
    + unfold upd_sel, bind, get_sel. rewrite S1, S2. cbn. split; [easy|]. apply G0; [|cbn; apply (sr_dist _ _ _ _ _ Y); auto|easy]. split; cbn; auto. intros []. split; cbn; auto.
    + cbn. split; [easy|]. split; [|split; eauto]. destruct HR as [Hg Hn Ha]. split; auto. intros j j' Hj.
      destruct (Nat.eq_dec j i) as [->|N].
      * assert (j' = i') by eauto. subst j'. exists a, a', s, s'. repeat (split; [assumption|]). split; [destruct X; split; auto|]. destruct Y. split; auto.
      * destruct (Ha j j' Hj) as (c & c' & u & u' & D1 & D2 & U1 & U2 & Xj & Yj). exists c, c', u, u'. repeat (split; [assumption|]).
        split; [eapply (below_arel i); eauto|eapply (below_srel i); eauto]; bel.
Qed.

Lemma both_finish p i i' prog n : B i i' -> kF p i -> kG p i ->
  both (R p) (R p) eq (aux_finish prog i n) (aux_finish prog i' n).
Proof.
  intros Hi HF HG w w' HR. destruct (R_a _ _ _ HR i i' Hi) as (a & a' & s & s' & A1 & A2 & _).
  assert (H : Rk p i i' (a_sel (a_ln a)) (a_sel (a_ln a')) w w') by (split; [auto|split; eauto]). generalize dependent (a_sel (a_ln a)). generalize (a_sel (a_ln a')).
  intros k' k H. clear HR A1 A2 s s' a a'. revert w w' H. fold (both (Rk p i i' k k') (R p) (@eq unit) (aux_finish prog i n) (aux_finish prog i' n)).
  unfold aux_finish. eapply both_eq; [now apply both_true|intros _].
  apply both_samplerk; auto. intros a1 a1' X1 _ _. rewrite <- (ar_st _ _ _ _ X1), <- (ar_true _ _ _ _ X1).
  eapply both_eq with (R2 := Rk p i i' k k').
  { destruct (a_observed (a_st a1)); [now apply both_obs|]. apply both_updk; auto using below_refl. intros c c' s s' U W. destruct U, W. split; split; cbn; auto. }
  intros _. apply both_samplerk; auto. intros a2 a2' X2 K2 K2'. rewrite K2, K2', <- (ar_obs _ _ _ _ X2), <- (ar_true _ _ _ _ X2).
  eapply both_eq with (R2 := Rk (addO i p) i i' k k').
  { assert (T : forall s s', tame s s' (sel_set_obs (a_obs (a_dy a2)) s) (sel_set_obs (a_obs (a_dy a2)) s')).
    { intros s s'. split; cbn; auto. intros []. split; cbn; auto. }
    apply both_sel; auto; [|bel]. intros c c' s s' U W. apply (tame_srel _ _ _ _ _ _ _ (T s s')) in W. split; [destruct U; split; cbn; auto|]. destruct W. split; cbn; auto. }
  intros _. eapply both_eq; [now apply both_lift|intros _]. eapply both_eq; [now apply both_lift|intros _].
  eapply both_eq with (R2 := Rk (addZ i (addO i p)) i i' k k').
  { apply both_updk; auto; [|bel]. intros c c' s s' U W. destruct U, W. split; split; cbn in *; auto; intros; try (exfalso; tauto). destruct H as [[_ H]|H]; [exfalso; tauto|auto]. }
  intros _. eapply both_eq; [apply both_draw_sel; cbn; auto|intros _].
  eapply both_weak; [apply (both_prob (addM i (addO i p)) i i' k k'); cbn; auto| | |auto].
  - intros w w' H. exact H.
  - intros w w' H. apply Rk_R in H. eapply below_R; [|exact H]. intros j. bel.
Qed.

Theorem both_draw prog n fuel : forall p i i', B i i' -> kF p i ->
  both (R p) (R p) eq (aux_draw prog fuel i n) (aux_draw prog fuel i' n).
Proof.
  induction fuel as [|fuel IH]; intros p i i' Hi HF; [apply both_raise|]. cbn [aux_draw].
  apply both_samplera; auto. intros a a' X. rewrite <- (ar_sampled _ _ _ _ X), <- (ar_sp _ _ _ _ X HF).
  destruct (a_sampled (a_dy a)); [intros w w' (HR & _); cbn; auto|].
  eapply both_eq; [now apply both_pre|intros _].
  eapply both_eq with (R2 := R (addG i p)).
  - eapply both_weak; [eapply (both_iter _ _ (R (addG i p)))| | |]; [apply (ar_secs _ _ _ _ X)| |intros w w' H; now apply Rk_R in H|auto|auto].
    intros [k j] [k' j'] [_ Hj]. cbn in Hj. cbn [snd]. apply both_samplera; auto. intros b b' Y. rewrite <- (ar_issec _ _ _ _ Y).
    destruct (a_issec (a_ln b)); [|apply both_raise]. destruct (a_sp (a_dy a)) as [sp|]; [|apply both_raise].
    eapply both_weak with (R1 := R (addG i p)) (R2 := R (addF j (addG i p))) (Q := eq); [| intros w w' [H _]; exact H| intros w w' H; eapply below_R; [|exact H]; intros x; bel|auto].
    eapply both_eq with (R2 := R (addF j (addG i p))); [|intros _; apply IH; cbn; auto].
    apply both_upd; auto; [|bel]. intros c c' s s' U W. destruct U, W. split; split; cbn; auto.
  - intros _. eapply both_weak; [apply (both_finish (addG i p)); cbn; auto|auto| |auto].
    intros w w' H. eapply below_R; [|exact H]. intros x. bel.
Qed.
End Bisim.
