(** Giving a sampler a selector of its own. *)
From Verif Require Import Base BaseFacts Env ParamModel SelModel DistModel AuxModel AuxSpec AuxProofs AuxMore.
Open Scope list_scope.

Section Choose.
Variable E : env.
Notation world := (world E).

Lemma set_selection_ok i sel (w w1 : world) : set_selection i sel w = (Ok tt, w1) ->
  exists a, at_ w i a /\ at_ w1 i (Sampler (a_st a) (ALink (a_sec (a_ln a)) (a_issec (a_ln a)) (a_parents (a_ln a)) sel) (a_dy a)) /\
    (forall j, j <> i -> nth_error (w_auxs w1) j = nth_error (w_auxs w) j) /\
    w_sels w1 = w_sels w /\ w_g w1 = w_g w /\ w_n w1 = w_n w /\ w_log w1 = w_log w.
Proof.
  unfold set_selection, get_aux, put_aux, modify, bind. destruct (nth_error (w_auxs w) i) as [a|] eqn:A; cbn; [|discriminate].
  intros H. injection H as <-. exists a. split; [exact A|]. split; [|split].
  - unfold at_. cbn. apply nth_lset_eq. apply nth_error_Some. congruence.
  - intros j N. cbn. apply nth_lset_neq. congruence.
  - easy.
Qed.
Lemma set_selection_runs i sel (w : world) a : at_ w i a -> exists w1, set_selection i sel w = (Ok tt, w1).
Proof. unfold at_, set_selection, get_aux, put_aux, modify, bind. intros ->. cbn. eauto. Qed.
Lemma set_selection_back i sel (w w1 : world) j b : set_selection i sel w = (Ok tt, w1) -> at_ w1 j b ->
  exists a, at_ w j a /\ a_sec (a_ln a) = a_sec (a_ln b) /\ a_dy a = a_dy b.
Proof.
  intros H B. destruct (set_selection_ok _ _ _ _ H) as (a & A & A1 & O & _).
  destruct (Nat.eq_dec j i) as [->|N].
  - unfold at_ in *. rewrite A1 in B. injection B as <-. exists a. easy.
  - exists b. split; [|easy]. unfold at_ in *. now rewrite <- (O j N).
Qed.
Lemma set_selection_depends i sel (w w1 : world) j k : set_selection i sel w = (Ok tt, w1) -> depends w1 j k -> depends w j k.
Proof.
  intros H (b & key & B & I). destruct (set_selection_back _ _ _ _ _ _ H B) as (a & A & S & _). exists a, key. split; [exact A|now rewrite S].
Qed.
Lemma set_selection_reaches i sel (w w1 : world) j k : set_selection i sel w = (Ok tt, w1) -> reaches w1 j k -> reaches w j k.
Proof. intros H R. induction R; [constructor|]. econstructor; [eapply set_selection_depends|]; eauto. Qed.
Lemma chosen_judges prog fuel size i sel (w w1 w2 : world) :
  acyclic w -> (forall j, reaches w i j -> ~ sampled w j) ->
  set_selection i sel w = (Ok tt, w1) -> own_selectors w1 -> aux_draw prog fuel i size w1 = (Ok tt, w2) ->
  exists a s0 g0 s1 g1, at_ w2 i a /\ filled size a /\ d_oval (s_data s0) = a_obs (a_dy a) /\
    sel_draw prog size (s0, g0) = (Ok tt, (s1, g1)) /\ nth_error (w_sels w2) sel = Some s1.
Proof.
  intros AC F S O H.
  assert (AC1 : acyclic w1).
  { destruct AC as [r R]. exists r. intros j k D. apply R. eapply set_selection_depends; eauto. }
  assert (F1 : forall j, reaches w1 i j -> ~ sampled w1 j).
  { intros j R (b & B & Sb). destruct (set_selection_back _ _ _ _ _ _ S B) as (a & A & _ & D).
    apply (F j); [eapply set_selection_reaches; eauto|]. exists a. split; [exact A|]. now rewrite D. }
  destruct (fresh_draw _ _ _ _ _ _ _ AC1 F1 H i (reaches_refl _ _)) as (a & A & _ & Fi & Sel).
  destruct (Sel O) as (s0 & g0 & s1 & g1 & H1 & H2 & H3). exists a, s0, g0, s1, g1. split; [exact A|]. split; [exact Fi|]. split; [exact H1|]. split; [exact H2|].
  destruct (draw_exactly _ _ _ _ _ _ _ AC1 H) as (t & D & _).
  destruct (set_selection_ok _ _ _ _ S) as (a0 & _ & A1 & _).
  destruct (wiring_at _ _ _ _ _ (dr_wiring D) A1) as (a' & A' & _ & L). unfold at_ in *. rewrite A in A'. injection A' as <-.
  cbn in L. rewrite L in H3. exact H3.
Qed.
End Choose.
