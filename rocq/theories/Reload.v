(** Synths that are the same and have not been drawn from draw the same survey. *)
From Verif Require Import Base BaseFacts Env ParamModel SelModel DistModel AuxModel Tree PopModel SynthModel SynthSpec ConfModel ConfSpec ReloadSpec Sim Iso.
From Verif Require ConfTwice SurveySeed.
Open Scope nat_scope.

Section Reload.
Variable E : env.
Notation V := (V E).
Notation synth := (synth E).

Lemma truth_inj (s s' : dict (option V)) : (forall k v, In (k, v) s -> v <> None) -> (forall k v, In (k, v) s' -> v <> None) ->
  truth_of s = truth_of s' -> s = s'.
Proof.
  revert s'. induction s as [|[k [v|]] s IH]; intros [|[k' [v'|]] s'] H H' T; cbn in T; try easy;
    try (exfalso; eapply H; [now left|reflexivity]); try (exfalso; eapply H'; [now left|reflexivity]).
  injection T as <- <- T. f_equal. apply IH; [intros; eapply H; right; eassumption|intros; eapply H'; right; eassumption|exact T].
Qed.
Lemma settled_same c (o o' : pobj V) : settled E c o -> settled E c o' -> truth o = truth o' -> o = o'.
Proof.
  intros [_ S N] [_ S' N'] T. assert (P := truth_inj _ _ S S' T). destruct o as [s n], o' as [s' n']. cbn in *. subst s'. f_equal.
  destruct n as [k|].
  - destruct (N k) as [N1 _]. symmetry. apply N'. now apply N1.
  - destruct n' as [k|]; [|easy]. destruct (N' k) as [N1 _]. apply N. now apply N1.
Qed.

Section Same.
Variables y y' : synth.
Variable R : nat -> nat -> Prop.
Hypothesis R_at : forall i i', R i i' -> same_sampler_at eq R y y' i i'.
Hypothesis R_fun : forall i i' j', R i i' -> R i j' -> i' = j'.
Hypothesis R_inj : forall i j i', R i i' -> R j i' -> i = j.
Hypothesis Raux : forall k, same_opt R (dget (y_aux y) k) (dget (y_aux y') k).
Hypothesis Rder : same_opt R (y_der y) (y_der y').
Hypothesis Keys : dkeys (y_aux y') = dkeys (y_aux y).
Hypothesis ND : NoDup (dkeys (y_aux y)).

Lemma F2_In {A C} (T : A -> C -> Prop) l l' x : Forall2 T l l' -> In x l -> exists x', In x' l' /\ T x x'.
Proof. intros F. induction F as [|a b l l' H F IH]; cbn; [easy|]. intros [<-|I]; [eauto|]. destruct (IH I) as (x' & I' & X). eauto. Qed.
Lemma F2_flip {A C} (T : A -> C -> Prop) l l' : Forall2 T l l' -> Forall2 (fun x y => T y x) l' l.
Proof. induction 1; constructor; auto. Qed.
Lemma In_dget_nd (d : dict nat) k i : NoDup (dkeys d) -> In (k, i) d -> dget d k = Some i.
Proof.
  induction d as [|[k0 v0] d IH]; cbn; [easy|]. intros N [H|H].
  - injection H as -> ->. now rewrite String.eqb_refl.
  - inversion N as [|? ? N1 N2]; subst. destruct (String.eqb_spec k k0) as [->|]; [|now apply IH]. exfalso. apply N1. apply in_map_iff. now exists (k0, i).
Qed.
Lemma dget_In_nat (d : dict nat) k i : dget d k = Some i -> In (k, i) d.
Proof. induction d as [|[k0 v0] d IH]; cbn; [easy|]. destruct (String.eqb_spec k k0) as [->|]; intros H; [left; congruence|right; auto]. Qed.
Lemma reach_fwd i : reach y i -> exists i', R i i' /\ reach y' i'.
Proof.
  induction 1 as [k i H|i H|i a k j H [i' [HR HI]] A I].
  - assert (Z := Raux k). rewrite (In_dget_nd _ _ _ ND H) in Z. destruct (dget (y_aux y') k) as [i'|] eqn:G; [|easy]. exists i'. split; [exact Z|]. eapply reach_top, dget_In_nat, G.
  - assert (Z := Rder). rewrite H in Z. destruct (y_der y') as [i'|] eqn:G; [|easy]. exists i'. split; [exact Z|now apply reach_der].
  - destruct (R_at _ _ HR) as (b & b' & Bb & Bb' & _ & _ & _ & F). rewrite A in Bb. injection Bb as <-. destruct (F2_In _ _ _ _ F I) as ([k' j'] & I' & K & HJ). cbn in K, HJ.
    exists j'. split; [exact HJ|]. exact (reach_sec _ _ HI Bb' I').
Qed.
Lemma reach_bwd i' : reach y' i' -> exists i, R i i' /\ reach y i.
Proof.
  assert (ND' : NoDup (dkeys (y_aux y'))) by now rewrite Keys.
  induction 1 as [k i H|i H|i a k j H [i' [HR HI]] A I].
  - assert (Z := Raux k). rewrite (In_dget_nd _ _ _ ND' H) in Z. destruct (dget (y_aux y) k) as [i'|] eqn:G; [|easy]. exists i'. split; [exact Z|]. eapply reach_top, dget_In_nat, G.
  - assert (Z := Rder). rewrite H in Z. destruct (y_der y) as [i'|] eqn:G; [|easy]. exists i'. split; [exact Z|now apply reach_der].
  - destruct (R_at _ _ HR) as (b & b' & Bb & Bb' & _ & _ & _ & F). rewrite A in Bb'. injection Bb' as <-. destruct (F2_In _ _ _ _ (F2_flip _ _ _ F) I) as ([k' j'] & I' & K & HJ). cbn in K, HJ.
    exists j'. split; [exact HJ|]. exact (reach_sec _ _ HI Bb I').
Qed.
Lemma sec_iff i i' : R i i' -> (secondary_of y i <-> secondary_of y' i').
Proof.
  intros HR. split.
  - intros (p & a & k & HP & A & I). destruct (reach_fwd _ HP) as (p' & RP & HP'). destruct (R_at _ _ RP) as (b & b' & Bb & Bb' & _ & _ & _ & F).
    rewrite A in Bb. injection Bb as <-. destruct (F2_In _ _ _ _ F I) as ([k' j'] & I' & K & HJ). cbn in K, HJ. exists p', b', k'. split; [exact HP'|]. split; [exact Bb'|].
    now rewrite (R_fun _ _ _ HR HJ).
  - intros (p & a & k & HP & A & I). destruct (reach_bwd _ HP) as (p' & RP & HP'). destruct (R_at _ _ RP) as (b & b' & Bb & Bb' & _ & _ & _ & F).
    rewrite A in Bb'. injection Bb' as <-. destruct (F2_In _ _ _ _ (F2_flip _ _ _ F) I) as ([k' j'] & I' & K & HJ). cbn in K, HJ. exists p', b, k'. split; [exact HP'|]. split; [exact Bb|].
    now rewrite (R_inj _ _ _ HR HJ).
Qed.

Definition BB i i' := R i i' /\ reach y i /\ reach y' i'.
Definition corr (r r' : purpose) : Prop :=
  match r, r' with ForFlux, ForFlux | ForDistance, ForDistance | ForSky, ForSky => True | ForSampler i, ForSampler i' => BB i i' | _, _ => False end.
Definition PP k k' := exists r r', corr r r' /\ selects y r k /\ selects y' r' k'.
Lemma BB_fun i i' j' : BB i i' -> BB i j' -> i' = j'. Proof. intros [H _] [H' _]. eauto. Qed.
Lemma BB_inj i j i' : BB i i' -> BB j i' -> i = j. Proof. intros [H _] [H' _]. eauto. Qed.
Lemma selects_fun z r k k' : selects (E := E) z r k -> selects z r k' -> k = k'.
Proof.
  destruct r as [| | |i]; cbn; try congruence. intros [_ (a & A & ->)] [_ (a' & A' & ->)]. congruence.
Qed.
Lemma corr_fun r r' r2 : corr r r' -> corr r r2 -> r' = r2.
Proof. destruct r, r', r2; cbn; try easy. intros H H'. f_equal. exact (BB_fun _ _ _ H H'). Qed.
Lemma corr_inj r r' r2 : corr r r' -> corr r2 r' -> r = r2.
Proof. destruct r, r', r2; cbn; try easy. intros H H'. f_equal. exact (BB_inj _ _ _ H H'). Qed.

Hypothesis U : undrawn y.
Hypothesis U' : undrawn y'.
Lemma PP_fun k k' j' : PP k k' -> PP k j' -> k' = j'.
Proof.
  intros (r & r' & C & S & S') (r2 & r2' & C2 & S2 & S2'). assert (r = r2) by exact (un_apart U _ _ _ S S2). subst r2.
  assert (r' = r2') by exact (corr_fun _ _ _ C C2). subst r2'. exact (selects_fun _ _ _ _ S' S2').
Qed.
Lemma PP_inj k j k' : PP k k' -> PP j k' -> k = j.
Proof.
  intros (r & r' & C & S & S') (r2 & r2' & C2 & S2 & S2'). assert (r' = r2') by exact (un_apart U' _ _ _ S' S2'). subst r2'.
  assert (r = r2) by exact (corr_inj _ _ _ C C2). subst r2. exact (selects_fun _ _ _ _ S S2).
Qed.

Hypothesis S : same_synth eq y y'.
Lemma sels_same k k' : PP k k' -> exists s s', nth_error (w_sels (y_w y)) k = Some s /\ nth_error (w_sels (y_w y')) k' = Some s' /\ siso E s s'.
Proof.
  intros (r & r' & C & HS & HS'). destruct (un_sels U _ _ HS) as (s & G & (D & M & Sa & Se)). destruct (un_sels U' _ _ HS') as (s' & G' & (D' & M' & Sa' & Se')).
  exists s, s'. split; [exact G|]. split; [exact G'|].
  assert (X : s_type s = s_type s' /\ s_kind s = s_kind s' /\ s_par s = s_par s' /\ (looks (s_kind s) = true -> source_of s = source_of s')).
  { assert (SA : same_selector_at eq y y' k k' -> s_type s = s_type s' /\ s_kind s = s_kind s' /\ s_par s = s_par s' /\ (looks (s_kind s) = true -> source_of s = source_of s')).
    { intros (t & t' & T & T' & [H1 H2 H3 H4]). rewrite G in T. injection T as <-. rewrite G' in T'. injection T' as <-. repeat (split; [assumption|]). split; [|exact H4].
      rewrite H2 in Se. exact (settled_same _ _ _ Se Se' H3). }
    destruct r as [| | |i], r' as [| | |i']; cbn in C; try easy; cbn in HS, HS'.
    - subst k k'. assert (F := sy_fluxset S). destruct (y_fluxset y) eqn:FS; [apply SA, (sy_flux S); exact FS|].
      destruct (un_flux U FS) as (t & T & T1 & T2 & T3). destruct (un_flux U' (eq_sym F)) as (t' & T' & T1' & T2' & T3'). rewrite T in G. rewrite T' in G'. injection G as ->. injection G' as ->.
      rewrite T1, T1', T2, T2', T3, T3'. easy.
    - subst k k'. assert (F := sy_dset S). destruct (y_dset y) eqn:FS; [apply SA, (sy_dist S); exact FS|].
      destruct (un_dist U FS) as (t & T & T1 & T2 & T3). destruct (un_dist U' (eq_sym F)) as (t' & T' & T1' & T2' & T3'). rewrite T in G. rewrite T' in G'. injection G as ->. injection G' as ->.
      rewrite T1, T1', T2, T2', T3, T3'. easy.
    - apply SA. assert (F := sy_ssel S). rewrite HS, HS' in F. exact F.
    - apply SA. destruct C as [HR [_ _]]. destruct (R_at _ _ HR) as (a & a' & A & A' & _ & _ & Q & _). destruct HS as [_ (b & Bb & ->)], HS' as [_ (b' & Bb' & ->)].
      rewrite A in Bb. injection Bb as <-. rewrite A' in Bb'. injection Bb' as <-. exact Q. }
  destruct X as (X1 & X2 & X3 & X4). split; auto; congruence.
Qed.
Lemma auxs_same i i' : BB i i' -> exists a a', nth_error (w_auxs (y_w y)) i = Some a /\ nth_error (w_auxs (y_w y')) i' = Some a' /\ aiso E BB PP a a'.
Proof.
  intros HB. pose proof HB as (HR & HI & HI'). destruct (R_at _ _ HR) as (a & a' & A & A' & St & T & _ & F). exists a, a'. split; [exact A|]. split; [exact A'|].
  destruct (un_aux U HI) as (b & o & Bb & D & Se & IS). rewrite A in Bb. injection Bb as <-.
  destruct (un_aux U' HI') as (b' & o' & Bb' & D' & Se' & IS'). rewrite A' in Bb'. injection Bb' as <-. split.
  - exact St.
  - rewrite D, D' in *. cbn in T. f_equal. unfold kind_of in *. rewrite St in Se. exact (settled_same _ _ _ Se Se' T).
  - assert (Z := sec_iff _ _ HR). destruct (a_issec (a_ln a)), (a_issec (a_ln a')); try easy; exfalso.
    + assert (false = true); [|discriminate]. apply IS', Z, IS. reflexivity.
    + assert (false = true); [|discriminate]. apply IS, Z, IS'. reflexivity.
  - exists (ForSampler i), (ForSampler i'). split; [exact HB|]. split; (split; [assumption|eauto]).
  - assert (Q : forall kv, In kv (a_sec (a_ln a)) -> reach y (snd kv)) by (intros [k j] I; exact (reach_sec _ _ HI A I)).
    assert (Q' : forall kv, In kv (a_sec (a_ln a')) -> reach y' (snd kv)) by (intros [k j] I; exact (reach_sec _ _ HI' A' I)).
    clear - F Q Q'. unfold secs. induction F as [|x x' l l' [K HR] F IH]; constructor.
    + split; [exact K|]. split; [exact HR|]. split; [apply Q; now left|apply Q'; now left].
    + apply IH; intros kv I; [apply Q|apply Q']; now right.
Qed.
Lemma aux_rel : secs BB (y_aux y) (y_aux y').
Proof.
  assert (ND' : NoDup (dkeys (y_aux y'))) by now rewrite Keys.
  assert (Q : forall k i, In (k, i) (y_aux y) -> reach y i) by (intros k i I; exact (reach_top y k i I)).
  assert (Q' : forall k i, In (k, i) (y_aux y') -> reach y' i) by (intros k i I; exact (reach_top y' k i I)).
  revert Raux Keys ND ND' Q Q'. clear. intros HA HK N N' Q Q'. assert (HA' : forall k i i', In (k, i) (y_aux y) -> In (k, i') (y_aux y') -> R i i').
  { intros k i i' I I'. assert (Z := HA k). rewrite (In_dget_nd _ _ _ N I), (In_dget_nd _ _ _ N' I') in Z. exact Z. }
  unfold BB, secs. clear HA. generalize (y_aux y) (y_aux y') HK N N' Q Q' HA'. clear HK N N' Q Q' HA'. intros l. induction l as [|[k i] l IH]; intros [|[k' i'] l'] HK N N' Q Q' HA; try easy; constructor.
  - cbn in HK. injection HK as -> HK. split; [easy|]. cbn. split; [apply (HA k); now left|]. split; [apply (Q k); now left|apply (Q' k); now left].
  - cbn in HK. injection HK as _ HK. inversion N; inversion N'; subst. apply IH; auto; intros; [eapply Q|eapply Q'|eapply HA]; right; eassumption.
Qed.
Hypothesis G : w_g (y_w y) = w_g (y_w y').
Hypothesis N : w_n (y_w y) = w_n (y_w y').
Lemma undrawn_yiso : yiso E BB PP y y'.
Proof.
  destruct (un_sp U) as (A1 & A2 & A3 & A4 & A5). destruct (un_sp U') as (A1' & A2' & A3' & A4' & A5'). destruct (sy_sp S) as (C1 & C2 & C3).
  destruct (un_extra U) as (X1 & X2 & X3). destruct (un_extra U') as (X1' & X2' & X3').
  assert (SP : y_sp y = y_sp y').
  { assert (T := sy_sppar S). rewrite C1 in A5. assert (Q := settled_same _ _ _ A5 A5' T). destruct (y_sp y), (y_sp y'); cbn in *; congruence. }
  assert (L := sy_lum S). split.
  - split; [exact G|exact N|exact auxs_same|exact sels_same].
  - exact SP. - exact C3.
  - destruct (y_lum y) as [l|] eqn:HL, (y_lum y') as [l'|] eqn:HL'; cbn in L; try easy. destruct L as (L1 & L2 & L3 & L4).
    destruct (un_lum U HL) as [P1 P2]. destruct (un_lum U' HL') as [P1' P2']. rewrite L1 in P2. assert (Q := settled_same _ _ _ P2 P2' L4). destruct l, l'; cbn in *. congruence.
  - destruct (y_lum y) as [l|], (y_lum y') as [l'|]; cbn in L; intuition congruence.
  - apply S. - apply S. - congruence. - congruence.
  - exact aux_rel.
  - assert (Z := Rder). destruct (y_der y) as [i|] eqn:HD, (y_der y') as [i'|] eqn:HD'; cbn in *; try easy. split; [exact Z|]. split; [now apply reach_der|now apply reach_der].
  - exists ForFlux, ForFlux. now cbn.
  - apply S.
  - exists ForDistance, ForDistance. now cbn.
  - apply S.
  - assert (Z := sy_ssel S). destruct (y_ssel y) as [i|] eqn:HD, (y_ssel y') as [i'|] eqn:HD'; cbn in *; try easy. exists ForSky, ForSky. now cbn.
  - rewrite X3, X3', SP. reflexivity.
  - exact ND.
Qed.
End Same.

Lemma set_gens_id (y : synth) : set_gens (w_g (y_w y)) (w_n (y_w y)) y = y.
Proof. destruct y as [[] ]. reflexivity. Qed.
Lemma undrawn_gens g k (y : synth) : undrawn y -> undrawn (set_gens g k y).
Proof.
  assert (RE : forall i, reach (set_gens g k y) i <-> reach y i).
  { intros i. split; (induction 1 as [? ? H|? H|? ? ? ? H IH A I]; [eapply reach_top; exact H|apply reach_der; exact H|eapply reach_sec; [exact IH|exact A|exact I]]). }
  assert (SE : forall r j, selects (set_gens g k y) r j <-> selects y r j).
  { intros [| | |i] j; cbn; try easy. now rewrite RE. }
  intros [H1 H2 H3 H4 H5 H6 H7 H8]. split; auto.
  - intros r j H. apply (H6 r). now apply SE.
  - intros r r' j H H'. apply (H7 r r' j); now apply SE.
  - intros i H. destruct (H8 i) as (a & o & A & D & Se & IS); [now apply RE|]. exists a, o. split; [exact A|]. split; [exact D|]. split; [exact Se|]. rewrite IS.
    split; intros (p & b & q & Q1 & Q2); exists p, b, q; (split; [now apply RE|exact Q2]).
Qed.
Lemma same_gens g k (y y' : synth) : same_synth eq y y' -> same_synth eq y (set_gens g k y').
Proof. intros []. split; auto. Qed.

Theorem same_draw prog fuel rl sg l10 ns nrm (y y' : synth) : same_synth eq y y' -> dkeys (y_aux y') = dkeys (y_aux y) -> NoDup (dkeys (y_aux y)) ->
  undrawn y -> undrawn y' -> w_n (y_w y) = w_n (y_w y') ->
  fst (draw_survey (E := E) prog fuel rl sg l10 ns nrm y) = fst (draw_survey prog fuel rl sg l10 ns nrm y').
Proof.
  intros S0 K ND U U' N. rewrite <- (set_gens_id y'). rewrite (SurveySeed.survey_numpy E prog fuel rl sg l10 ns nrm y' (w_g (y_w y')) (w_g (y_w y)) (w_n (y_w y'))).
  assert (S := same_gens (w_g (y_w y)) (w_n (y_w y')) _ _ S0). assert (UU := undrawn_gens (w_g (y_w y)) (w_n (y_w y')) _ U'). clear S0 U'.
  set (z := set_gens (w_g (y_w y)) (w_n (y_w y')) y') in *. destruct (sy_aux S) as (R & R1 & R2 & R3 & R4 & R5).
  assert (Y := undrawn_yiso y z R R1 R2 R3 R4 R5 K ND U UU S eq_refl N).
  assert (Z := i_survey E (BB y z R) (PP y z R) (BB_fun y z R R2) (BB_inj y z R R3) (PP_fun y z R R2 U) (PP_inj y z R R3 UU) prog fuel rl sg l10 ns nrm y z Y).
  destruct (draw_survey prog fuel rl sg l10 ns nrm y) as [[a|e] t], (draw_survey prog fuel rl sg l10 ns nrm z) as [[b|e'] t']; try easy; destruct Z as [<- _]; reflexivity.
Qed.
Theorem same_draw_free prog fuel rl sg l10 ns nrm (y y' : synth) : same_synth eq y y' -> dkeys (y_aux y') = dkeys (y_aux y) -> NoDup (dkeys (y_aux y)) ->
  undrawn y -> undrawn y' -> (forall a, In a (w_auxs (y_w y)) -> numba_free (kind_of a)) ->
  fst (draw_survey (E := E) prog fuel rl sg l10 ns nrm y) = fst (draw_survey prog fuel rl sg l10 ns nrm y').
Proof.
  intros S K ND U U' F. rewrite <- (set_gens_id y) at 1.
  rewrite (SurveySeed.survey_generators E prog fuel rl sg l10 ns nrm y (w_g (y_w y)) (w_n (y_w y)) (w_g (y_w y)) (w_n (y_w y')) F).
  apply same_draw; auto.
  - destruct S. split; auto.
  - now apply undrawn_gens.
Qed.
End Reload.
