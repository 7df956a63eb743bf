(** Proofs about the sky sampler (C90). *)
From Coq Require Import Reals List String Lia.
From Verif Require Import Base BaseFacts Env SelModel AuxModel AuxSpec PopSpec SynthModel SynthSpec RealModel AuxLibModel SkyObjModel SkyObjSpec.
From Verif Require SynthGraph SurveyLib.
Import ListNotations.
Open Scope string_scope.

Section P.
Variable m : machine.
Variable tnorm : R -> R -> mc_st m -> R * mc_st m.
Variable nunif : mc_nst m -> R * mc_nst m.
Variable ppf : R.
Notation E := (real_env m).
Notation new := (construct_angle m tnorm nunif ppf).
Notation kind c := (aux_kind m tnorm nunif ppf c).

Lemma nth_new {A} (l : list A) x : nth_error (l ++ [x]) (length l) = Some x.
Proof. rewrite nth_error_app2 by lia. now rewrite PeanoNat.Nat.sub_diag. Qed.
Lemma nth_old {A} (l l' : list A) i x : nth_error l i = Some x -> nth_error (l ++ l') i = Some x.
Proof. intros H. rewrite nth_error_app1; [exact H|]. apply nth_error_Some. congruence. Qed.
Lemma nth_none {A} (l : list A) : nth_error l (length l) = None.
Proof. now apply nth_error_None. Qed.
Lemma extends_refl (w : world E) : extends w w.
Proof. unfold extends. auto 10. Qed.
Lemma extends_trans (a b c : world E) : extends a b -> extends b c -> extends a c.
Proof.
  intros (A1 & A2 & A3 & A4 & A5) (B1 & B2 & B3 & B4 & B5). unfold extends.
  split; [congruence|]. split; [congruence|]. split; [congruence|]. split; auto.
Qed.
Lemma fresh_later (w w' w'' : world E) nm k x : fresh w w' nm k x -> extends w' w'' -> fresh w w'' nm k x.
Proof.
  intros (i & a & X & N & A & F) (_ & _ & _ & E1 & E2). exists i, a. split; [exact X|]. split; [exact N|]. split; [exact (E1 _ _ A)|].
  destruct F as (F1 & F2 & F3 & F4 & F5 & F6 & F7 & F8 & F9). repeat (split; [assumption|]). exact (E2 _ _ F9).
Qed.
Lemma none_before {A} (l l' : list A) i : (forall i x, nth_error l i = Some x -> nth_error l' i = Some x) -> nth_error l' i = None -> nth_error l i = None.
Proof. intros H N. destruct (nth_error l i) as [x|] eqn:X; [|reflexivity]. apply H in X. congruence. Qed.
Lemma fresh_before (w0 w w' : world E) nm k x : extends w0 w -> fresh w w' nm k x -> fresh w0 w' nm k x.
Proof.
  intros (_ & _ & _ & E1 & E2) (i & a & X & N & A & F1 & F2 & F3 & F4 & F5 & F6 & F7 & F8 & F9). exists i, a. split; [exact X|].
  split; [exact (none_before _ _ _ E1 N)|]. repeat (split; [assumption|]). split; [exact (none_before _ _ _ E2 F8)|exact F9].
Qed.
Lemma construct_spec c k w : angle_name c = Some k -> exists x w', new c w = (Ok x, w') /\ extends w w' /\ fresh w w' k (kind c) x.
Proof.
  intros AN. eexists _, _. split; [reflexivity|]. split.
  - split; [reflexivity|]. split; [reflexivity|]. split; [reflexivity|]. split; intros i a H; cbn; now apply nth_old.
  - eexists _, _. split; [reflexivity|]. split; [apply nth_none|]. split; [apply nth_new|]. unfold new_aux. rewrite AN.
    repeat (split; [reflexivity|]). split; [apply nth_none|apply nth_new].
Qed.

Theorem sky_spec ra dec w : exists s w', sky_new m tnorm nunif ppf ra dec w = (Ok s, w') /\ extends w w' /\
  hands_out w w' "ra" (kind RA) ra (ra_sampler s) /\ hands_out w w' "dec" (kind Dec) dec (dec_sampler s) /\
  (ra = None -> dec = None -> apart w' (ra_sampler s) (dec_sampler s)).
Proof.
  unfold sky_new, bind.
  assert (S1 : exists x w1, (match ra with None => new RA | Some x => ret x end) w = (Ok x, w1) /\ extends w w1 /\ hands_out w w1 "ra" (kind RA) ra x).
  { destruct ra as [z|]; [exists z, w; split; [reflexivity|]; split; [apply extends_refl|reflexivity]|now apply construct_spec]. }
  destruct S1 as (x & w1 & -> & X1 & H1).
  assert (S2 : exists z w2, (match dec with None => new Dec | Some x => ret x end) w1 = (Ok z, w2) /\ extends w1 w2 /\ hands_out w1 w2 "dec" (kind Dec) dec z).
  { destruct dec as [z|]; [exists z, w1; split; [reflexivity|]; split; [apply extends_refl|reflexivity]|now apply construct_spec]. }
  destruct S2 as (z & w2 & -> & X2 & H2). exists (Sky x z), w2. split; [reflexivity|]. split; [now apply extends_trans with w1|].
  cbn [ra_sampler dec_sampler]. split; [|split].
  - destruct ra; [exact H1|]. now apply fresh_later with w1.
  - destruct dec; [exact H2|]. now apply fresh_before with w1.
  - intros -> ->. cbn [hands_out] in H1, H2. intros i j a b -> -> A B.
    destruct H1 as (i' & a' & I & _ & A' & _ & _ & _ & _ & _ & _ & _ & _ & SA). injection I as <-.
    destruct H2 as (j' & b' & J & N & B' & _ & _ & _ & _ & _ & _ & _ & SB & _). injection J as <-.
    assert (A2 := proj1 (proj2 (proj2 (proj2 X2))) _ _ A'). unfold at_ in *. rewrite A2 in A. rewrite B' in B. injection A as <-. injection B as <-.
    split; intros Q; [rewrite Q in A'; congruence|rewrite Q in SA; congruence].
Qed.

(** ** Adding them *)
Lemma add_ok (y : synth E) i a : at_ (y_w y) i a -> k_lum (kind_of a) = None -> a_issec (a_ln a) = false -> dget (y_aux y) (name_of a) = None ->
  add_quantity (IsSampler i) y = (Ok tt, with_aux y (dset (y_aux y) (name_of a) i)).
Proof.
  intros A K S D. destruct (SynthGraph.add_quantity_cases _ (IsSampler i) y) as (r & y' & H & _ & [C|[C|C]]).
  - destruct C as (-> & i' & a' & I & A' & C). injection I as <-. unfold at_ in *. assert (a' = a) by congruence. subst a'.
    destruct C as [[C _]|(_ & _ & _ & C)]; [congruence|]. rewrite H. congruence.
  - destruct C as (_ & _ & [C|(i' & a' & I & A' & _ & C)]); [discriminate|]. injection I as <-. unfold at_ in *. assert (a' = a) by congruence. subst a'. destruct C; congruence.
  - destruct C as (_ & _ & i' & I & C). injection I as <-. unfold at_ in *. congruence.
Qed.
Lemma add_done (y y' : synth E) x : add_quantity x y = (Ok tt, y') -> y_w y' = y_w y /\ (forall k i, In (k, i) (y_aux y) -> In (k, i) (y_aux y')) /\
  forall i a, x = IsSampler i -> at_ (y_w y) i a -> k_lum (kind_of a) = None -> In (name_of a, i) (y_aux y').
Proof.
  intros H. destruct (SynthGraph.add_quantity_cases _ x y) as (r & z & H' & W & [C|[C|C]]); rewrite H in H'; injection H' as <- <-; split; try exact W.
  - destruct C as (_ & i & a & -> & A & [(K & ->)|(K & _ & D & ->)]).
    + split; [auto|]. intros i' a' I A' K'. injection I as <-. unfold at_ in *. congruence.
    + assert (DS : dset (y_aux y) (name_of a) i = (y_aux y ++ [(name_of a, i)])%list) by now apply dset_fresh.
      cbn [y_aux with_aux]. rewrite DS. split; [intros k j I; apply in_or_app; now left|]. intros i' a' I A' K'. injection I as <-.
      unfold at_ in *. assert (a' = a) by congruence. subst a'. apply in_or_app. right. now left.
  - destruct C as (C & _). discriminate.
  - destruct C as (C & _). discriminate.
Qed.
Lemma add_refused (y : synth E) i a : at_ (y_w y) i a -> k_lum (kind_of a) = None -> dget (y_aux y) (name_of a) <> None ->
  add_quantity (IsSampler i) y = (Err RuntimeError, y).
Proof.
  intros A K D. destruct (SynthGraph.add_quantity_cases _ (IsSampler i) y) as (r & y' & H & _ & [C|[C|C]]).
  - destruct C as (_ & i' & a' & I & A' & C). injection I as <-. unfold at_ in *. assert (a' = a) by congruence. subst a'. destruct C as [[C _]|(_ & _ & C & _)]; congruence.
  - destruct C as (-> & -> & _). exact H.
  - destruct C as (_ & _ & i' & I & C). injection I as <-. unfold at_ in *. congruence.
Qed.
Lemma in_w_done A (f : AM E A) (y y1 : synth E) x : in_w f y = (Ok x, y1) -> exists w', f (y_w y) = (Ok x, w') /\ y1 = with_w y w'.
Proof. unfold in_w. destruct (f (y_w y)) as [r w']. intros [= -> <-]. eauto. Qed.
Lemma sky_in ra dec (y y1 : synth E) s : in_w (sky_new m tnorm nunif ppf ra dec) y = (Ok s, y1) -> y_aux y1 = y_aux y /\ extends (y_w y) (y_w y1) /\
  hands_out (y_w y) (y_w y1) "ra" (kind RA) ra (ra_sampler s) /\ hands_out (y_w y) (y_w y1) "dec" (kind Dec) dec (dec_sampler s).
Proof.
  intros H. apply in_w_done in H. destruct H as (w' & H & ->). destruct (sky_spec ra dec (y_w y)) as (s' & w2 & H' & X & H1 & H2 & _).
  rewrite H in H'. injection H' as <- <-. auto.
Qed.
Theorem sky_added (y y1 : synth E) s : in_w (sky_new m tnorm nunif ppf None None) y = (Ok s, y1) ->
  dget (y_aux y) "ra" = None -> dget (y_aux y) "dec" = None -> exists i j y2, s = Sky (IsSampler i) (IsSampler j) /\ add_sky m s y1 = (Ok tt, y2) /\
  y_aux y2 = (y_aux y ++ [("ra", i); ("dec", j)])%list /\ y_w y2 = y_w y1.
Proof.
  intros H D1 D2. destruct (sky_in _ _ _ _ _ H) as (AX & _ & (i & a & I & _ & A & NA & KA & SA & _) & (j & b & J & _ & B & NB & KB & SB & _)).
  destruct s as [r d]. cbn [ra_sampler dec_sampler] in I, J. subst r d. exists i, j.
  eexists. split; [reflexivity|]. split.
  - unfold add_sky, bind. cbn [ra_sampler dec_sampler]. rewrite (add_ok y1 i a A); [|now rewrite KA|exact SA|now rewrite NA, AX].
    rewrite (add_ok (with_aux y1 (dset (y_aux y1) (name_of a) i)) j b B); [reflexivity|now rewrite KB|exact SB|]. rewrite NA, NB, AX. cbn [y_aux with_aux]. rewrite dset_fresh by exact D1.
    rewrite dget_app, D2. reflexivity.
  - cbn [y_aux with_aux y_w]. rewrite NA, NB, AX. split; [|reflexivity]. rewrite (dset_fresh (y_aux y)) by exact D1. rewrite dset_fresh; [now rewrite <- app_assoc|].
    rewrite dget_app, D2. reflexivity.
Qed.
Theorem sky_twice dec (y y1 : synth E) s : in_w (sky_new m tnorm nunif ppf None dec) y = (Ok s, y1) -> dget (y_aux y) "ra" <> None ->
  add_sky m s y1 = (Err RuntimeError, y1).
Proof.
  intros H D. destruct (sky_in _ _ _ _ _ H) as (AX & _ & (i & a & I & _ & A & NA & KA & _) & _). unfold add_sky, bind. rewrite I, (add_refused y1 i a A); [reflexivity|now rewrite KA|now rewrite NA, AX].
Qed.
Theorem sky_never prog fuel rl fs l10 ns norm ra dec (y y1 y2 : synth E) s : ra = None \/ dec = None -> in_w (sky_new m tnorm nunif ppf ra dec) y = (Ok s, y1) ->
  add_sky m s y1 = (Ok tt, y2) -> acyclic (y_w y2) -> distinct_names y2 -> SynthSpec.never_drawn (y_w y2) -> forall p, fst (draw_survey prog fuel rl fs l10 ns norm y2) <> Ok p.
Proof.
  intros N H AD AC DN ND. destruct (sky_in _ _ _ _ _ H) as (_ & _ & R & D). unfold add_sky in AD. apply bind_inv_ok in AD. destruct AD as ([] & z & A1 & A2).
  destruct (add_done _ _ _ A1) as (W1 & _ & P1). destruct (add_done _ _ _ A2) as (W2 & K2 & P2).
  assert (X : exists i a nm, In (nm, i) (y_aux y2) /\ at_ (y_w y2) i a /\ name_of a = nm /\ (nm = "ra" \/ nm = "dec")).
  { destruct N as [-> | ->].
    - destruct R as (i & a & I & _ & A & NA & KA & _). exists i, a, "ra". rewrite W2, W1. split; [|auto]. apply K2. rewrite <- NA. apply P1; [exact I|exact A|now rewrite KA].
    - destruct D as (i & a & I & _ & A & NA & KA & _). exists i, a, "dec". rewrite W2, W1. split; [|auto]. rewrite <- NA. apply P2; [exact I|now rewrite W1|now rewrite KA]. }
  destruct X as (i & a & nm & I & A & NA & Q). eapply SurveyLib.part_names; [exact AC|exact DN|exact ND| |exact A|].
  - left. exists nm, i. split; [exact I|apply reaches_refl].
  - rewrite NA. destruct Q as [-> | ->]; cbn; tauto.
Qed.
End P.
