(** A synth made from a configuration has not been drawn from. *)
From Verif Require Import Base BaseFacts Env ParamModel SelModel DistModel AuxModel Tree SynthModel ConfModel ConfSpec ReloadSpec.
Open Scope string_scope.
Open Scope list_scope.

Section Loaded.
Variable E : env.
Notation V := (V E).
Notation synth := (synth E).
Notation world := (world E).
Notation sampler := (sampler E).
Notation selector := (selector E).
Notation tree := (tree V).
Variable rg : registry E.
Hypothesis MN : makes_new rg.

Lemma bind_inv {S A C} (m : M S A) (k : A -> M S C) s b s' : bind m k s = (Ok b, s') -> exists a s1, m s = (Ok a, s1) /\ k a s1 = (Ok b, s').
Proof. unfold bind. destruct (m s) as [[a|e] s1]; [eauto|discriminate]. Qed.
Lemma lift_inv {S A} (r : res A) (s : S) a s' : lift r s = (Ok a, s') -> r = Ok a /\ s' = s.
Proof. unfold lift. intros H. injection H as -> ->. easy. Qed.
Lemma rbind_inv {A C} (r : res A) (k : A -> res C) b : rbind r k = Ok b -> exists a, r = Ok a /\ k a = Ok b.
Proof. destruct r; cbn; [eauto|discriminate]. Qed.

(** ** Parameters *)
Lemma settled_new c : one_norm E c -> settled E c (pobj_new V).
Proof. intros H. split; [exact H|easy|]. intros k. split; [discriminate|]. intros [[] _]. Qed.
Lemma In_dset {A} (d : dict A) k v k2 v2 : In (k2, v2) (dset d k v) -> (k2 = k /\ v2 = v) \/ In (k2, v2) d.
Proof.
  induction d as [|[k' v'] r IH]; cbn [dset].
  - intros [H|[]]. injection H as <- <-. now left.
  - destruct (String.eqb_spec k k') as [->|N]; intros [H|H].
    + injection H as <- <-. now left.
    + right. now right.
    + right. now left.
    + destruct (IH H) as [X|X]; [now left|right; now right].
Qed.
Lemma settled_set c other k t o o' : settled E c o -> set_attr rg c other k t o = Ok o' -> settled E c o'.
Proof.
  intros S H. unfold set_attr in H. destruct (dget c k) as [d|] eqn:D; [|destruct (other k); [discriminate|injection H as <-; exact S]].
  apply rbind_inv in H. destruct H as (v & _ & H). unfold param_set in H. destruct (pd_free d); [|discriminate].
  destruct (rbind _ _) as [x|]; [|discriminate]. injection H as <-. destruct S as [S1 S2 S3]. unfold touch_norm. split.
  - exact S1.
  - intros k2 v2 I. cbn [po_store] in I. destruct (pd_norm d); cbn [po_store] in I; apply In_dset in I; (destruct I as [[-> ->]|I]; [discriminate|now apply (S2 k2)]).
  - intros k2. destruct (pd_norm d) eqn:ND; cbn [po_store po_norm].
    + rewrite In_dkeys_dset. split.
      * intros X. injection X as <-. split; [now left|]. eauto.
      * intros [_ (d2 & D2 & N2)]. now rewrite (S1 k k2 d d2 D D2 ND N2).
    + rewrite In_dkeys_dset, S3. split.
      * intros [I X]. split; [now right|exact X].
      * intros [[->|I] (d2 & D2 & N2)]; [congruence|]. split; [exact I|eauto].
Qed.
Lemma settled_sets c other l : forall o o', settled E c o -> set_attrs rg c other l o = Ok o' -> settled E c o'.
Proof.
  induction l as [|[k t] l IH]; cbn [set_attrs]; intros o o' S H; [injection H as <-; exact S|]. apply rbind_inv in H. destruct H as (o1 & H1 & H2).
  eapply IH; [|exact H2]. eapply settled_set; eassumption.
Qed.
Lemma sel_one k : one_norm E (sel_class k).
Proof.
  intros k1 k2 d1 d2 H1 H2 N1 _. exfalso. assert (X : forall x, In x (sel_class k) -> pd_norm (snd x) = false).
  { intros x. destruct k; cbn; intuition (subst; reflexivity). }
  apply dget_In in H1. apply X in H1. cbn in H1. congruence.
Qed.
Lemma unity_new nm : new_selection (unity E nm).
Proof. split; [easy|]. split; [easy|]. split; [easy|]. apply settled_new, sel_one. Qed.
Lemma load_sel_new all t s : load_sel rg all t = Ok s -> new_selection s.
Proof.
  intros H. unfold load_sel in H. apply rbind_inv in H. destruct H as (kv & _ & H). apply rbind_inv in H. destruct H as (c & C & H). apply rbind_inv in H. destruct H as (l & _ & H).
  cbv zeta in H. apply rbind_inv in H. destruct H as (p & P & H). injection H as <-. destruct (mn_sel MN _ C) as (D & M & S & Pa). rewrite Pa in P.
  split; [exact D|]. split; [exact M|]. split; [exact S|]. cbn. eapply settled_sets; [|exact P]. apply settled_new, sel_one.
Qed.
Lemma sel_flag_new a b c (s : selector) : new_selection s -> new_selection (sel_flag a b c s).
Proof. now intros (D & M & S & P). Qed.

(** ** What holds of everything made so far: objects from [nS] and [nA] on *)
Variables nS nA : nat.
Variable n0 : Nst E.
Definition uses (y : synth) (r : purpose) (k : nat) : Prop :=
  match r with
  | ForFlux => k = y_flux y
  | ForDistance => k = y_dsel y
  | ForSky => y_ssel y = Some k
  | ForSampler i => (nA <= i)%nat /\ exists a, nth_error (w_auxs (y_w y)) i = Some a /\ k = a_sel (a_ln a)
  end.
Definition clean_dy (a : sampler) : Prop := exists o, a_dy a = ADyn o false None None None None None /\ settled E (k_params (kind_of a)) o.
Record made (y : synth) : Prop := {
  md_range : forall r k, uses y r k -> (nS <= k < length (w_sels (y_w y)))%nat;
  md_apart : forall r r' k, uses y r k -> uses y r' k -> r = r';
  md_new : forall k s, (nS <= k)%nat -> nth_error (w_sels (y_w y)) k = Some s -> new_selection s;
  md_aux : forall i a, (nA <= i)%nat -> nth_error (w_auxs (y_w y)) i = Some a -> clean_dy a;
  md_len : (nS <= length (w_sels (y_w y)))%nat /\ (nA <= length (w_auxs (y_w y)))%nat;
  md_flux : y_fluxset y = false -> exists s, nth_error (w_sels (y_w y)) (y_flux y) = Some s /\ s_kind s = KUnity E /\ s_type s = "UnitySelection" /\ s_par s = pobj_new V;
  md_dist : y_dset y = false -> exists s, nth_error (w_sels (y_w y)) (y_dsel y) = Some s /\ s_kind s = KUnity E /\ s_type s = "UnitySelection" /\ s_par s = pobj_new V;
  md_sp : sd_dist (y_sp y) = None /\ sd_theta (y_sp y) = None /\ sd_phi (y_sp y) = None /\ sd_prob (y_sp y) = None /\
          settled E (sc_params (sd_cls (y_sp y))) (sd_par (y_sp y));
  md_lum : forall l, y_lum y = Some l -> ld_prob l = None /\ settled E (lc_params (ld_cls l)) (ld_par l);
  md_extra : y_nmodel y = 500 /\ y_spaces y = [] /\ y_graph y = add_node (sd_name (y_sp y)) None g_empty;
  md_n : w_n (y_w y) = n0 }.

Definition more_sel (y : synth) (s : selector) : synth := with_w y (w_set_sels (w_sels (y_w y) ++ [s]) (y_w y)).
Lemma nth_more {A} (l : list A) x k s : nth_error (l ++ [x]) k = Some s -> nth_error l k = Some s \/ (k = length l /\ s = x).
Proof.
  intros H. destruct (Nat.lt_ge_cases k (length l)) as [L|L].
  - left. now rewrite nth_error_app1 in H.
  - rewrite nth_error_app2 in H by exact L. destruct (k - length l) as [|m] eqn:X; cbn in H; [|destruct m; discriminate]. injection H as <-. right. split; [lia|easy].
Qed.
Lemma nth_kept {A} (l : list A) x k s : nth_error l k = Some s -> nth_error (l ++ [x]) k = Some s.
Proof. intros H. rewrite nth_error_app1; [exact H|]. apply nth_error_Some. congruence. Qed.
Lemma made_sel y s : made y -> new_selection s -> made (more_sel y s).
Proof.
  intros H N. destruct H as [H1 H2 H3 H4 [H5 H5'] H6 H7 H8 H9 H10 H11].
  assert (Q : forall r k, uses (more_sel y s) r k <-> uses y r k) by (intros [] ?; easy).
  split; auto.
  - intros r k U. apply Q, H1 in U. cbn. rewrite app_length. lia.
  - intros k t L T. cbn in T. apply nth_more in T. destruct T as [T|[-> ->]]; [now apply (H3 k)|exact N].
  - cbn. rewrite app_length. split; [lia|exact H5'].
  - intros F. destruct (H6 F) as (t & T & X). exists t. split; [cbn; now apply nth_kept|exact X].
  - intros F. destruct (H7 F) as (t & T & X). exists t. split; [cbn; now apply nth_kept|exact X].
Qed.
(** A selector made now is put to one use. *)
Definition free_of (y : synth) (k : nat) : Prop := (nS <= k < length (w_sels (y_w y)))%nat /\ forall r, ~ uses y r k.
Lemma free_new y s : made y -> free_of (more_sel y s) (length (w_sels (y_w y))).
Proof.
  intros H. split.
  - destruct (md_len _ H). cbn. rewrite app_length. cbn. lia.
  - intros r U. assert (U' : uses y r (length (w_sels (y_w y)))) by (destruct r; exact U). apply (md_range _ H) in U'. lia.
Qed.
Lemma free_keep y s k : free_of y k -> free_of (more_sel y s) k.
Proof.
  intros [H N]. split.
  - cbn. rewrite app_length. lia.
  - intros r U. apply (N r). destruct r; exact U.
Qed.
(** [z] is [y] with [k] put to use [r0]. *)
Lemma made_use y z r0 k : made y -> free_of y k -> y_w z = y_w y -> y_sp z = y_sp y -> y_lum z = y_lum y -> y_nmodel z = y_nmodel y -> y_spaces z = y_spaces y ->
  y_graph z = y_graph y -> (forall r j, uses z r j -> (r = r0 /\ j = k) \/ (r <> r0 /\ uses y r j)) ->
  (y_fluxset z = false -> y_fluxset y = false /\ y_flux z = y_flux y) -> (y_dset z = false -> y_dset y = false /\ y_dsel z = y_dsel y) -> made z.
Proof.
  intros [H1 H2 H3 H4 H5 H6 H7 H8 H9 H10 H11] [F NF] W SP L NM SPA GR U FX DX. split; rewrite ?W, ?SP, ?NM, ?SPA, ?GR; auto.
  - intros r j X. apply U in X. destruct X as [[-> ->]|[_ X]]; [exact F|now apply (H1 r)].
  - intros r r' j X X'. apply U in X. apply U in X'. destruct X as [[EX EJ]|[R X]], X' as [[EX' EJ']|[R' X']]; [congruence|exfalso..|].
    + subst j. now apply (NF r').
    + subst j. now apply (NF r).
    + now apply (H2 r r' j).
  - intros X. destruct (FX X) as [Y ->]. now apply H6.
  - intros X. destruct (DX X) as [Y ->]. now apply H7.
  - rewrite L. exact H9.
Qed.
Lemma made_flux y k : made y -> free_of y k -> made (with_flux y k true).
Proof.
  intros H F. apply (made_use y _ ForFlux k); auto; try easy. intros [| | |i] j X; cbn in X; [left; now split|right; now split..].
Qed.
Lemma made_dist y k : made y -> free_of y k -> made (with_dsel y k true).
Proof.
  intros H F. apply (made_use y _ ForDistance k); auto; try easy. intros [| | |i] j X; cbn in X; [right; now split|left; now split|right; now split..].
Qed.
Lemma made_sky y k : made y -> free_of y k -> made (with_ssel y (Some k)).
Proof.
  intros H F. apply (made_use y _ ForSky k); auto; try easy. intros [| | |i] j X; cbn in X; [right; now split|right; now split|left|right; now split]. injection X as <-. now split.
Qed.
Definition more_aux (y : synth) (a : sampler) : synth := with_w y (w_set_auxs (w_auxs (y_w y) ++ [a]) (y_w y)).
Lemma made_sampler y a : made y -> free_of y (a_sel (a_ln a)) -> clean_dy a -> made (more_aux y a).
Proof.
  intros [H1 H2 H3 H4 [H5 H5'] H6 H7 H8 H9 H10 H11] [F NF] C.
  assert (U : forall r j, uses (more_aux y a) r j -> (r = ForSampler (length (w_auxs (y_w y))) /\ j = a_sel (a_ln a)) \/ (r <> ForSampler (length (w_auxs (y_w y))) /\ uses y r j)).
  { intros [| | |i] j X; cbn in X; try (right; split; [discriminate|exact X]). destruct X as [L (b & Bb & ->)]. apply nth_more in Bb. destruct Bb as [Bb|[-> ->]].
    - right. split; [|split; [exact L|eauto]]. intros X. injection X as ->. assert (Z : (length (w_auxs (y_w y)) < length (w_auxs (y_w y)))%nat) by (apply nth_error_Some; congruence). lia.
    - left. now split. }
  split; auto.
  - intros r j X. apply U in X. destruct X as [[-> ->]|[_ X]]; [exact F|now apply (H1 r)].
  - intros r r' j X X'. apply U in X. apply U in X'. destruct X as [[EX EJ]|[R X]], X' as [[EX' EJ']|[R' X']]; [congruence|exfalso..|].
    + subst j. now apply (NF r').
    + subst j. now apply (NF r).
    + now apply (H2 r r' j).
  - intros i b L Bb. cbn in Bb. apply nth_more in Bb. destruct Bb as [Bb|[-> ->]]; [now apply (H4 i)|exact C].
  - cbn. rewrite app_length. split; [exact H5|lia].
Qed.
(** Links do not matter. *)
Definition relinked (h h' : list sampler) : Prop := length h' = length h /\ forall i a', nth_error h' i = Some a' ->
  exists a, nth_error h i = Some a /\ a_st a' = a_st a /\ a_dy a' = a_dy a /\ a_sel (a_ln a') = a_sel (a_ln a).
Lemma made_links y h : made y -> relinked (w_auxs (y_w y)) h -> made (with_w y (w_set_auxs h (y_w y))).
Proof.
  intros [H1 H2 H3 H4 [H5 H5'] H6 H7 H8 H9 H10 H11] [L R].
  assert (U : forall r j, uses (with_w y (w_set_auxs h (y_w y))) r j -> uses y r j).
  { intros [| | |i] j X; try exact X. destruct X as [X (a' & A & ->)]. cbn in A. destruct (R _ _ A) as (a & A0 & _ & _ & S). split; [exact X|]. exists a. split; [exact A0|exact S]. }
  split; auto.
  - intros r j X. now apply (H1 r), U.
  - intros r r' j X X'. apply (H2 r r' j); now apply U.
  - intros i a' X A. cbn in A. destruct (R _ _ A) as (a & A0 & S1 & S2 & _). destruct (H4 i a X A0) as (o & D & S). exists o. split; [congruence|]. unfold kind_of in *. now rewrite S1.
  - cbn. rewrite L. now split.
Qed.

(** ** Loading *)
Lemma made_flux_load inp y y' : made y -> load_flux rg inp y = (Ok tt, y') -> made y' /\ w_auxs (y_w y') = w_auxs (y_w y) /\ y_aux y' = y_aux y /\ y_der y' = y_der y.
Proof.
  intros H L. unfold load_flux in L. destruct (selection_of E inp "flux selection") as [t|]; [|injection L as <-; easy].
  apply bind_inv in L. destruct L as (s & y1 & L1 & L). apply lift_inv in L1. destruct L1 as [L1 ->]. apply bind_inv in L. destruct L as (i & y2 & L2 & L).
  injection L2 as <- <-. injection L as <-. split; [|easy]. apply made_flux.
  - apply made_sel; [exact H|]. apply sel_flag_new. eapply load_sel_new, L1.
  - exact (free_new y _ H).
Qed.
Lemma made_dist_load inp y y' : made y -> load_distance rg inp y = (Ok tt, y') -> made y' /\ w_auxs (y_w y') = w_auxs (y_w y) /\ y_aux y' = y_aux y /\ y_der y' = y_der y.
Proof.
  intros H L. unfold load_distance in L. destruct (selection_of E inp "distance selection") as [t|]; [|injection L as <-; easy].
  apply bind_inv in L. destruct L as (s & y1 & L1 & L). apply lift_inv in L1. destruct L1 as [L1 ->]. apply bind_inv in L. destruct L as (i & y2 & L2 & L).
  injection L2 as <- <-. injection L as <-. split; [|easy]. apply made_dist.
  - apply made_sel; [exact H|]. apply sel_flag_new. eapply load_sel_new, L1.
  - exact (free_new y _ H).
Qed.
Lemma made_sky_load inp y y' : made y -> load_spatial rg inp y = (Ok tt, y') -> made y' /\ w_auxs (y_w y') = w_auxs (y_w y) /\ y_aux y' = y_aux y /\ y_der y' = y_der y.
Proof.
  intros H L. unfold load_spatial in L. destruct (selection_of E inp "spatial selection") as [t|]; [|injection L as <-; easy].
  apply bind_inv in L. destruct L as (s & y1 & L1 & L). apply lift_inv in L1. destruct L1 as [L1 ->]. apply bind_inv in L. destruct L as (i & y2 & L2 & L).
  injection L2 as <- <-. injection L as <-. split; [|easy]. apply made_sky.
  - apply made_sel; [exact H|]. eapply load_sel_new, L1.
  - exact (free_new y _ H).
Qed.

(** Samplers made so far have no links. *)
Definition bare (y : synth) : Prop := forall i a, (nA <= i)%nat -> nth_error (w_auxs (y_w y)) i = Some a -> a_sec (a_ln a) = [] /\ a_issec (a_ln a) = false.
Lemma construct_one c nm obs ini st ty : rg_aux rg ty = Ok c -> construct c nm obs ini = Ok st -> one_norm E (k_params (a_kind st)).
Proof.
  intros C H. assert (N := fun n o i st => @mn_aux _ _ MN ty c n o i st C). unfold construct, or_else in H.
  destruct (ac_new c (Some nm) (Some obs) ini) as [x|e] eqn:A1; [injection H as <-; eapply N, A1|]. destruct e; try discriminate.
  destruct (ac_new c None (Some obs) ini) as [x|e] eqn:A2; [injection H as <-; eapply N, A2|]. destruct e; try discriminate.
  destruct (ac_new c (Some nm) None ini) as [x|e] eqn:A3; [injection H as <-; eapply N, A3|]. destruct e; try discriminate.
  apply rbind_inv in H. destruct H as (x & A4 & H). injection H as <-. exact (N _ _ _ _ A4).
Qed.
Lemma made_build nm s y i y' : made y -> bare y -> build_aux rg nm s y = (Ok i, y') ->
  made y' /\ bare y' /\ i = length (w_auxs (y_w y)) /\ length (w_auxs (y_w y')) = S i /\ y_aux y' = y_aux y /\ y_der y' = y_der y.
Proof.
  intros H Br L. unfold build_aux in L. destruct (as_type s) as [| | | | |ty| | | |]; try discriminate. destruct (as_observed s) as [| | |obs| | | | | |]; try discriminate.
  apply bind_inv in L. destruct L as (ini & y1 & L1 & L). apply lift_inv in L1. destruct L1 as [_ ->].
  apply bind_inv in L. destruct L as (c & y1 & L1 & L). apply lift_inv in L1. destruct L1 as [C ->].
  apply bind_inv in L. destruct L as (st & y1 & L1 & L). apply lift_inv in L1. destruct L1 as [ST ->].
  apply bind_inv in L. destruct L as (u & y1 & L1 & L). injection L1 as <- <-. fold (more_sel y (unity E "unity")) in L.
  apply bind_inv in L. destruct L as (p & y1 & L1 & L). apply lift_inv in L1. destruct L1 as [P ->].
  apply bind_inv in L. destruct L as (sel & y1 & L1 & L).
  assert (Z : made y1 /\ free_of y1 sel /\ w_auxs (y_w y1) = w_auxs (y_w y) /\ y_aux y1 = y_aux y /\ y_der y1 = y_der y).
  { assert (M1 := made_sel y _ H (unity_new "unity")). assert (F1 := free_new y (unity E "unity") H).
    assert (Case1 : forall x, (Ok x, more_sel y (unity E "unity")) = (Ok sel, y1) -> x = length (w_sels (y_w y)) -> made y1 /\ free_of y1 sel /\ w_auxs (y_w y1) = w_auxs (y_w y) /\ y_aux y1 = y_aux y /\ y_der y1 = y_der y).
    { intros x X ->. injection X as <- <-. now split. }
    assert (Case2 : forall t, (let! x := lift (load_sel rg false t) in alloc_sel (sel_flag false false true x)) (more_sel y (unity E "unity")) = (Ok sel, y1) ->
       made y1 /\ free_of y1 sel /\ w_auxs (y_w y1) = w_auxs (y_w y) /\ y_aux y1 = y_aux y /\ y_der y1 = y_der y).
    { intros t X. apply bind_inv in X. destruct X as (x & y2 & X1 & X). apply lift_inv in X1. destruct X1 as [X1 ->]. injection X as <- <-. split.
      - apply (made_sel (more_sel y (unity E "unity")) _ M1). apply sel_flag_new. eapply load_sel_new, X1.
      - split; [exact (free_new _ _ M1)|easy]. }
    destruct (as_sel s) as [t|]; [|now apply (Case1 _ L1)]. destruct t; first [now apply (Case1 _ L1)|exact (Case2 _ L1)]. }
  destruct Z as (M & F & W & A & D). injection L as <- <-. fold (more_aux y1 (Sampler st (ALink nil false nil sel) (ADyn p false None None None None None))).
  split; [apply made_sampler; [exact M|exact F|]|].
  - exists p. split; [easy|]. eapply settled_sets; [|exact P]. apply settled_new. eapply construct_one; eassumption.
  - split; [|split; [now rewrite W|split; [cbn; rewrite app_length, W; cbn; lia|easy]]].
    intros i a L X. cbn in X. apply nth_more in X. rewrite W in X. destruct X as [X|[-> ->]]; [now apply (Br i)|easy].
Qed.
Record collected (y : synth) (d : dict nat) : Prop := {
  co_nodup : NoDup (dkeys d);
  co_range : forall k i, In (k, i) d -> (nA <= i < length (w_auxs (y_w y)))%nat;
  co_inj : forall k k' i, In (k, i) d -> In (k', i) d -> k = k' }.
Lemma collected_more y y' d nm i : collected y d -> i = length (w_auxs (y_w y)) -> length (w_auxs (y_w y')) = S i -> (nA <= i)%nat -> collected y' (dset d nm i).
Proof.
  intros [C1 C2 C3] -> L N. split.
  - now apply NoDup_dset.
  - intros k j I. apply In_dset in I. destruct I as [[-> ->]|I]; [lia|]. apply C2 in I. lia.
  - intros k k' j I I'. apply In_dset in I. apply In_dset in I'. destruct I as [[-> ->]|I], I' as [[-> E']|I']; try easy.
    + apply C2 in I'. lia.
    + subst j. apply C2 in I. lia.
    + now apply (C3 k k' j).
Qed.
Lemma made_gather l : forall acc y acc' y' l', made y -> bare y -> collected y (fst acc) -> gather rg l acc y = (Ok acc', y', l') ->
  made y' /\ bare y' /\ collected y' (fst acc') /\ y_aux y' = y_aux y /\ y_der y' = y_der y.
Proof.
  induction l as [|[nm t] l IH]; intros acc y acc' y' l' M Br C G; cbn [gather] in G; [injection G as <- <- <-; easy|].
  destruct t; try discriminate. destruct (split_entry E d) as [[s|e] d1]; [|discriminate].
  destruct (gather1 rg nm s acc y) as [[acc1|e] y1] eqn:G1; [|discriminate]. destruct (gather rg l acc1 y1) as [[x y2] l2] eqn:G2. injection G as -> <- <-.
  unfold gather1 in G1. apply bind_inv in G1. destruct G1 as (secs & y3 & L1 & G1). apply lift_inv in L1. destruct L1 as [_ ->].
  apply bind_inv in G1. destruct G1 as (i & y3 & L1 & G1). injection G1 as <- ->.
  destruct (made_build _ _ _ _ _ M Br L1) as (M1 & Br1 & I1 & Le & A1 & D1).
  assert (C1 : collected y1 (dset (fst acc) nm i)) by (apply (collected_more y); auto; subst i; apply (md_len _ M)).
  destruct (IH (dset (fst acc) nm i, match secs with None => snd acc | Some l0 => dset (snd acc) nm l0 end) y1 acc' y2 l2 M1 Br1 C1 G2) as (Z1 & Z2 & Z3 & Z4 & Z5).
  repeat (split; [assumption|]). split; congruence.
Qed.

(** ** Links *)
Definition linked (auxs : dict nat) (named : string -> Prop) (y : synth) : Prop := forall i a, (nA <= i)%nat -> nth_error (w_auxs (y_w y)) i = Some a ->
  (forall k j, In (k, j) (a_sec (a_ln a)) -> (nA <= j)%nat /\ exists b, nth_error (w_auxs (y_w y)) j = Some b /\ a_issec (a_ln b) = true) /\
  (a_issec (a_ln a) = true -> exists s, named s /\ dget auxs s = Some i).
Definition only_links (y y' : synth) : Prop := exists h, y' = with_w y (w_set_auxs h (y_w y)) /\ relinked (w_auxs (y_w y)) h.
Lemma relinked_refl h : relinked h h.
Proof. split; [easy|]. eauto. Qed.
Lemma relinked_trans h1 h2 h3 : relinked h1 h2 -> relinked h2 h3 -> relinked h1 h3.
Proof.
  intros [L R] [L' R']. split; [congruence|]. intros i a A. destruct (R' _ _ A) as (b & Bb & X1 & X2 & X3). destruct (R _ _ Bb) as (c & C & Y1 & Y2 & Y3). exists c. split; [exact C|]. split; [congruence|split; congruence].
Qed.
Lemma relinked_set h i a0 a1 : nth_error h i = Some a0 -> a_st a1 = a_st a0 -> a_dy a1 = a_dy a0 -> a_sel (a_ln a1) = a_sel (a_ln a0) -> relinked h (lset h i a1).
Proof.
  intros H S D L. split; [apply lset_length|]. intros j a A. rewrite nth_lset in A. destruct (Nat.eqb_spec i j) as [->|N]; [|eauto]. rewrite H in A. injection A as <-. eauto.
Qed.
Lemma get_aux_inv i (w : world) a w' : get_aux i w = (Ok a, w') -> nth_error (w_auxs w) i = Some a /\ w' = w.
Proof. unfold get_aux. destruct (nth_error (w_auxs w) i); cbn; [|discriminate]. intros H. injection H as <- <-. easy. Qed.
Lemma link_step auxs named y p c s w' : linked auxs named y -> (nA <= p)%nat -> named s -> dget auxs s = Some c -> (nA <= c)%nat ->
  set_secondary p c (y_w y) = (Ok tt, w') -> exists h, w' = w_set_auxs h (y_w y) /\ relinked (w_auxs (y_w y)) h /\ linked auxs named (with_w y (w_set_auxs h (y_w y))).
Proof.
  intros Lk NP NM D NC H. unfold set_secondary in H. apply bind_inv in H. destruct H as (ap & w1 & H1 & H). apply get_aux_inv in H1. destruct H1 as [AP ->].
  apply bind_inv in H. destruct H as (ac & w1 & H1 & H). apply get_aux_inv in H1. destruct H1 as [AC ->].
  apply bind_inv in H. destruct H as ([] & w1 & H1 & H). injection H1 as <-. apply bind_inv in H. destruct H as (ap' & w2 & H1 & H). apply get_aux_inv in H1. destruct H1 as [AP' ->].
  injection H as <-. set (h0 := w_auxs (y_w y)) in *. cbn [w_auxs w_set_auxs] in *.
  set (c1 := upd_ln (fun l => ALink (a_sec l) true (a_parents l ++ [name_of ap]) (a_sel l)) ac) in *. set (h1 := lset h0 c c1) in *.
  set (p1 := upd_ln (fun l => ALink (dset (a_sec l) (name_of ac) c) (a_issec l) (a_parents l) (a_sel l)) ap') in *.
  exists (lset h1 p p1). split; [reflexivity|].
  assert (R1 : relinked h0 h1) by (eapply relinked_set; [exact AC|easy..]).
  assert (R2 : relinked h1 (lset h1 p p1)) by (eapply relinked_set; [exact AP'|easy..]).
  split; [exact (relinked_trans _ _ _ R1 R2)|].
  assert (F1 : forall i a, nth_error h1 i = Some a -> exists a0, nth_error h0 i = Some a0 /\ a_sec (a_ln a) = a_sec (a_ln a0) /\ a_issec (a_ln a) = (Nat.eqb c i || a_issec (a_ln a0))%bool).
  { intros i a A. unfold h1 in A. rewrite nth_lset in A. destruct (Nat.eqb_spec c i) as [<-|N]; [|exists a; easy]. rewrite AC in A. injection A as <-. exists ac. easy. }
  assert (F2 : forall i a, nth_error (lset h1 p p1) i = Some a -> exists a0, nth_error h0 i = Some a0 /\
     (forall k j, In (k, j) (a_sec (a_ln a)) -> j = c \/ In (k, j) (a_sec (a_ln a0))) /\ a_issec (a_ln a) = (Nat.eqb c i || a_issec (a_ln a0))%bool).
  { intros i a A. rewrite nth_lset in A. destruct (Nat.eqb_spec p i) as [<-|N].
    - rewrite AP' in A. injection A as <-. destruct (F1 _ _ AP') as (a0 & A0 & S & I). exists a0. split; [exact A0|]. split; [|exact I]. intros k j X. cbn in X. apply In_dset in X. rewrite S in X. destruct X as [[_ X]|X]; auto.
    - destruct (F1 _ _ A) as (a0 & A0 & S & I). exists a0. split; [exact A0|]. split; [|exact I]. intros k j X. rewrite S in X. now right. }
  assert (F3 : forall i a0, nth_error h0 i = Some a0 -> exists a, nth_error (lset h1 p p1) i = Some a).
  { intros i a0 A. destruct (nth_error (lset h1 p p1) i) as [a|] eqn:X; [eauto|]. apply nth_error_None in X. rewrite (proj1 R2), (proj1 R1) in X. assert (Z : (i < length h0)%nat) by (apply nth_error_Some; congruence). lia. }
  intros i a NI A. cbn [y_w with_w w_auxs w_set_auxs] in *. destruct (F2 _ _ A) as (a0 & A0 & S & I). destruct (Lk i a0 NI A0) as [L1 L2]. split.
  - intros k j X. destruct (S k j X) as [->|X'].
    + split; [exact NC|]. destruct (F3 _ _ AC) as (b & Bb). exists b. split; [exact Bb|]. destruct (F2 _ _ Bb) as (b0 & _ & _ & ->). now rewrite Nat.eqb_refl.
    + destruct (L1 k j X') as (NJ & b0 & B0 & IB). split; [exact NJ|]. destruct (F3 _ _ B0) as (b & Bb). exists b. split; [exact Bb|]. destruct (F2 _ _ Bb) as (b2 & B2 & _ & ->).
      fold h0 in B0. rewrite B0 in B2. injection B2 as <-. rewrite IB. apply Bool.orb_true_r.
  - intros X. rewrite I in X. apply Bool.orb_true_iff in X. destruct X as [X|X]; [|now apply L2]. apply Nat.eqb_eq in X. subst i. eauto.
Qed.
Lemma only_refl y : only_links y y.
Proof. exists (w_auxs (y_w y)). split; [destruct y as [[] ]; reflexivity|apply relinked_refl]. Qed.
Lemma link1_ok auxs (named : string -> Prop) p l : (forall s c, dget auxs s = Some c -> (nA <= c)%nat) -> (nA <= p)%nat -> forall y w', (forall s, In (Some s) l -> named s) -> linked auxs named y ->
  link1 auxs p l (y_w y) = (Ok tt, w') -> exists h, w' = w_set_auxs h (y_w y) /\ relinked (w_auxs (y_w y)) h /\ linked auxs named (with_w y (w_set_auxs h (y_w y))).
Proof.
  intros HA NP. induction l as [|[s|] l IH]; intros y w' NM Lk H; cbn [link1] in H.
  1,3: injection H as <-; exists (w_auxs (y_w y)); (split; [destruct y as [[] ]; reflexivity|]); (split; [apply relinked_refl|]); destruct y as [[] ]; exact Lk.
  apply bind_inv in H. destruct H as (c & w1 & H1 & H). apply lift_inv in H1. destruct H1 as [H1 ->]. destruct (dget auxs s) as [c'|] eqn:D; [|discriminate]. injection H1 as ->.
  apply bind_inv in H. destruct H as ([] & w1 & H1 & H). destruct (link_step auxs named y p c s w1 Lk NP (NM s (or_introl eq_refl)) D (HA _ _ D) H1) as (h & -> & R & Lk1).
  destruct (IH (with_w y (w_set_auxs h (y_w y))) w') as (h2 & -> & R2 & Lk2); [intros s' I; apply NM; now right|exact Lk1|exact H|].
  exists h2. split; [reflexivity|]. split; [|exact Lk2]. eapply relinked_trans; [exact R|exact R2].
Qed.
Lemma link_ok auxs (named : string -> Prop) secs : (forall s c, dget auxs s = Some c -> (nA <= c)%nat) -> forall y w', (forall kv s, In kv secs -> In (Some s) (snd kv) -> named s) -> linked auxs named y ->
  link auxs secs (y_w y) = (Ok tt, w') -> exists h, w' = w_set_auxs h (y_w y) /\ relinked (w_auxs (y_w y)) h /\ linked auxs named (with_w y (w_set_auxs h (y_w y))).
Proof.
  intros HA. unfold link. induction secs as [|kv secs IH]; intros y w' NM Lk H; cbn [iterM] in H.
  - injection H as <-. exists (w_auxs (y_w y)). split; [destruct y as [[] ]; reflexivity|]. split; [apply relinked_refl|]. destruct y as [[] ]; exact Lk.
  - apply bind_inv in H. destruct H as ([] & w1 & H1 & H). apply bind_inv in H1. destruct H1 as (p & w2 & H2 & H1). apply lift_inv in H2. destruct H2 as [H2 ->].
    destruct (dget auxs (fst kv)) as [p'|] eqn:D; [|discriminate]. injection H2 as ->.
    destruct (link1_ok auxs named p (snd kv) HA (HA _ _ D) y w1) as (h & -> & R & Lk1); [intros s I; apply (NM kv s); [now left|exact I]|exact Lk|exact H1|].
    destruct (IH (with_w y (w_set_auxs h (y_w y))) w') as (h2 & -> & R2 & Lk2); [intros kv' s I; apply NM; now right|exact Lk1|exact H|].
    exists h2. split; [reflexivity|]. split; [|exact Lk2]. eapply relinked_trans; [exact R|exact R2].
Qed.

(** What is dropped from the list. *)
Lemma In_ddel {A} (d : dict A) k k2 v : NoDup (dkeys d) -> In (k2, v) (ddel d k) -> In (k2, v) d /\ k2 <> k.
Proof.
  induction d as [|[k' v'] d IH]; cbn [ddel]; [easy|]. intros N H. cbn in N. inversion N as [|? ? N1 N2]; subst. destruct (String.eqb_spec k k') as [->|X].
  - split; [now right|]. intros ->. apply N1. apply in_map_iff. now exists (k', v).
  - destruct H as [H|H]; [injection H as <- <-; split; [now left|congruence]|]. destruct (IH N2 H). split; [now right|assumption].
Qed.
Lemma NoDup_ddel {A} (d : dict A) k : NoDup (dkeys d) -> NoDup (dkeys (ddel d k)).
Proof.
  induction d as [|[k' v'] d IH]; cbn [ddel]; [easy|]. intros N. cbn in N. inversion N as [|? ? N1 N2]; subst. destruct (String.eqb_spec k k') as [->|X]; [exact N2|].
  cbn. constructor; [|now apply IH]. intros I. apply in_map_iff in I. destruct I as ([k2 v2] & K & I). cbn in K. subst k2. apply In_ddel in I; [|exact N2]. destruct I as [I _]. apply N1, in_map_iff. now exists (k', v2).
Qed.
Lemma drop1_in l : forall (d : dict nat), NoDup (dkeys d) -> NoDup (dkeys (drop1 d l)) /\ forall k i, In (k, i) (drop1 d l) -> In (k, i) d /\ ~ In (Some k) l.
Proof.
  unfold drop1. induction l as [|[s|] l IH]; intros d N; cbn [fold_left].
  - split; [exact N|]. intros k i I. split; [exact I|easy].
  - destruct (IH (ddel d s) (NoDup_ddel d s N)) as [N1 IH1]. split; [exact N1|]. intros k i I. destruct (IH1 k i I) as [I1 X]. apply In_ddel in I1; [|exact N]. destruct I1 as [I1 NE].
    split; [exact I1|]. intros [Z|Z]; [congruence|auto].
  - destruct (IH d N) as [N1 IH1]. split; [exact N1|]. intros k i I. destruct (IH1 k i I) as [I1 X]. split; [exact I1|]. intros [Z|Z]; [discriminate|auto].
Qed.
Lemma drop_in secs : forall (d : dict nat), NoDup (dkeys d) -> forall k i, In (k, i) (drop d secs) -> In (k, i) d /\ forall kv, In kv secs -> ~ In (Some k) (snd kv).
Proof.
  unfold drop. induction secs as [|kv secs IH]; intros d N k i I; cbn [fold_left] in I; [easy|].
  destruct (drop1_in (snd kv) d N) as [N1 D1]. destruct (IH _ N1 k i I) as [I1 X]. destruct (D1 k i I1) as [I2 X2]. split; [exact I2|]. intros kv' [<-|Z]; auto.
Qed.

(** ** Registering *)
Definition tops_in (y : synth) (T : nat -> Prop) : Prop := (forall k i, In (k, i) (y_aux y) -> T i) /\ (forall i, y_der y = Some i -> T i).
Lemma made_other y z : made y -> y_w z = y_w y -> y_sp z = y_sp y -> y_lum z = y_lum y -> y_nmodel z = y_nmodel y -> y_spaces z = y_spaces y -> y_graph z = y_graph y ->
  y_flux z = y_flux y -> y_fluxset z = y_fluxset y -> y_dsel z = y_dsel y -> y_dset z = y_dset y -> y_ssel z = y_ssel y -> made z.
Proof.
  intros [H1 H2 H3 H4 H5 H6 H7 H8 H9 H10 H11] W SP L NM SPA GR F FS D DS SS.
  assert (U : forall r k, uses z r k <-> uses y r k) by (intros [] k; cbn; now rewrite ?W, ?F, ?D, ?SS).
  split; rewrite ?W, ?SP, ?NM, ?SPA, ?GR, ?F, ?FS, ?D, ?DS; auto.
  - intros r k X. apply (H1 r). now apply U.
  - intros r r' k X X'. apply (H2 r r' k); now apply U.
  - now rewrite L.
Qed.
Lemma add_ok i y y' T : made y -> tops_in y T -> T i -> add_quantity (IsSampler i) y = (Ok tt, y') -> made y' /\ tops_in y' T /\ y_w y' = y_w y.
Proof.
  intros M [T1 T2] HT H. unfold add_quantity in H. apply bind_inv in H. destruct H as (a & y1 & H1 & H). unfold in_w in H1. destruct (get_aux i (y_w y)) as [[x|e] w1] eqn:G; [|discriminate].
  apply get_aux_inv in G. destruct G as [_ ->]. injection H1 as <- <-. replace (with_w y (y_w y)) with y in H by (destruct y; reflexivity).
  destruct (k_lum (kind_of x)).
  - injection H as <-. split; [eapply made_other; [exact M|easy..]|]. split; [|easy]. split; [exact T1|]. cbn. intros j X. injection X as <-. exact HT.
  - destruct (a_issec (a_ln x)); [discriminate|]. apply bind_inv in H. destruct H as (y2 & y3 & H1 & H). injection H1 as <- <-. destruct (dmem (y_aux y) (name_of x)); [discriminate|].
    injection H as <-. split; [eapply made_other; [exact M|easy..]|]. split; [|easy]. split; [|exact T2]. cbn. intros k j X. apply In_dset in X. destruct X as [[-> ->]|X]; [exact HT|eauto].
Qed.
Lemma adds_ok T l : forall y y', made y -> tops_in y T -> (forall kv, In kv l -> T (snd kv)) ->
  iterM (fun kv : string * nat => add_quantity (IsSampler (snd kv))) l y = (Ok tt, y') -> made y' /\ tops_in y' T /\ y_w y' = y_w y.
Proof.
  induction l as [|kv l IH]; intros y y' M TI HT H; cbn [iterM] in H; [injection H as <-; easy|].
  apply bind_inv in H. destruct H as ([] & y1 & H1 & H). destruct (add_ok _ _ _ T M TI (HT kv (or_introl eq_refl)) H1) as (M1 & TI1 & W1).
  destruct (IH y1 y' M1 TI1 (fun kv' I => HT kv' (or_intror I)) H) as (M2 & TI2 & W2). split; [exact M2|]. split; [exact TI2|congruence].
Qed.

(** What remains to be said about the samplers. *)
Definition wired (y : synth) : Prop := exists T, tops_in y T /\ (forall i, T i -> (nA <= i < length (w_auxs (y_w y)))%nat) /\
  (forall i a, (nA <= i)%nat -> nth_error (w_auxs (y_w y)) i = Some a ->
     (forall k j, In (k, j) (a_sec (a_ln a)) -> (nA <= j)%nat /\ exists b, nth_error (w_auxs (y_w y)) j = Some b /\ a_issec (a_ln b) = true) /\
     (T i -> a_issec (a_ln a) = false)).
Lemma load_aux_made inp y y' inp' : made y -> bare y -> y_aux y = [] -> y_der y = None -> load_aux rg inp y = (Ok y', inp') -> made y' /\ wired y'.
Proof.
  intros M Br A0 D0 H. unfold load_aux in H. destruct (dget inp "auxiliary samplers") as [t|].
  2:{ injection H as <- <-. split; [exact M|]. exists (fun _ => False). split; [split; [rewrite A0; easy|rewrite D0; easy]|]. split; [easy|]. intros i a N A. destruct (Br i a N A) as [S _]. rewrite S. easy. }
  destruct (items E t) as [l|e]; [|discriminate]. destruct (gather rg l (nil, nil) y) as [[x y1] l'] eqn:G. injection H as H <-. apply rbind_inv in H. destruct H as (acc & -> & H).
  destruct (made_gather l (nil, nil) y acc y1 l' M Br) as (M1 & Br1 & C1 & A1 & D1); [split; [constructor|easy|easy]|exact G|].
  match type of H with (let (_, _) := ?m y1 in _) = _ => destruct (m y1) as [[u|e] y2] eqn:B end; [|discriminate]. injection H as <-.
  destruct u. apply bind_inv in B. destruct B as ([] & y3 & B1 & B2). unfold in_w in B1. destruct (link (fst acc) (snd acc) (y_w y1)) as [[[]|e] w3] eqn:LK; [|discriminate]. injection B1 as <-.
  set (named := fun s => exists kv, In kv (snd acc) /\ In (Some s) (snd kv)).
  destruct (link_ok (fst acc) named (snd acc)) with (y := y1) (w' := w3) as (h & -> & R & Lk).
  - intros s c X. apply dget_In in X. apply (co_range _ _ C1 s c X).
  - intros kv s I I'. exists kv. now split.
  - intros i a N A. destruct (Br1 i a N A) as [S1 S2]. rewrite S1, S2. easy.
  - exact LK.
  - set (T := fun i => exists k, In (k, i) (drop (fst acc) (snd acc))). destruct (adds_ok T (drop (fst acc) (snd acc)) _ y2 (made_links y1 h M1 R)) as (M2 & T2 & W2).
    + split; cbn; [rewrite A1, A0; easy|rewrite D1, D0; easy].
    + intros [k i] I. now exists k.
    + exact B2.
    + split; [exact M2|]. exists T. split; [exact T2|]. rewrite W2. cbn [y_w with_w w_auxs w_set_auxs]. split.
      * intros i (k & I). apply drop_in in I; [|apply C1]. destruct I as [I _]. apply (co_range _ _ C1) in I. now rewrite (proj1 R).
      * intros i a N A. destruct (Lk i a N A) as [L1 L2]. split; [exact L1|]. intros (k & I). destruct (a_issec (a_ln a)); [|easy]. exfalso. destruct (L2 eq_refl) as (s & (kv & K1 & K2) & D).
        apply drop_in in I; [|apply C1]. destruct I as [I X]. apply dget_In in D. rewrite <- (co_inj _ _ C1 k s i I D) in K2. exact (X kv K1 K2).
Qed.
Lemma reach_new y i : made y -> wired y -> reach y i -> (nA <= i < length (w_auxs (y_w y)))%nat.
Proof.
  intros M (T & [T1 T2] & T3 & W) R. induction R as [k i H|i H|i a k j R IH A I].
  - apply T3, (T1 k), H.
  - apply T3, T2, H.
  - destruct (W i a) as [W1 _]; [lia|exact A|]. destruct (W1 k j I) as (N & b & Bb & _). split; [exact N|]. apply nth_error_Some. congruence.
Qed.
Lemma made_undrawn y : made y -> wired y -> undrawn y.
Proof.
  intros M W. assert (RN := reach_new y). assert (U : forall r k, selects y r k -> uses y r k).
  { intros [| | |i] k; cbn; auto. intros [R X]. split; [|exact X]. apply (RN i M W R). }
  split; try apply M.
  - intros r k X. apply U in X. destruct (md_range _ M _ _ X) as [X1 X2]. apply nth_error_Some in X2. destruct (nth_error (w_sels (y_w y)) k) as [s|] eqn:G; [|easy]. exists s. split; [easy|]. exact (md_new _ M k s X1 G).
  - intros r r' k X X'. apply (md_apart _ M r r' k); now apply U.
  - intros i R. destruct (RN i M W R) as [R1 R2]. apply nth_error_Some in R2. destruct (nth_error (w_auxs (y_w y)) i) as [a|] eqn:G; [|easy]. destruct (md_aux _ M i a R1 G) as (o & D & S).
    exists a, o. split; [easy|]. split; [exact D|]. split; [exact S|]. destruct W as (T & [T1 T2] & T3 & W). split.
    + intros IS. destruct (W i a R1 G) as [_ W2]. inversion R as [k ? H|? H|p b k ? R0 Bb I]; subst.
      * rewrite (W2 (T1 k i H)) in IS. discriminate.
      * rewrite (W2 (T2 i H)) in IS. discriminate.
      * exists p, b, k. now split.
    + intros (p & b & k & RP & Bb & I). destruct (RN p M (ex_intro _ T (conj (conj T1 T2) (conj T3 W))) RP) as [RP1 _]. destruct (W p b RP1 Bb) as [W1 _].
      destruct (W1 k i I) as (_ & c & C & IC). congruence.
Qed.
End Loaded.

Theorem loaded_undrawn E (rg : registry E) w inp y inp' : makes_new rg -> from_dict rg w inp = (Ok y, inp') -> undrawn y /\ w_n (y_w y) = w_n w.
Proof.
  intros MN H. unfold from_dict in H. destruct (load_base rg w inp) as [y0|e] eqn:LB; [|discriminate].
  destruct ((load_flux rg inp ;; load_distance rg inp ;; load_spatial rg inp) y0) as [[[]|e] y1] eqn:LS; [|discriminate].
  set (nS := length (w_sels w)). set (nA := length (w_auxs w)).
  assert (B : made E nS nA (w_n w) y0 /\ w_auxs (y_w y0) = w_auxs w /\ y_aux y0 = [] /\ y_der y0 = None).
  { unfold load_base in LB. apply rbind_inv in LB. destruct LB as (lum & LL & LB). apply rbind_inv in LB. destruct LB as (sp & LSP & LB). apply rbind_inv in LB. destruct LB as (sd & _ & LB).
    destruct sd; try discriminate. destruct sp as [d m|d m]; [|discriminate].
    assert (HD : sd_dist d = None /\ sd_theta d = None /\ sd_phi d = None /\ sd_prob d = None /\ settled E (sc_params (sd_cls d)) (sd_par d)).
    { unfold load_sp in LSP. apply rbind_inv in LSP. destruct LSP as (t & _ & X). apply rbind_inv in X. destruct X as (kv & _ & X). apply rbind_inv in X. destruct X as (o & LD & X).
      assert (Y : exists d0 m0, o = DSpatial d0 m0 /\ d0 = d).
      { destruct o as [d0 [ty fm [b|]]|d0 m0].
        - apply rbind_inv in X. destruct X as (l & _ & X). apply rbind_inv in X. destruct X as (b' & _ & X). destruct b'; try discriminate. injection X as -> _. eauto.
        - injection X as -> _. eauto.
        - discriminate. }
      destruct Y as (d0 & m0 & -> & ->). unfold load_dist in LD. apply rbind_inv in LD. destruct LD as (o & RD & LD). apply rbind_inv in LD. destruct LD as (l & _ & LD).
      destruct o as [d1 m1|d1 m1]; apply rbind_inv in LD; destruct LD as (p & P & LD); [|discriminate]. injection LD as <- _.
      destruct (mn_sp MN _ RD) as [E1 E2]. rewrite E1 in P |- *. cbn in *. repeat (split; [easy|]). eapply settled_sets; [|exact P]. now apply settled_new. }
    assert (HL : forall l lm, lum = Some (DLuminosity l lm) -> ld_prob l = None /\ settled E (lc_params (ld_cls l)) (ld_par l)).
    { intros l lm ->. unfold load_lum in LL. destruct (dget inp "luminosity distribution"); [|discriminate]. apply rbind_inv in LL. destruct LL as (kv & _ & LL). apply rbind_inv in LL. destruct LL as (o & LD & LL). injection LL as ->.
      unfold load_dist in LD. apply rbind_inv in LD. destruct LD as (o & RD & LD). apply rbind_inv in LD. destruct LD as (l0 & _ & LD).
      destruct o as [d1 m1|d1 m1]; apply rbind_inv in LD; destruct LD as (p & P & LD); [discriminate|]. injection LD as <- _.
      destruct (mn_lum MN _ RD) as [E1 E2]. rewrite E1 in P |- *. cbn in *. split; [easy|]. eapply settled_sets; [|exact P]. now apply settled_new. }
    assert (MS : forall lo lm, (forall l, lo = Some l -> ld_prob l = None /\ settled E (lc_params (ld_cls l)) (ld_par l)) ->
      let y0 := synth_new w d m lo lm z in made E nS nA (w_n w) y0 /\ w_auxs (y_w y0) = w_auxs w /\ y_aux y0 = [] /\ y_der y0 = None).
    { intros lo lm HLo y00. split; [|easy]. assert (U : forall r k, uses E nA y00 r k -> (r = ForDistance /\ k = nS) \/ (r = ForFlux /\ k = S nS)).
      { intros [| | |i] k; cbn; [now right|now left|discriminate|]. intros [L (a & A & _)]. exfalso. assert (X : (i < length (w_auxs w))%nat) by (apply nth_error_Some; congruence). unfold nA in L. lia. }
      split.
      - intros r k X. apply U in X. cbn. rewrite app_length. cbn. fold nS. destruct X as [[_ ->]|[_ ->]]; lia.
      - intros r r' k X X'. apply U in X. apply U in X'. destruct X as [[-> K]|[-> K]], X' as [[-> K']|[-> K']]; try easy; lia.
      - intros k s L X. cbn in X. rewrite nth_error_app2 in X by exact L. destruct (k - length (w_sels w)) as [|[|j]]; cbn in X; [injection X as <-; apply unity_new|injection X as <-; apply unity_new|destruct j; discriminate].
      - intros i a L A. exfalso. assert (X : (i < length (w_auxs w))%nat) by (apply nth_error_Some; cbn in A; congruence). unfold nA in L. lia.
      - cbn. rewrite app_length. unfold nS, nA. lia.
      - intros _. exists (unity E "unity flux selector"). split; [|easy]. unfold y00, synth_new. cbn [y_w y_flux w_sels w_set_sels]. rewrite nth_error_app2 by lia. now replace (S (length (w_sels w)) - length (w_sels w)) with 1 by lia.
      - intros _. exists (unity E "unity distance selector"). split; [|easy]. unfold y00, synth_new. cbn [y_w y_dsel w_sels w_set_sels]. rewrite nth_error_app2 by lia. now rewrite Nat.sub_diag.
      - exact HD.
      - exact HLo.
      - easy.
      - easy. }
    destruct lum as [[l0 lm0|l lm]|]; [discriminate| |]; injection LB as <-; apply MS; [|easy]. intros l' X. injection X as <-. now apply (HL l lm). }
  destruct B as (M0 & A0 & B1 & B2). apply bind_inv in LS. destruct LS as ([] & z1 & L1 & LS). apply bind_inv in LS. destruct LS as ([] & z2 & L2 & L3).
  destruct (made_flux_load _ _ MN _ _ _ _ _ _ M0 L1) as (M1 & C1 & C2 & C3). destruct (made_dist_load _ _ MN _ _ _ _ _ _ M1 L2) as (M2 & C4 & C5 & C6). destruct (made_sky_load _ _ MN _ _ _ _ _ _ M2 L3) as (M3 & C7 & C8 & C9).
  assert (Br : bare E nA y1).
  { intros i a N A. exfalso. rewrite C7, C4, C1, A0 in A. assert (X : (i < length (w_auxs w))%nat) by (apply nth_error_Some; congruence). unfold nA in N. lia. }
  destruct (load_aux_made E rg MN nS nA (w_n w) inp y1 y inp' M3 Br) as (M4 & W4); [congruence|congruence|exact H|].
  split; [exact (made_undrawn _ _ _ _ _ M4 W4)|exact (md_n _ _ _ _ _ M4)].
Qed.
