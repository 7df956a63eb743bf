(** The invariant of the loop over the samplers, from the luminosities to the
    last registered sampler. *)
From Verif Require Import Base BaseFacts Keeps Env ParamModel SelModel SelSpec SelProofs SimVarModel DistModel DistSpec DistProofs
  AuxModel AuxSpec AuxProofs AuxProps AuxMore Tree PopModel SynthModel SynthSpec SynthFrame SynthInv SurveyProofs SurveyTree.
Open Scope nat_scope.
Open Scope list_scope.

Section P.
Variable E : env.
Notation V := (V E).
Notation Rst := (Rst E).
Notation selector := (selector E).
Notation sampler := (sampler E).
Notation world := (world E).
Notation synth := (synth E).
Notation storage := (storage E).
Notation truths := (truths E).
Implicit Types w : world.
Implicit Types a b : sampler.

(** Samplers in [U] have non-empty names; in [distinct] they differ. *)
Definition nonempty w (U : nat -> Prop) : Prop := forall j b, U j -> at_ w j b -> name_of b <> "".
Definition distinct w (U : nat -> Prop) : Prop :=
  forall i j a b, U i -> U j -> at_ w i a -> at_ w j b -> name_of a = name_of b -> i = j.
Lemma nonempty_wiring w w' U : same_wiring w w' -> nonempty w U -> nonempty w' U.
Proof.
  intros W N j b UJ B. destruct (wiring_at _ _ _ _ _ (wiring_sym _ _ _ W) B) as (b' & B' & S & _).
  unfold name_of. rewrite <- S. apply (N j b' UJ B').
Qed.
Lemma distinct_wiring w w' U : same_wiring w w' -> distinct w U -> distinct w' U.
Proof.
  intros W N i j a b UI UJ A B Q. apply wiring_sym in W.
  destruct (wiring_at _ _ _ _ _ W A) as (a' & A' & SA & _). destruct (wiring_at _ _ _ _ _ W B) as (b' & B' & SB & _).
  apply (N i j a' b' UI UJ A' B'). unfold name_of in *. now rewrite SA, SB.
Qed.
Lemma reaches_wiring w w' i j : same_wiring w w' -> reaches w i j <-> reaches w' i j.
Proof. intros W. split; apply wiring_reaches; [easy|now apply wiring_sym]. Qed.

(** [S]: the samplers collected so far; [D]: those with an entry in truth. *)
Record loop (K : Prop) prog n (w0 w : world) (S D : nat -> Prop) (tr : truths) (st : storage) : Prop := Loop {
  lp_wiring : same_wiring w0 w;
  lp_holds : holds E w S st;
  lp_rec : distinct w0 S -> recorded E w D tr;
  lp_sub : forall j, D j -> S j;
  lp_sampled : forall j, S j -> sampled w j;
  lp_wd : well_drawn E w;
  lp_judged : K -> all_judged E prog n w }.

Lemma loop_equiv K prog n w0 w S S' D D' tr st : (forall j, S j <-> S' j) -> (forall j, D j <-> D' j) ->
  loop K prog n w0 w S D tr st -> loop K prog n w0 w S' D' tr st.
Proof.
  intros HS HD [A B C F G H I]. constructor; auto.
  - now apply holds_equiv with S.
  - intros N j b DJ. apply C; [|now apply HD]. intros i k x z Ui Uk. apply N; now apply HS.
  - intros j DJ. apply HS, F, HD, DJ.
  - intros j SJ. apply G, HS, SJ.
Qed.

Lemma draw_step (K : Prop) prog rl n i w w1 w2 : acyclic w -> (K -> own_selectors w) -> well_drawn E w -> (K -> all_judged E prog n w) -> quiet E w w1 ->
  aux_draw prog rl i n w1 = (Ok tt, w2) ->
  same_wiring w w2 /\ frozen E w w2 /\ well_drawn E w2 /\ (K -> all_judged E prog n w2) /\ (forall j, reaches w i j -> sampled w2 j).
Proof.
  intros AC O WD J Q H. assert (HQ := quiet_hushed _ _ _ Q). assert (FQ := quiet_frozen _ _ _ Q). destruct Q as (W & Q2 & Q3).
  assert (AC1 : acyclic w1) by (eapply wiring_acyclic; eauto).
  destruct (draw_exactly _ _ _ _ _ _ _ AC1 H) as (t & D & S & _).
  assert (W2 : same_wiring w w2) by (eapply wiring_trans; [exact W|apply (dr_wiring D)]).
  split; [easy|]. split; [|split; [|split]].
  - eapply frozen_trans; [exact FQ|]. eapply drew_frozen; exact D.
  - eapply well_drawn_drew; [exact D|]. eapply well_drawn_hushed; eauto.
  - intros HK. eapply judged_drew; [|exact D|]. { eapply wiring_own; eauto. } eapply judged_hushed; eauto.
  - intros j R. eapply well_drawn_reaches; [| |exact S].
    + eapply well_drawn_drew; [exact D|]. eapply well_drawn_hushed; eauto.
    + eapply wiring_reaches; eauto.
Qed.

Lemma recorded_frozen w w' (D : nat -> Prop) (tr : truths) : frozen E w w' -> (forall j, D j -> sampled w j) ->
  recorded E w D tr -> recorded E w' D tr.
Proof.
  intros [W F] SA R j b DJ B. destruct (SA j DJ) as (b0 & B0 & S0). destruct (F j b0 B0 S0) as (b' & B' & O).
  assert (b' = b) by (eapply at_fun; eauto). subst b'. destruct O as (O1 & O2 & O3 & _).
  unfold name_of. rewrite <- O1, <- O3. now apply (R j).
Qed.

(** Keys that name no sampler in [U] keep their entry in truth. *)
Lemma add_truths_other w l : forall tr k, (forall kv b, In kv l -> at_ w (snd kv) b -> name_of b <> k) ->
  dget (add_truths E w l tr) k = dget tr k.
Proof.
  induction l as [|[x j] l IH]; intros tr k N; cbn [add_truths]; [reflexivity|].
  rewrite IH by (intros kv b I; apply N; now right).
  destruct (nth_error (w_auxs w) j) as [b|] eqn:B; [|reflexivity].
  apply dget_dset_neq. intros Q. apply (N (x, j) b); [now left|exact B|congruence].
Qed.

Definition below w i j := reaches w i j.
Definition near w i j := j = i \/ depends w i j.

Lemma near_below w i j : near w i j -> reaches w i j.
Proof. intros [->|D]; [constructor|]. eapply reaches_step; [exact D|constructor]. Qed.
Lemma depends_sec w i a j : at_ w i a -> (depends w i j <-> In j (map snd (a_sec (a_ln a)))).
Proof.
  intros A. split.
  - intros (b & k & B & I). assert (b = a) by (eapply at_fun; eauto). subst. apply in_map_iff. now exists (k, j).
  - intros I. apply in_map_iff in I. destruct I as ([k j'] & <- & I). now exists a, k.
Qed.

Lemma loop_aux (K : Prop) prog rl n lum w0 k i (y : synth) S D tr st tr2 st2 y2 U :
  acyclic w0 -> (K -> own_selectors w0) -> nonempty w0 U -> (forall j, S j \/ reaches w0 i j -> U j) ->
  loop K prog n w0 (y_w y) S D tr st ->
  survey_aux prog rl n lum (tr, st) (k, i) y = (Ok (tr2, st2), y2) ->
  loop K prog n w0 (y_w y2) (fun j => S j \/ reaches w0 i j) (fun j => D j \/ near w0 i j) tr2 st2 /\ frozen E (y_w y) (y_w y2) /\
  (forall q, (forall j b, near w0 i j -> at_ w0 j b -> name_of b <> q) -> dget tr2 q = dget tr q) /\ y2 = with_w y (y_w y2).
Proof.
  intros AC O NE SU L H. destruct L as [W HO RE SUB SA WD J].
  apply survey_aux_inv in H. destruct H as (a & w1 & s & A & SEC & Q & DR & YE & PR & -> & a2 & A2 & ->).
  assert (AC' : acyclic (y_w y)) by (eapply wiring_acyclic; eauto).
  assert (O' : K -> own_selectors (y_w y)) by (intros HK; eapply wiring_own; eauto).
  destruct (draw_step _ _ _ _ _ _ _ _ AC' O' WD J Q DR) as (W2 & F2 & WD2 & J2 & R2).
  assert (W02 : same_wiring w0 (y_w y2)) by (eapply wiring_trans; eauto).
  assert (NE2 : nonempty (y_w y2) U) by (eapply nonempty_wiring; eauto).
  assert (RE0 : forall j, reaches (y_w y2) i j <-> reaches w0 i j) by (intros; symmetry; now apply reaches_wiring).
  assert (LN : a_ln a2 = a_ln a).
  { destruct (wiring_at _ _ _ _ _ W2 A) as (a3 & A3 & _ & LN). assert (a3 = a2) by (eapply at_fun; eauto). now subst. }
  assert (SECS : forall j, In j (map snd (a_sec (a_ln a))) <-> depends w0 i j).
  { intros j. rewrite <- LN, <- (depends_sec _ _ _ _ A2). split; apply wiring_depends; [now apply wiring_sym|easy]. }
  split; [|split; [easy|split; [|easy]]].
  - constructor; [easy| | | | |easy|easy].
    + apply holds_add.
      * eapply holds_frozen; eauto.
      * destruct (sec_props rl (w_auxs (y_w y2)) i "" None) as [r G] eqn:PE. cbn in PR. subst r.
        apply holds_equiv with (reaches (y_w y2) i); [exact RE0|].
        eapply props_hold; [|exact PE]. intros j b RJ B. apply (NE2 j b); [|easy]. apply SU. right. now apply RE0.
      * intros j b SJ B. apply (NE2 j b); auto.
    + intros DIS. assert (DIS2 : distinct (y_w y2) (fun j => S j \/ reaches w0 i j)) by (eapply distinct_wiring; eauto).
      assert (REC : recorded E (y_w y2) D tr).
      { eapply recorded_frozen; [exact F2|eauto|].
        apply RE. intros p q x z Sp Sq. apply DIS; auto. }
      assert (REC1 : recorded E (y_w y2) (fun j => D j \/ j = i) (dset tr (name_of a2) (truth (a_par (a_dy a2))))).
      { apply recorded_one; [exact REC|exact A2|]. intros p b Dp B. apply (DIS2 p i b a2); auto. right. constructor. }
      assert (REC2 : recorded E (y_w y2) (fun j => (D j \/ j = i) \/ In j (map snd (a_sec (a_ln a))))
         (add_truths E (y_w y2) (a_sec (a_ln a)) (dset tr (name_of a2) (truth (a_par (a_dy a2)))))).
      { apply recorded_many; [exact REC1| |].
        - intros p q x z Hp Hq. apply DIS2.
          + destruct Hp as [[Hp| ->]|Hp]; auto; right; [constructor|]. apply near_below. right. now apply SECS.
          + destruct Hq as [[Hq| ->]|Hq]; auto; right; [constructor|]. apply near_below. right. now apply SECS.
        - intros j I. apply SECS in I. destruct (R2 j) as (b & B & _); [|now exists b].
          eapply wiring_reaches; [exact W|]. apply near_below. now right. }
      intros j b Dj B. apply (REC2 j b); [|easy]. destruct Dj as [Dj|[->|Dj]]; auto. right. now apply SECS.
    + intros j [Dj|Dj]; auto. right. now apply near_below.
    + intros j [Sj|R]; [eapply frozen_sampled; eauto|]. apply R2. eapply wiring_reaches; eauto.
  - intros q N. rewrite add_truths_other.
    + apply dget_dset_neq. intros Q1. destruct (wiring_at _ _ _ _ _ (wiring_sym _ _ _ W02) A2) as (b & B & SB & _).
      apply (N i b); [now left|easy|]. unfold name_of in *. congruence.
    + intros kv b I B Q1. destruct (wiring_at _ _ _ _ _ (wiring_sym _ _ _ W02) B) as (b' & B' & SB & _).
      apply (N (snd kv) b'); [|easy|unfold name_of in *; congruence]. right. apply SECS. now apply in_map.
Qed.

Lemma loop_fold (K : Prop) prog rl n lum w0 U : acyclic w0 -> (K -> own_selectors w0) -> nonempty w0 U -> forall l (y : synth) S D tr st tr2 st2 y2,
  (forall j, S j \/ (exists kv, In kv l /\ reaches w0 (snd kv) j) -> U j) ->
  loop K prog n w0 (y_w y) S D tr st ->
  foldM (survey_aux prog rl n lum) (tr, st) l y = (Ok (tr2, st2), y2) ->
  loop K prog n w0 (y_w y2) (fun j => S j \/ exists kv, In kv l /\ reaches w0 (snd kv) j)
                          (fun j => D j \/ exists kv, In kv l /\ near w0 (snd kv) j) tr2 st2 /\
  frozen E (y_w y) (y_w y2) /\
  (forall q, (forall kv j b, In kv l -> near w0 (snd kv) j -> at_ w0 j b -> name_of b <> q) -> dget tr2 q = dget tr q) /\
  y2 = with_w y (y_w y2).
Proof.
  intros AC O NE. induction l as [|[k i] l IH]; intros y S D tr st tr2 st2 y2 SU L H; cbn [foldM] in H.
  - unfold ret in H. injection H as <- <- <-. split; [|split; [apply frozen_refl|split; [auto|now destruct y]]].
    apply loop_equiv with S D; [| |easy]; intros j; (split; [auto|intros [?|(kv & [] & _)]; auto]).
  - apply bind_inv_ok in H. destruct H as ([tr1 st1] & y1 & H1 & H).
    assert (SU1 : forall j, S j \/ reaches w0 i j -> U j).
    { intros j [Sj|R]; apply SU; [auto|]. right. exists (k, i). split; [now left|easy]. }
    destruct (loop_aux _ _ _ _ _ _ _ _ _ _ _ _ _ _ _ _ U AC O NE SU1 L H1) as (L1 & F1 & T1 & Y1).
    apply IH with (2 := L1) in H.
    + destruct H as (L2 & F2 & T2 & Y2). split; [|split; [|split]].
      * eapply loop_equiv; [| |exact L2]; intros j; split.
        -- intros [[Sj|R]|(kv & I & R)]; [auto|right; exists (k, i); split; [now left|easy]|right; exists kv; split; [now right|easy]].
        -- intros [Sj|(kv & [<-|I] & R)]; [auto|auto|right; eauto].
        -- intros [[Sj|R]|(kv & I & R)]; [auto|right; exists (k, i); split; [now left|easy]|right; exists kv; split; [now right|easy]].
        -- intros [Sj|(kv & [<-|I] & R)]; [auto|auto|right; eauto].
      * eapply frozen_trans; eauto.
      * intros q N. rewrite T2, T1; [easy| |].
        -- intros j b Nj B. apply (N (k, i) j b); [now left|easy|easy].
        -- intros kv j b I Nj B. apply (N kv j b); [now right|easy|easy].
      * rewrite Y2, Y1. reflexivity.
    + intros j [[Sj|R]|(kv & I & R)]; apply SU; [auto|right; exists (k, i); split; [now left|easy]|].
      right. exists kv. split; [now right|easy].
Qed.

(** ** The luminosities *)
Fixpoint add_props rl w (l : dict nat) (st : storage) : res storage :=
  match l with
  | nil => Ok st
  | (_, j) :: r => let? s := fst (sec_props rl (w_auxs w) j "" None) in add_props rl w r (st_add st s)
  end.
Lemma der_fold_inv rl l : forall (st : storage) (tr : truths) (y : synth) r y1,
  foldM (fun acc (kv : string * nat) =>
                  let! s := props rl (snd kv) in
                  let! t2 := add_truth (E := E) (snd kv) (snd acc) in
                  ret (st_add (fst acc) s, t2)) (st, tr) l y = (Ok r, y1) ->
  y1 = y /\ add_props rl (y_w y) l st = Ok (fst r) /\ snd r = add_truths E (y_w y) l tr.
Proof.
  induction l as [|[k j] l IH]; intros st tr y r y1 H; cbn [foldM] in H.
  - unfold ret in H. injection H as <- <-. auto.
  - apply bind_inv_ok in H. destruct H as (acc & z & H1 & H).
    apply bind_inv_ok in H1. destruct H1 as (s & z1 & H1 & H2). apply props_inv in H1. destruct H1 as [-> H1].
    apply bind_inv_ok in H2. destruct H2 as (t2 & z1 & H2 & H3). apply add_truth_inv in H2. destruct H2 as (-> & b & B & ->).
    unfold ret in H3. injection H3 as <- <-. apply IH in H. cbn [fst snd] in *. destruct H as (-> & H4 & H5).
    split; [easy|]. cbn [add_props add_truths]. rewrite H1. cbn [rbind]. unfold at_ in B. rewrite B. auto.
Qed.

Record der_trace prog rl n i (y : synth) (lum : list V) (tr0 tr : truths) (st : storage) (y2 : synth) : Prop := DerTrace {
  dt_y : y2 = with_w y (y_w y2);
  dt_lum : exists sp w1 w2 a a' f vals, spatial_values (y_sp y) = Ok sp /\
    set_sp i sp (y_w y) = (Ok tt, w1) /\ aux_draw prog rl i n w1 = (Ok tt, w2) /\ at_ w2 i a /\
    aux_reads i (k_lreads (kind_of a)) w2 = (Ok vals, y_w y2) /\ at_ (y_w y2) i a' /\
    k_lum (kind_of a) = Some f /\ f vals (view_of (w_auxs (y_w y2)) a') = Ok lum /\
    add_props rl (y_w y2) (a_sec (a_ln a)) (dset nil (name_of a) (container_of a)) = Ok st /\
    tr = add_truths E (y_w y2) (a_sec (a_ln a)) (dset tr0 (name_of a') (truth (a_par (a_dy a')))) }.

Lemma survey_lum_der prog rl n prob tr0 i (y : synth) lum p1 tr st y2 : y_der y = Some i ->
  survey_lum prog rl n prob tr0 y = (Ok (lum, p1, tr, st), y2) ->
  p1 = prob /\ der_trace prog rl n i y lum tr0 tr st y2.
Proof.
  intros DE H. unfold survey_lum in H. apply bind_inv_ok in H. destruct H as (y0 & z & G & H). unfold get in G. injection G as <- <-.
  rewrite DE in H.
  match type of H with match _ with Some _ => ?m | None => _ end _ = ?r => assert (H' : m y = r) by (destruct (y_lum y); exact H) end.
  clear H. rename H' into H.
  apply bind_inv_ok in H. destruct H as (sp & z & H1 & H). apply get_sp_inv in H1. destruct H1 as [-> SP].
  apply bind_inv_ok in H. destruct H as ([] & z1 & H1 & H). apply in_w_inv in H1. destruct H1 as (w1 & H1 & ->).
  apply bind_inv_ok in H. destruct H as ([] & z1 & H2 & H). apply in_w_inv in H2. destruct H2 as (w2 & H2 & ->). cbn [y_w with_w] in H2.
  apply bind_inv_ok in H. destruct H as ([] & z1 & H3 & H). apply check_len_inv in H3. subst z1.
  apply bind_inv_ok in H. destruct H as (a & z1 & H3 & H). apply in_w_get_aux in H3. destruct H3 as [-> A]. cbn [y_w with_w] in A.
  cbv zeta in H.
  apply bind_inv_ok in H. destruct H as (vals & z1 & H3 & H). apply in_w_inv in H3. destruct H3 as (w3 & H3 & ->). cbn [y_w with_w] in H3.
  apply bind_inv_ok in H. destruct H as (a' & z1 & H4 & H). apply in_w_get_aux in H4. destruct H4 as [-> A']. cbn [y_w with_w] in A'.
  apply bind_inv_ok in H. destruct H as (wx & z1 & H4 & H). apply in_w_inv in H4. destruct H4 as (w4 & H4 & ->). cbn [y_w with_w] in H4.
  unfold get in H4. injection H4 as <- <-.
  apply bind_inv_ok in H. destruct H as (f & z1 & H4 & H). apply lift_inv in H4. destruct H4 as [H4 ->]. apply of_opt_inv in H4.
  apply bind_inv_ok in H. destruct H as (lum' & z1 & H5 & H). apply lift_inv in H5. destruct H5 as [H5 ->].
  apply bind_inv_ok in H. destruct H as (t1 & z1 & H6 & H). apply add_truth_inv in H6. destruct H6 as (-> & a2 & A2 & ->). cbn [y_w with_w] in A2.
  apply bind_inv_ok in H. destruct H as (r & z1 & H6 & H). apply der_fold_inv in H6. destruct H6 as (-> & H6 & H7). cbn [y_w with_w] in H6, H7.
  unfold ret in H. injection H as <- <- <- <- <-.
  assert (a2 = a') by (eapply at_fun; eauto). subst a2.
  split; [easy|]. constructor; [reflexivity|].
  exists sp, w1, w2, a, a', f, vals. cbn [y_w with_w]. repeat (split; [eassumption|]). exact H7.
Qed.

Lemma reads_hushed i ks w vals w' : aux_reads (E := E) i ks w = (Ok vals, w') -> hushed E w w'.
Proof.
  intros H. assert (K := aux_reads_keeps _ i ks w). rewrite H in K. cbn in K. apply aux_reads_inv in H.
  destruct H as (a & o & A & _ & ->). split; [apply K|]. split; [|reflexivity]. intros j b B. unfold at_ in *.
  cbn [w_auxs w_set_auxs]. destruct (Nat.eq_dec j i) as [->|N].
  - rewrite A in B. injection B as <-. exists (upd_dy (dy_par o) a). split; [|repeat split].
    apply nth_lset_eq. apply nth_error_Some. congruence.
  - exists b. rewrite nth_lset_neq by auto. split; [easy|repeat split].
Qed.
Lemma same_vals_container a b : same_vals E a b -> container_of b = container_of a.
Proof.
  intros (S1 & S2 & _ & S5 & S6 & S7). unfold container_of, probability_of. now rewrite S2, S5, S6, S7.
Qed.
Lemma set_sp_quiet i sp w u w1 : set_sp (E := E) i sp w = (Ok u, w1) -> quiet E w w1.
Proof.
  intros H. assert (K := upd_aux_keeps _ i (dy_sp sp) w). unfold set_sp in H. rewrite H in K. cbn in K. apply upd_aux_inv in H.
  destruct H as (a & A & ->). split; [apply K|]. split; [|reflexivity]. intros j b B. unfold at_ in *. cbn [w_auxs w_set_auxs].
  destruct (Nat.eq_dec j i) as [->|N].
  - rewrite A in B. injection B as <-. exists (upd_dy (dy_sp sp) a). split; [|repeat split].
    apply nth_lset_eq. apply nth_error_Some. congruence.
  - exists b. rewrite nth_lset_neq by auto. split; [easy|repeat split].
Qed.

Lemma add_props_holds rl w U l : forall S st st2, holds E w S st -> nonempty w U ->
  (forall j, S j \/ (exists kv, In kv l /\ reaches w (snd kv) j) -> U j) ->
  add_props rl w l st = Ok st2 -> holds E w (fun j => S j \/ exists kv, In kv l /\ reaches w (snd kv) j) st2.
Proof.
  induction l as [|[k i] l IH]; intros S st st2 HO NE SU H; cbn [add_props] in H.
  - injection H as <-. apply holds_equiv with S; [|easy]. intros j. split; [auto|]. intros [?|(kv & [] & _)]; auto.
  - apply rbind_inv in H. destruct H as (s & H1 & H). destruct (sec_props rl (w_auxs w) i "" None) as [r G] eqn:PE. cbn in H1. subst r.
    apply IH with (S := fun j => S j \/ reaches w i j) in H.
    + eapply holds_equiv; [|exact H]. intros j. split.
      * intros [[Sj|R]|(kv & I & R)]; [auto|right; exists (k, i); split; [now left|easy]|right; exists kv; split; [now right|easy]].
      * intros [Sj|(kv & [<-|I] & R)]; [auto|auto|right; eauto].
    + apply holds_add; [easy| |].
      * eapply props_hold; [|exact PE]. intros j b R B. apply (NE j b); [|easy]. apply SU. right. exists (k, i). split; [now left|easy].
      * intros j b [Sj|R] B; (apply (NE j b); [|easy]); apply SU; [auto|]. right. exists (k, i). split; [now left|easy].
    + easy.
    + intros j [[Sj|R]|(kv & I & R)]; apply SU; [auto|right; exists (k, i); split; [now left|easy]|right; exists kv; split; [now right|easy]].
Qed.

Lemma loop_der (K : Prop) prog rl n i (y : synth) lum tr0 tr st y2 U : acyclic (y_w y) -> (K -> own_selectors (y_w y)) -> nonempty (y_w y) U ->
  well_drawn E (y_w y) -> (K -> all_judged E prog n (y_w y)) -> (forall j, reaches (y_w y) i j -> U j) ->
  der_trace prog rl n i y lum tr0 tr st y2 ->
  loop K prog n (y_w y) (y_w y2) (reaches (y_w y) i) (near (y_w y) i) tr st /\
  (forall q, (forall j b, near (y_w y) i j -> at_ (y_w y) j b -> name_of b <> q) -> dget tr q = dget tr0 q).
Proof.
  intros AC O NE WD J SU [YE (sp & w1 & w2 & a & a' & f & vals & SP & H1 & H2 & A & H3 & A' & F1 & F2 & AP & TR)].
  destruct (draw_step _ _ _ _ _ _ _ _ AC O WD J (set_sp_quiet _ _ _ _ _ H1) H2) as (W2 & F & WD2 & J2 & R2).
  assert (HU := reads_hushed _ _ _ _ _ H3). assert (W3 := wiring_trans _ _ _ _ W2 (proj1 HU)).
  destruct (proj1 (proj2 HU) i a A) as (x & X & SV). assert (x = a') by (eapply at_fun; eauto). subst x. clear X.
  assert (NM : name_of a' = name_of a). { destruct SV as (SV & _). unfold name_of. now rewrite SV. }
  assert (LN : a_ln a' = a_ln a). { destruct SV as (_ & SV & _). easy. }
  assert (RE0 : forall j k, reaches (y_w y2) j k <-> reaches (y_w y) j k) by (intros; symmetry; now apply reaches_wiring).
  assert (SECS : forall j, In j (map snd (a_sec (a_ln a))) <-> depends (y_w y) i j).
  { intros j. rewrite <- LN, <- (depends_sec _ _ _ _ A'). split; apply wiring_depends; [now apply wiring_sym|easy]. }
  assert (SPLIT : forall j, reaches (y_w y) i j <-> (j = i \/ False) \/ exists kv, In kv (a_sec (a_ln a)) /\ reaches (y_w y2) (snd kv) j).
  { intros j. rewrite <- RE0, (reaches_from _ _ _ _ A'), LN. tauto. }
  assert (NE2 : nonempty (y_w y2) U) by (eapply nonempty_wiring; eauto).
  split.
  - constructor; [easy| | | | | |].
    + apply holds_equiv with (1 := fun j => iff_sym (SPLIT j)).
      apply add_props_holds with (4 := AP) (U := U); [|exact NE2|].
      * rewrite <- NM, <- (same_vals_container _ _ SV). apply holds_own; [|exact A'].
        constructor; [constructor|discriminate|easy].
      * intros j H. apply SU, SPLIT, H.
    + intros DIS. assert (DIS2 : distinct (y_w y2) (reaches (y_w y) i)) by (eapply distinct_wiring; eauto).
      subst tr. intros j b Nj B.
      apply (recorded_many E (y_w y2) (a_sec (a_ln a)) (fun j => j = i) (dset tr0 (name_of a') (truth (a_par (a_dy a'))))) with (j := j); [| | | |exact B].
      * intros p x -> X. assert (x = a') by (eapply at_fun; eauto). subst. now rewrite dget_dset_eq.
      * intros p q x z Hp Hq. apply DIS2; apply near_below; [destruct Hp as [->|Hp]|destruct Hq as [->|Hq]]; try (now left); right; now apply SECS.
      * intros q I. apply SECS in I. destruct (R2 q) as (c & C & _); [apply near_below; now right|].
        destruct (proj1 (proj2 HU) q c C) as (d & D & _). now exists d.
      * destruct Nj as [->|Nj]; [now left|]. right. now apply SECS.
    + apply near_below.
    + intros j R. apply (hushed_sampled _ _ _ _ HU). now apply R2.
    + eapply well_drawn_hushed; eauto.
    + intros HK. eapply judged_hushed; eauto.
  - intros q N. subst tr. rewrite add_truths_other.
    + apply dget_dset_neq. intros Q. destruct (wiring_at _ _ _ _ _ (wiring_sym _ _ _ W3) A') as (b & B & SB & _).
      apply (N i b); [now left|easy|]. unfold name_of in *. congruence.
    + intros kv b I B Q. destruct (wiring_at _ _ _ _ _ (wiring_sym _ _ _ W3) B) as (b' & B' & SB & _).
      apply (N (snd kv) b'); [|easy|unfold name_of in *; congruence]. right. apply SECS. now apply in_map.
Qed.


(** ** Which selectors are collected *)
Lemma files_aux prog rl n lum w0 k i (y : synth) S tr st tr2 st2 y2 U : nonempty w0 U -> (forall j, S j \/ reaches w0 i j -> U j) ->
  same_wiring w0 (y_w y) -> filed E (sel_ok E) w0 S st -> survey_aux prog rl n lum (tr, st) (k, i) y = (Ok (tr2, st2), y2) ->
  same_wiring w0 (y_w y2) /\ filed E (sel_ok E) w0 (fun j => S j \/ reaches w0 i j) st2.
Proof.
  intros NE SU W FI H. assert (KP := survey_aux_keeps _ prog rl n lum (tr, st) (k, i) y). rewrite H in KP. cbn [snd] in KP.
  assert (W2 : same_wiring w0 (y_w y2)). { eapply wiring_trans; [exact W|]. apply KP. }
  split; [easy|]. apply survey_aux_inv in H. destruct H as (a & w1 & s & A & SEC & Q & DR & YE & PR & -> & _).
  apply filed_add; [easy| |].
  - destruct (sec_props rl (w_auxs (y_w y2)) i "" None) as [r G] eqn:PE. cbn in PR. subst r.
    apply filed_sel_wiring with (w := y_w y2); [now apply wiring_sym|].
    apply filed_equiv with (reaches (y_w y2) i); [intros; symmetry; now apply reaches_wiring|].
    apply holds_filed; [reflexivity|]. eapply props_hold; [|exact PE].
    intros j b R B. apply (nonempty_wiring _ _ _ W2 NE j b); [|easy]. apply SU. right. eapply reaches_wiring; eauto.
  - intros j b Sj. apply NE. auto.
Qed.
Lemma files_fold prog rl n lum w0 U : nonempty w0 U -> forall l (y : synth) S tr st tr2 st2 y2,
  (forall j, S j \/ (exists kv, In kv l /\ reaches w0 (snd kv) j) -> U j) ->
  same_wiring w0 (y_w y) -> filed E (sel_ok E) w0 S st ->
  foldM (survey_aux prog rl n lum) (tr, st) l y = (Ok (tr2, st2), y2) ->
  same_wiring w0 (y_w y2) /\ filed E (sel_ok E) w0 (fun j => S j \/ exists kv, In kv l /\ reaches w0 (snd kv) j) st2.
Proof.
  intros NE. induction l as [|[k i] l IH]; intros y S tr st tr2 st2 y2 SU W FI H; cbn [foldM] in H.
  - unfold ret in H. injection H as <- <- <-. split; [easy|].
    apply filed_equiv with S; [|easy]. intros j. split; [auto|]. intros [?|(kv & [] & _)]; auto.
  - apply bind_inv_ok in H. destruct H as ([tr1 st1] & y1 & H1 & H).
    assert (SU1 : forall j, S j \/ reaches w0 i j -> U j).
    { intros j [Sj|R]; apply SU; [auto|]. right. exists (k, i). split; [now left|easy]. }
    destruct (files_aux _ _ _ _ _ _ _ _ S _ _ _ _ _ U NE SU1 W FI H1) as (W1 & F1).
    assert (SU2 : forall j, (fun j => S j \/ reaches w0 i j) j \/ (exists kv, In kv l /\ reaches w0 (snd kv) j) -> U j).
    { intros j [[Sj|R]|(kv & I & R)]; apply SU; [auto|right; exists (k, i); split; [now left|easy]|].
      right. exists kv. split; [now right|easy]. }
    destruct (IH _ _ _ _ _ _ _ SU2 W1 F1 H) as (W2 & F2). split; [easy|].
    eapply filed_equiv; [|exact F2]. intros j; split.
    + intros [[Sj|R]|(kv & I & R)]; [auto|right; exists (k, i); split; [now left|easy]|right; exists kv; split; [now right|easy]].
    + intros [Sj|(kv & [<-|I] & R)]; [auto|auto|right; eauto].
Qed.
Lemma files_der prog rl n i (y : synth) lum tr0 tr st y2 U : nonempty (y_w y) U -> (forall j, reaches (y_w y) i j -> U j) ->
  same_wiring (y_w y) (y_w y2) -> der_trace prog rl n i y lum tr0 tr st y2 ->
  filed E (sel_ok E) (y_w y) (reaches (y_w y) i) st.
Proof.
  intros NE SU W [YE (sp & w1 & w2 & a & a' & f & vals & SP & H1 & H2 & A & H3 & A' & F1 & F2 & AP & TR)].
  apply filed_sel_wiring with (w := y_w y2); [now apply wiring_sym|]. apply holds_filed; [reflexivity|].
  assert (HU := reads_hushed _ _ _ _ _ H3).
  destruct (proj1 (proj2 HU) i a A) as (x & X & SV). assert (x = a') by (eapply at_fun; eauto). subst x. clear X.
  assert (NM : name_of a' = name_of a). { destruct SV as (SV & _). unfold name_of. now rewrite SV. }
  assert (LN : a_ln a' = a_ln a). { destruct SV as (_ & SV & _). easy. }
  assert (RE0 : forall j k, reaches (y_w y2) j k <-> reaches (y_w y) j k) by (intros; symmetry; now apply reaches_wiring).
  assert (SPLIT : forall j, reaches (y_w y) i j <-> (j = i \/ False) \/ exists kv, In kv (a_sec (a_ln a)) /\ reaches (y_w y2) (snd kv) j).
  { intros j. rewrite <- RE0, (reaches_from _ _ _ _ A'), LN. tauto. }
  apply holds_equiv with (1 := fun j => iff_sym (SPLIT j)).
  apply add_props_holds with (4 := AP) (U := U); [|now apply nonempty_wiring with (y_w y)|].
  - rewrite <- NM, <- (same_vals_container _ _ SV). apply holds_own; [|exact A'].
    constructor; [constructor|discriminate|easy].
  - intros j H. apply SU, SPLIT, H.
Qed.

End P.
