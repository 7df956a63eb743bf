(** Circular dependencies and reset. *)
From Verif Require Import Base BaseFacts Env ParamModel SelModel DistModel AuxModel AuxSpec AuxProofs.
Open Scope string_scope.
Open Scope list_scope.

Section P.
Variable E : env.
Notation V := (V E).
Notation sampler := (sampler E).
Notation world := (world E).
Implicit Types w : world.
Implicit Types a b : sampler.

(** ** Cycles *)
Lemma draw_avoids prog fuel : forall (C : nat -> Prop) i size w w',
  (forall j, C j -> ~ sampled w j /\ exists k, C k /\ depends w j k) ->
  aux_draw prog fuel i size w = (Ok tt, w') ->
  ~ C i /\ same_wiring w w' /\ forall j, C j -> ~ sampled w' j.
Proof.
  induction fuel as [|fuel IH]; intros C i size w w' HC H; cbn [aux_draw] in H; [discriminate|].
  apply bind_inv_ok in H. destruct H as (a & w1 & H1 & H).
  apply get_aux_inv in H1. destruct H1 as [-> A].
  destruct (a_sampled (a_dy a)) eqn:S.
  { injection H as <-. assert (SI : sampled w i) by (exists a; auto).
    split; [intros CI; now apply (HC i)|]. split; [reflexivity|]. intros j CJ. now apply HC. }
  apply bind_inv_ok in H. destruct H as (u & w1 & H1 & H). destruct u.
  apply pre_inv in H1. destruct H1 as (sels & -> & _ & _).
  apply bind_inv_ok in H. destruct H as (u & w1 & H1 & H). destruct u.
  assert (X : forall l wa wb, same_wiring w wa -> (forall j, C j -> ~ sampled wa j) ->
    iterM (fun kv : string * nat =>
          let! b := get_aux (snd kv) in
          if a_issec (a_ln b) then
            match a_sp (a_dy a) with
            | None => raise AttributeError
            | Some sp => set_sp (snd kv) sp ;; aux_draw prog fuel (snd kv) size
            end
          else raise RuntimeError) l wa = (Ok tt, wb) ->
    (forall kv, In kv l -> ~ C (snd kv)) /\ same_wiring w wb /\ (forall j, C j -> ~ sampled wb j)).
  { clear H1 H w1. induction l as [|kv l IHl]; intros wa wb W NS H; cbn [iterM] in H.
    - injection H as <-. repeat split; easy.
    - apply bind_inv_ok in H. destruct H as (u & wc & H1 & H). destruct u.
      apply bind_inv_ok in H1. destruct H1 as (b & w1 & H1 & H2). apply get_aux_inv in H1.
      destruct H1 as [-> B]. destruct (a_issec (a_ln b)); [|discriminate].
      destruct (a_sp (a_dy a)) as [sp|]; [|discriminate].
      apply bind_inv_ok in H2. destruct H2 as (u & w1 & H1 & H2). destruct u.
      assert (D1 := drew_set_sp _ prog size _ _ _ _ H1).
      assert (W1 : same_wiring w w1) by (eapply wiring_trans; [exact W|apply (dr_wiring D1)]).
      apply IH with (C := C) in H2.
      2:{ intros j CJ. destruct (HC j CJ) as (_ & k & CK & D). split.
          - intros SJ. apply (dr_sampled D1) in SJ. destruct SJ as [SJ|[]]. now apply (NS j).
          - exists k. split; [easy|]. eapply wiring_depends; eauto. }
      destruct H2 as (NC & W2 & NS2).
      destruct (IHl wc wb) as (P1 & P2 & P3); [eapply wiring_trans; eauto|easy|easy|].
      repeat split; try easy. intros kv' [<-|I]; auto. }
  destruct (X (a_sec (a_ln a)) (w_set_sels sels w) w1) as (NC & W1 & NS1); [reflexivity|intros j CJ; now apply (HC j)|exact H1|].
  destruct (wiring_at _ _ _ _ _ W1 A) as (a1 & A1 & ST & LN).
  destruct (finish_ok _ _ _ _ _ _ _ A1 H) as (L & _).
  assert (NI : ~ C i).
  { intros CI. destruct (HC i CI) as (_ & k & CK & (b & nm & B & I)).
    assert (b = a) by (eapply at_fun; eauto). subst b. now apply (NC _ I). }
  split; [easy|]. split.
  - eapply wiring_trans; [exact W1|]. apply (lo_wiring _ _ _ _ _ L).
  - intros j CJ (b & B & SB). apply (NS1 j CJ). exists b. split; [|easy].
    unfold at_ in *. rewrite (lo_aux _ _ _ _ _ L) in B; [exact B|]. intros ->. auto.
Qed.

Theorem cycle_never_returns prog fuel size w i c d :
  pending w i c -> depends w c d -> pending w d c ->
  fst (aux_draw prog fuel i size w) <> Ok tt.
Proof.
  intros PI DC PD H. destruct (aux_draw prog fuel i size w) as [r w'] eqn:R. cbn in H. subst r.
  apply draw_avoids with (C := fun j => pending w j c) in R; [tauto|].
  intros j PJ. inversion PJ as [? N|? m ? N D P]; subst; (split; [easy|]); eauto.
Qed.

Lemma endless_sels C w w' : endless C w -> w_auxs w' = w_auxs w -> length (w_sels w') = length (w_sels w) ->
  endless C w'.
Proof.
  intros H A L j CJ. destruct (H j CJ) as (a & k & j' & r & s & H1 & H2 & H3 & H4 & H5 & H6).
  destruct (nth_error (w_sels w') (a_sel (a_ln a))) as [s'|] eqn:S.
  - exists a, k, j', r, s'. unfold at_. rewrite A. auto 8.
  - apply nth_error_None in S. assert (nth_error (w_sels w) (a_sel (a_ln a)) <> None) by congruence.
    apply nth_error_Some in H0. lia.
Qed.
Lemma endless_sp C w i a sp : endless C w -> at_ w i a ->
  endless C (w_set_auxs (lset (w_auxs w) i (upd_dy (dy_sp sp) a)) w).
Proof.
  intros H A j CJ. destruct (H j CJ) as (b & k & j' & r & s & H1 & H2 & H3 & H4 & H5 & H6).
  destruct (Nat.eq_dec j i) as [->|N].
  - assert (b = a) by (eapply at_fun; eauto). subst b.
    exists (upd_dy (dy_sp sp) a), k, j', r, s. split; [now apply at_set|]. auto 8.
  - exists b, k, j', r, s. split; [|auto 8]. unfold at_. cbn [w_auxs w_set_auxs]. now rewrite nth_lset_neq by auto.
Qed.

Lemma upd_sel_ok s x f w : nth_error (w_sels w) s = Some x ->
  upd_sel s f w = (Ok tt, w_set_sels (lset (w_sels w) s (f x)) w).
Proof. intros H. unfold upd_sel, bind, get_sel. now rewrite H. Qed.

Lemma pre_ok a s w sp : nth_error (w_sels w) (a_sel (a_ln a)) = Some s -> a_sp (a_dy a) = Some sp ->
  exists sels, aux_pre a w = (Ok tt, w_set_sels sels w) /\ length sels = length (w_sels w).
Proof.
  intros S SP. unfold aux_pre. rewrite SP.
  assert (X : exists sels s', (if a_usesd (a_st a) then upd_sel (a_sel (a_ln a)) (fun s : selector E => set_distance s (sv_dist sp)) else ret tt) w
     = (Ok tt, w_set_sels sels w) /\ length sels = length (w_sels w) /\ nth_error sels (a_sel (a_ln a)) = Some s').
  { destruct (a_usesd (a_st a)).
    - rewrite (upd_sel_ok _ _ _ _ S). do 2 eexists. split; [reflexivity|]. split; [apply lset_length|].
      apply nth_lset_eq. apply nth_error_Some. congruence.
    - exists (w_sels w), s. destruct w; auto. }
  destruct X as (sels & s' & H & L & S'). rewrite (bind_ok _ _ _ H). destruct (a_lum (a_dy a)).
  - rewrite (upd_sel_ok _ s'); [|exact S']. cbn [w_sels w_set_sels]. eexists. split; [reflexivity|].
    now rewrite lset_length.
  - exists sels. auto.
Qed.

Theorem endless_raises prog fuel : forall size C i w a sp,
  endless C w -> C i -> at_ w i a -> a_sp (a_dy a) = Some sp ->
  fst (aux_draw prog fuel i size w) = Err RecursionError.
Proof.
  induction fuel as [|fuel IH]; intros size C i w a sp H CI A SP; [reflexivity|]. cbn [aux_draw].
  rewrite (bind_ok _ _ _ (get_aux_at _ _ _ _ A)).
  destruct (H i CI) as (a' & k & j & r & s & H1 & H2 & H3 & H4 & H5 & H6).
  assert (a' = a) by (eapply at_fun; eauto). subst a'. rewrite H2.
  destruct (pre_ok _ _ _ _ H4 SP) as (sels & HP & LS). rewrite (bind_ok _ _ _ HP).
  set (w1 := w_set_sels sels w) in *.
  assert (EW : endless C w1) by (eapply endless_sels; [exact H|reflexivity|exact LS]).
  destruct (EW j H6) as (b & k' & j' & r' & s' & B1 & B2 & B3 & B4 & B5 & B6).
  rewrite H5. cbn [iterM snd]. unfold bind at 1. unfold bind at 1. unfold bind at 1.
  rewrite (get_aux_at _ _ _ _ B1), B3, SP. unfold set_sp. unfold bind at 1.
  rewrite (upd_aux_at _ _ _ _ _ B1).
  set (w2 := w_set_auxs _ _).
  specialize (IH size C j w2 (upd_dy (dy_sp sp) b) sp).
  destruct (aux_draw prog fuel j size w2) as [rr w3]. cbn in IH. rewrite IH; [reflexivity| |easy| |reflexivity].
  - now apply endless_sp.
  - now apply at_set.
Qed.

(** Any two samplers can be connected, whatever circles this closes. *)
Theorem registration_accepts p c w a b : at_ w p a -> at_ w c b ->
  exists w', set_secondary p c w = (Ok tt, w') /\ depends w' p c /\ w_sels w' = w_sels w /\
    (forall i a', at_ w' i a' -> exists a0, at_ w i a0 /\ a_st a' = a_st a0 /\ a_dy a' = a_dy a0) /\
    (exists b', at_ w' c b' /\ a_issec (a_ln b') = true).
Proof.
  intros A B. unfold set_secondary.
  rewrite (bind_ok _ _ _ (get_aux_at _ _ _ _ A)), (bind_ok _ _ _ (get_aux_at _ _ _ _ B)).
  set (f := fun l => ALink (a_sec l) true (a_parents l ++ [name_of a]) (a_sel l)).
  unfold bind at 1. unfold put_aux at 1, modify.
  set (w1 := w_set_auxs (lset (w_auxs w) c (upd_ln f b)) w).
  assert (LC : c < length (w_auxs w)) by (apply nth_error_Some; unfold at_ in B; congruence).
  assert (LP : p < length (w_auxs w)) by (apply nth_error_Some; unfold at_ in A; congruence).
  assert (B1 : at_ w1 c (upd_ln f b)) by (unfold at_, w1; cbn [w_auxs w_set_auxs]; now apply nth_lset_eq).
  assert (X : exists a1, at_ w1 p a1 /\ a_st a1 = a_st a /\ a_dy a1 = a_dy a).
  { destruct (Nat.eq_dec p c) as [->|N].
    - assert (a = b) by (eapply at_fun; eauto). subst b. eauto.
    - exists a. split; [|auto]. unfold at_, w1. cbn [w_auxs w_set_auxs]. rewrite nth_lset_neq by auto. exact A. }
  destruct X as (a1 & A1 & ST & DY). rewrite (bind_ok _ _ _ (get_aux_at _ _ _ _ A1)).
  unfold put_aux, modify. eexists. split; [reflexivity|].
  set (g := fun l => ALink (dset (a_sec l) (name_of b) c) (a_issec l) (a_parents l) (a_sel l)).
  set (w2 := w_set_auxs _ _).
  assert (A2 : at_ w2 p (upd_ln g a1)).
  { unfold at_, w2. cbn [w_auxs w_set_auxs]. apply nth_lset_eq. unfold w1. cbn [w_auxs w_set_auxs]. now rewrite lset_length. }
  split; [|split; [reflexivity|split]].
  - exists (upd_ln g a1), (name_of b). split; [exact A2|]. cbn. apply dget_In. apply dget_dset_eq.
  - intros i a' H. unfold at_, w2 in H. cbn [w_auxs w_set_auxs] in H.
    destruct (Nat.eq_dec i p) as [->|N].
    + rewrite nth_lset_eq in H by (unfold w1; cbn [w_auxs w_set_auxs]; now rewrite lset_length).
      injection H as <-. exists a. auto.
    + rewrite nth_lset_neq in H by auto. unfold w1 in H. cbn [w_auxs w_set_auxs] in H.
      destruct (Nat.eq_dec i c) as [->|N'].
      * rewrite nth_lset_eq in H by easy. injection H as <-. exists b. auto.
      * rewrite nth_lset_neq in H by auto. exists a'. auto.
  - destruct (Nat.eq_dec c p) as [->|N].
    + assert (a1 = upd_ln f b) by (eapply at_fun; eauto). subst a1. exists (upd_ln g (upd_ln f b)). auto.
    + exists (upd_ln f b). split; [|reflexivity]. unfold at_, w2. cbn [w_auxs w_set_auxs].
      rewrite nth_lset_neq by auto. exact B1.
Qed.

(** ** Reset *)

Lemma resets_refl w : resets w w.
Proof. constructor; auto; [reflexivity|]. intros j a A. exists a. auto. Qed.
Lemma resets_trans w1 w2 w3 : resets w1 w2 -> resets w2 w3 -> resets w1 w3.
Proof.
  intros [A1 B1 C1 D1] [A2 B2 C2 D2]. constructor.
  - eapply wiring_trans; eauto.
  - intuition congruence.
  - congruence.
  - intros j a A. destruct (D1 _ _ A) as (a1 & H1 & K1). destruct (D2 _ _ H1) as (a2 & H2 & K2).
    exists a2. split; [easy|]. destruct K1 as [K1|K1], K2 as [K2|K2]; rewrite ?K2, ?K1 in *; intuition congruence.
Qed.

Lemma reset_inv fuel : forall i w w', aux_reset fuel i w = (Ok tt, w') ->
  resets w w' /\ forall j, reaches w i j -> ~ sampled w' j.
Proof.
  induction fuel as [|fuel IH]; intros i w w' H; cbn [aux_reset] in H; [discriminate|].
  apply bind_inv_ok in H. destruct H as (a & w1 & H1 & H).
  apply get_aux_inv in H1. destruct H1 as [-> A].
  apply bind_inv_ok in H. destruct H as (u & w1 & H1 & H).
  assert (X : resets w w1 /\ ~ sampled w1 i).
  { destruct (a_sampled (a_dy a)) eqn:S.
    - apply bind_inv_ok in H1. destruct H1 as (u1 & w2 & H1 & H2).
      apply upd_aux_inv in H1. destruct H1 as (a' & A' & ->).
      assert (a' = a) by (eapply at_fun; eauto). subst a'.
      set (f := fun d => ADyn (a_par d) false None None (a_prob d) (a_lum d) (a_sp d)) in *.
      assert (L := local_set _ w i 0 a f A). assert (AS := at_set _ w i a f A).
      set (w2 := w_set_auxs _ _) in *.
      apply upd_sel_inv in H2. destruct H2 as (x & X & ->). split.
      + constructor.
        * exact (lo_wiring _ _ _ _ _ L).
        * split; reflexivity.
        * reflexivity.
        * intros j b B. destruct (Nat.eq_dec j i) as [->|N].
          -- assert (b = a) by (eapply at_fun; eauto). subst b. exists (upd_dy f a). split; [exact AS|].
             right. cbn. auto 8.
          -- exists b. split; [|auto]. unfold at_. cbn [w_auxs w_set_sels]. now rewrite (lo_aux _ _ _ _ _ L).
      + intros (b & B & SB). assert (b = upd_dy f a) by (eapply at_fun; eauto). subst b. discriminate.
    - injection H1 as _ <-. split; [apply resets_refl|]. intros (b & B & SB).
      assert (b = a) by (eapply at_fun; eauto). subst b. congruence. }
  destruct X as [R1 NS1]. clear H1.
  assert (KEEP : forall (wa wb : world) j, resets wa wb -> ~ sampled wa j -> ~ sampled wb j).
  { intros wa wb j R N (b & B & SB).
    destruct (wiring_at _ _ _ _ _ (wiring_sym _ _ _ (re_wiring R)) B) as (b0 & B0 & _).
    destruct (re_aux R B0) as (b' & B' & K). assert (b' = b) by (eapply at_fun; eauto). subst b'.
    apply N. exists b0. split; [easy|]. destruct K as [K|(K & K' & _)]; congruence. }
  assert (X : forall l wa wb, same_wiring w wa ->
    iterM (fun kv : string * nat => aux_reset fuel (snd kv)) l wa = (Ok tt, wb) ->
    resets wa wb /\ forall kv j, In kv l -> reaches w (snd kv) j -> ~ sampled wb j).
  { induction l as [|kv l IHl]; intros wa wb W K; cbn [iterM] in K.
    - injection K as <-. split; [apply resets_refl|]. easy.
    - apply bind_inv_ok in K. destruct K as (u1 & wc & K1 & K). destruct u1. apply IH in K1.
      destruct K1 as [RA NA]. apply IHl in K; [|eapply wiring_trans; [exact W|apply (re_wiring RA)]].
      destruct K as [RB NB]. split; [eapply resets_trans; eauto|].
      intros kv' j [<-|I] RJ; [|eauto]. eapply KEEP; [exact RB|]. apply NA. eapply wiring_reaches; eauto. }
  destruct (X _ w1 w' (re_wiring R1) H) as [R2 NS2].
  split; [eapply resets_trans; eauto|]. intros j RJ. inversion RJ as [|? k ? D RK]; subst.
  - eapply KEEP; eauto.
  - destruct D as (b & nm & B & I). assert (b = a) by (eapply at_fun; eauto). subst b. eapply NS2; eauto.
Qed.

Lemma closed_wiring w w' : same_wiring w w' -> length (w_sels w') = length (w_sels w) -> closed w -> closed w'.
Proof.
  intros W L C i a A. destruct (wiring_at _ _ _ _ _ (wiring_sym _ _ _ W) A) as (a0 & A0 & _ & LN).
  destruct (C i a0 A0) as ((s & S) & D). rewrite <- LN. split.
  - destruct (nth_error (w_sels w') (a_sel (a_ln a0))) eqn:X; [eauto|]. apply nth_error_None in X.
    assert (nth_error (w_sels w) (a_sel (a_ln a0)) <> None) by congruence. apply nth_error_Some in H. lia.
  - intros k j I. destruct (D k j I) as (b & B). destruct (wiring_at _ _ _ _ _ W B) as (b' & B' & _). eauto.
Qed.

Theorem reset_total fuel : forall i w a (r : nat -> nat),
  (forall i j, depends w i j -> r j < r i) -> closed w -> at_ w i a -> r i < fuel ->
  exists w', aux_reset fuel i w = (Ok tt, w') /\ same_wiring w w' /\ length (w_sels w') = length (w_sels w).
Proof.
  induction fuel as [|fuel IH]; intros i w a r R C A F; [lia|]. cbn [aux_reset].
  rewrite (bind_ok _ _ _ (get_aux_at _ _ _ _ A)).
  assert (X : exists w1, (if a_sampled (a_dy a) then
         upd_aux i (fun d => ADyn (a_par d) false None None (a_prob d) (a_lum d) (a_sp d)) ;;
         upd_sel (a_sel (a_ln a)) (@sel_reset E)
       else ret tt) w = (Ok tt, w1) /\ same_wiring w w1 /\ length (w_sels w1) = length (w_sels w)).
  { destruct (a_sampled (a_dy a)).
    - rewrite (bind_ok _ _ _ (upd_aux_at _ _ _ _ _ A)). set (w1 := w_set_auxs _ _).
      destruct (C i a A) as ((s & S) & _). rewrite (upd_sel_ok _ s); [|exact S].
      eexists. split; [reflexivity|]. split; [|cbn [w_sels w_set_sels]; now rewrite lset_length].
      exact (lo_wiring _ i 0 _ _ (local_set _ w i 0 a _ A)).
    - exists w. split; [reflexivity|]. split; reflexivity. }
  destruct X as (w1 & H1 & W1 & L1). rewrite (bind_ok _ _ _ H1). clear H1.
  assert (X : forall l wa, (forall kv, In kv l -> In kv (a_sec (a_ln a))) -> same_wiring w wa ->
     length (w_sels wa) = length (w_sels w) ->
     exists wb, iterM (fun kv : string * nat => aux_reset fuel (snd kv)) l wa = (Ok tt, wb) /\
       same_wiring w wb /\ length (w_sels wb) = length (w_sels w)).
  { induction l as [|[k j] l IHl]; intros wa I W L; cbn [iterM snd].
    - exists wa. auto.
    - destruct (C i a A) as (_ & D). destruct (D k j) as (b & B); [apply I; cbn; auto|].
      destruct (wiring_at _ _ _ _ _ W B) as (b' & B' & _).
      destruct (IH j wa b' r) as (wc & HC & WC & LC).
      + intros x y Q. apply R. eapply wiring_depends; [apply wiring_sym|]; eauto.
      + eapply closed_wiring; eauto.
      + easy.
      + assert (r j < r i); [|lia]. apply R. exists a, k. split; [easy|]. apply I. cbn. auto.
      + rewrite (bind_ok _ _ _ HC). apply IHl.
        * intros kv K. apply I. cbn. auto.
        * eapply wiring_trans; eauto.
        * congruence. }
  destruct (X (a_sec (a_ln a)) w1) as (w2 & H2 & W2 & L2); eauto.
Qed.

End P.
