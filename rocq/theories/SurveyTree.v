(** Surveys and sampler trees: what the loop over the registered samplers
    collects, and what selects an object. *)
From Verif Require Import Base BaseFacts Keeps Env ParamModel SelModel SelSpec SelProofs SimVarModel DistModel DistSpec DistProofs
  AuxModel AuxSpec AuxProofs AuxProps AuxMore Tree PopModel SynthModel SynthSpec SynthFrame SynthInv SurveyProofs.
Open Scope nat_scope.
Open Scope list_scope.

Section P.
Variable E : env.
Notation V := (V E).
Notation Rst := (Rst E).
Notation selector := (selector E).
Notation sampler := (sampler E).
Notation world := (world E).
Notation synth := (synth E).
Notation one := (vofnat E 1).
Notation zero := (vofnat E 0).
Notation population := (population E).
Notation storage := (storage E).
Notation truths := (truths E).
Implicit Types w : world.
Implicit Types a b : sampler.

(** ** Storages *)
Record filed (P : sampler -> container E -> Prop) w (S : nat -> Prop) (s : storage) : Prop := Filed {
  fi_nodup : NoDup (dkeys s);
  fi_from : forall k c, dget s k = Some c -> exists j b, S j /\ at_ w j b /\ name_of b = k /\ P b c;
  fi_all : forall j b, S j -> at_ w j b -> exists c, dget s (name_of b) = Some c }.

Lemma filed_keys P w S s k : filed P w S s -> (forall j b, S j -> at_ w j b -> name_of b <> "") -> In k (dkeys s) -> k <> "".
Proof.
  intros H N I. apply dget_Some_In_keys in I. destruct I as (c & C).
  destruct (fi_from _ _ _ _ H _ _ C) as (j & b & SJ & B & <- & _). eauto.
Qed.
Lemma filed_add P w S T s o : filed P w S s -> filed P w T o ->
  (forall j b, S j \/ T j -> at_ w j b -> name_of b <> "") ->
  filed P w (fun j => S j \/ T j) (st_add s o).
Proof.
  intros HS HT N.
  assert (KS : forall x, In x (dkeys s) -> x <> "") by (intros x; eapply filed_keys; eauto).
  assert (KT : forall x, In x (dkeys o) -> x <> "") by (intros x; eapply filed_keys; eauto).
  assert (NO := fi_nodup _ _ _ _ HT). constructor.
  - apply NoDup_st_add; [apply HS|apply HT].
  - intros k c. rewrite dget_st_add by easy. destruct (dget o k) eqn:O.
    + intros H. injection H as ->. destruct (fi_from _ _ _ _ HT _ _ O) as (j & b & H & ? & ? & ?). eauto 8.
    + intros H. destruct (fi_from _ _ _ _ HS _ _ H) as (j & b & H' & ? & ? & ?). eauto 8.
  - intros j b [H|H] B; rewrite dget_st_add by easy.
    + destruct (dget o (name_of b)); [eauto|]. eapply fi_all; eauto.
    + destruct (fi_all _ _ _ _ HT _ _ H B) as (c & ->). eauto.
Qed.
Lemma filed_equiv P w S T s : (forall j, S j <-> T j) -> filed P w S s -> filed P w T s.
Proof.
  intros H [A B C]. constructor; [easy| |].
  - intros k c K. destruct (B k c K) as (j & b & SJ & R). exists j, b. split; [now apply H|easy].
  - intros j b TJ. apply C. now apply H.
Qed.
Lemma filed_nil P w : filed P w (fun _ => False) [].
Proof. constructor; [constructor|discriminate|easy]. Qed.
Lemma holds_filed (P : sampler -> container E -> Prop) w S s : (forall b, P b (container_of b)) -> holds E w S s -> filed P w S s.
Proof.
  intros H [A B C]. constructor; [easy| |easy]. intros k c K. destruct (B k c K) as (j & b & SJ & BA & N & ->). eauto 8.
Qed.
Lemma filed_own P w S s i a c : filed P w S s -> at_ w i a -> P a c ->
  filed P w (fun j => j = i \/ S j) (dset s (name_of a) c).
Proof.
  intros [A B C] I PA. constructor.
  - now apply NoDup_dset.
  - intros k x. rewrite dget_dset. destruct (String.eqb_spec k (name_of a)) as [->|N].
    + intros H. injection H as <-. exists i, a. auto.
    + intros H. destruct (B k x H) as (j & b & SJ & ?). eauto 8.
  - intros j b [->|SJ] J.
    + assert (b = a) by (eapply at_fun; eauto). subst. rewrite dget_dset_eq. eauto.
    + rewrite dget_dset. destruct (String.eqb (name_of b) (name_of a)); [eauto|]. eapply C; eauto.
Qed.

Definition sel_ok : sampler -> container E -> Prop := fun b c => c_sel c = a_sel (a_ln b).
Lemma filed_sel_wiring w w' S s : same_wiring w w' -> filed sel_ok w S s -> filed sel_ok w' S s.
Proof.
  intros W [A B C]. constructor; [easy| |].
  - intros k c K. destruct (B k c K) as (j & b & SJ & BA & N & P).
    destruct (wiring_at _ _ _ _ _ W BA) as (b' & B' & S1 & S2). exists j, b'. split; [easy|]. split; [easy|].
    unfold name_of, sel_ok in *. rewrite S1, S2. auto.
  - intros j b SJ BA. destruct (wiring_at _ _ _ _ _ (wiring_sym _ _ _ W) BA) as (b' & B' & S1 & S2).
    destruct (C j b' SJ B') as (c & K). exists c. unfold name_of in *. now rewrite <- S1.
Qed.

(** ** Samplers that keep their values *)
Definition same_out a b : Prop :=
  a_st a = a_st b /\ a_ln a = a_ln b /\ a_par (a_dy a) = a_par (a_dy b) /\ a_sampled (a_dy a) = a_sampled (a_dy b) /\
  a_true (a_dy a) = a_true (a_dy b) /\ a_obs (a_dy a) = a_obs (a_dy b) /\ a_prob (a_dy a) = a_prob (a_dy b).
Lemma same_out_refl a : same_out a a. Proof. repeat split. Qed.
Lemma same_out_trans a b c : same_out a b -> same_out b c -> same_out a c.
Proof. unfold same_out. intuition congruence. Qed.
Lemma same_values_out a b : same_values a b -> same_out a b.
Proof. unfold same_values, same_out. tauto. Qed.
Lemma same_out_container a b : same_out a b -> container_of b = container_of a.
Proof.
  intros (S1 & S2 & _ & _ & S5 & S6 & S7). unfold container_of, probability_of. now rewrite S2, S5, S6, S7.
Qed.

(** All samplers keep their outputs. *)
Definition quiet w w' : Prop :=
  same_wiring w w' /\ (forall j a, at_ w j a -> exists a', at_ w' j a' /\ same_out a a') /\ w_sels w' = w_sels w.
(** The same, but parameters may have been read (which can materialise defaults). *)
Definition same_vals a b : Prop :=
  a_st a = a_st b /\ a_ln a = a_ln b /\ a_sampled (a_dy a) = a_sampled (a_dy b) /\
  a_true (a_dy a) = a_true (a_dy b) /\ a_obs (a_dy a) = a_obs (a_dy b) /\ a_prob (a_dy a) = a_prob (a_dy b).
Definition hushed w w' : Prop :=
  same_wiring w w' /\ (forall j a, at_ w j a -> exists a', at_ w' j a' /\ same_vals a a') /\ w_sels w' = w_sels w.
Lemma quiet_hushed w w' : quiet w w' -> hushed w w'.
Proof.
  intros (A & B & C). split; [easy|]. split; [|easy]. intros j a H. destruct (B j a H) as (a' & A' & S).
  exists a'. split; [easy|]. unfold same_out, same_vals in *. tauto.
Qed.
Lemma hushed_at w w' j a' : hushed w w' -> at_ w' j a' -> exists a, at_ w j a /\ same_vals a a'.
Proof.
  intros (W & B & _) A. destruct (wiring_at _ _ _ _ _ (wiring_sym _ _ _ W) A) as (b & B' & _).
  destruct (B j b B') as (c & C & X). assert (c = a') by (eapply at_fun; eauto). subst c. eauto.
Qed.
(** Sampled ones do. *)
Definition frozen w w' : Prop :=
  same_wiring w w' /\ forall j a, at_ w j a -> a_sampled (a_dy a) = true -> exists a', at_ w' j a' /\ same_out a a'.
Lemma quiet_refl w : quiet w w.
Proof. split; [reflexivity|]. split; [|reflexivity]. intros j a A. exists a. split; [easy|apply same_out_refl]. Qed.
Lemma quiet_trans w1 w2 w3 : quiet w1 w2 -> quiet w2 w3 -> quiet w1 w3.
Proof.
  intros (A1 & A2 & A3) (B1 & B2 & B3). split; [eapply wiring_trans; eauto|]. split; [|congruence]. intros j a A.
  destruct (A2 j a A) as (b & B & S). destruct (B2 j b B) as (c & C & S'). exists c. split; [easy|]. eapply same_out_trans; eauto.
Qed.
Lemma quiet_frozen w w' : quiet w w' -> frozen w w'.
Proof. intros (A & B & _). split; eauto. Qed.
Lemma frozen_refl w : frozen w w. Proof. apply quiet_frozen, quiet_refl. Qed.
Lemma frozen_trans w1 w2 w3 : frozen w1 w2 -> frozen w2 w3 -> frozen w1 w3.
Proof.
  intros [A1 A2] [B1 B2]. split; [eapply wiring_trans; eauto|]. intros j a A SA.
  destruct (A2 j a A SA) as (b & B & S). destruct (B2 j b B) as (c & C & S').
  { destruct S as (_ & _ & _ & S & _). congruence. }
  exists c. split; [easy|]. eapply same_out_trans; eauto.
Qed.
Lemma same_auxs_frozen w w' : w_auxs w' = w_auxs w -> frozen w w'.
Proof.
  intros H. split; [unfold same_wiring; now rewrite H|]. intros j a A. exists a. unfold at_ in *. rewrite H.
  split; [easy|apply same_out_refl].
Qed.
Lemma frozen_sampled w w' j : frozen w w' -> sampled w j -> sampled w' j.
Proof.
  intros [_ F] (a & A & S). destruct (F j a A S) as (b & B & X). exists b. split; [easy|].
  destruct X as (_ & _ & _ & X & _). congruence.
Qed.
Lemma hushed_sampled w w' j : hushed w w' -> sampled w' j <-> sampled w j.
Proof.
  intros H. split.
  - intros (a & A & S). destruct (hushed_at _ _ _ _ H A) as (b & B & X). exists b. split; [easy|].
    destruct X as (_ & _ & X & _). congruence.
  - intros (a & A & S). destruct H as (_ & H & _). destruct (H j a A) as (b & B & X). exists b. split; [easy|].
    destruct X as (_ & _ & X & _). congruence.
Qed.
Lemma drew_frozen prog n w l w' : drew prog n w l w' -> frozen w w'.
Proof.
  intros D. split; [apply (dr_wiring D)|]. intros j a A S.
  destruct (dr_frame D (j:=j) (a:=a)) as (a' & A' & V).
  - intros I. apply (dr_new D I). exists a. auto.
  - exact A.
  - exists a'. split; [easy|now apply same_values_out].
Qed.

(** The secondaries of a sampled sampler are sampled. *)
Definition well_drawn w : Prop := forall i j, sampled w i -> depends w i j -> sampled w j.
Lemma well_drawn_reaches w i j : well_drawn w -> reaches w i j -> sampled w i -> sampled w j.
Proof. intros WD R. induction R; eauto. Qed.
Lemma well_drawn_hushed w w' : hushed w w' -> well_drawn w -> well_drawn w'.
Proof.
  intros Q WD i j S D. apply (hushed_sampled _ _ _ Q). apply (WD i j).
  - now apply (hushed_sampled _ _ _ Q).
  - eapply wiring_depends; [apply wiring_sym; apply Q|exact D].
Qed.
Lemma well_drawn_drew prog n w l w' : drew prog n w l w' -> well_drawn w -> well_drawn w'.
Proof.
  intros D WD i j S DP. assert (DP' : depends w i j) by (eapply wiring_depends; [apply wiring_sym; apply (dr_wiring D)|exact DP]).
  apply (dr_sampled D). apply (dr_sampled D) in S. destruct S as [S|I].
  - left. eauto.
  - apply in_split in I. destruct I as (t1 & t2 & ->). destruct (dr_order D _ _ eq_refl DP') as [S|I]; [auto|].
    right. apply in_app_iff. auto.
Qed.

(** Every sampled sampler has [n] values, and its selector has judged them. *)
Definition all_judged prog n w : Prop := forall j a, at_ w j a -> a_sampled (a_dy a) = true -> filled n a /\ selected_on prog n w a.
Lemma judged_hushed prog n w w' : hushed w w' -> all_judged prog n w -> all_judged prog n w'.
Proof.
  intros H J j a A S. destruct (hushed_at _ _ _ _ H A) as (b & B & S1 & S2 & S3 & S4 & S5 & S6).
  destruct (J j b B) as [F (s0 & g0 & s1 & g1 & G1 & G2 & G3)]; [congruence|]. split.
  - unfold filled in *. now rewrite <- S1, <- S4, <- S5.
  - exists s0, g0, s1, g1. destruct H as (_ & _ & ->). now rewrite <- S5, <- S2.
Qed.
Lemma judged_drew prog n w l w' : own_selectors w -> drew prog n w l w' -> all_judged prog n w -> all_judged prog n w'.
Proof.
  intros O D J j a A S. destruct (in_dec Nat.eq_dec j l) as [I|NI].
  - destruct (dr_filled D _ I) as (a1 & A1 & F1). destruct (dr_mask D O _ I) as (a2 & A2 & F2).
    assert (a1 = a) by (eapply at_fun; eauto). assert (a2 = a) by (eapply at_fun; eauto). now subst.
  - destruct (wiring_at _ _ _ _ _ (wiring_sym _ _ _ (dr_wiring D)) A) as (b & B & _).
    destruct (dr_frame D (j:=j) (a:=b) NI B) as (b' & B' & S1 & S2 & S3 & S4 & S5 & S6 & _).
    assert (b' = a) by (eapply at_fun; eauto). subst b'.
    destruct (J j b B) as [F (s0 & g0 & s1 & g1 & G1 & G2 & G3)]; [congruence|]. split.
    + unfold filled in *. now rewrite <- S1, <- S5, <- S6.
    + exists s0, g0, s1, g1. rewrite <- S6, <- S2. rewrite (dr_sels D); [easy|].
      intros k c K C Q. assert (k = j) by (eapply O; eauto). now subst.
Qed.

Lemma holds_frozen w w' (S : nat -> Prop) (s : storage) : frozen w w' -> (forall j, S j -> sampled w j) -> holds E w S s -> holds E w' S s.
Proof.
  intros [W F] SA [A B C]. constructor; [easy| |].
  - intros k c K. destruct (B k c K) as (j & b & SJ & BA & N & ->).
    destruct (SA j SJ) as (b0 & B0 & S0). assert (b0 = b) by (eapply at_fun; eauto). subst b0.
    destruct (F j b BA S0) as (b' & B' & O). exists j, b'. split; [easy|]. split; [easy|].
    rewrite (same_out_container _ _ O). destruct O as (O & _). unfold name_of in *. now rewrite <- O.
  - intros j b SJ BA. destruct (wiring_at _ _ _ _ _ (wiring_sym _ _ _ W) BA) as (b' & B' & S1 & S2).
    destruct (C j b' SJ B') as (c & K). exists c. unfold name_of in *. now rewrite <- S1.
Qed.

(** ** One registered sampler *)
Definition yquiet (y y' : synth) : Prop := quiet (y_w y) (y_w y') /\ y' = with_w y (y_w y').
Lemma yquiet_refl y : yquiet y y. Proof. split; [apply quiet_refl|now destruct y]. Qed.
Lemma yquiet_trans y1 y2 y3 : yquiet y1 y2 -> yquiet y2 y3 -> yquiet y1 y3.
Proof. intros [A1 A2] [B1 B2]. split; [eapply quiet_trans; eauto|]. rewrite B2, A2. reflexivity. Qed.
Lemma set_quiet i f (y : synth) : (forall d, a_par (f d) = a_par d /\ a_sampled (f d) = a_sampled d /\ a_true (f d) = a_true d /\
    a_obs (f d) = a_obs d /\ a_prob (f d) = a_prob d) -> yquiet y (snd (in_w (upd_aux (E := E) i f) y)).
Proof.
  intros F. unfold in_w. destruct (upd_aux i f (y_w y)) as [r w'] eqn:X. cbn. split; [|reflexivity]. cbn.
  assert (W := upd_aux_keeps _ i f (y_w y)). rewrite X in W. cbn in W.
  split; [apply W|].
  unfold upd_aux, bind, get_aux in X. destruct (nth_error (w_auxs (y_w y)) i) as [b|] eqn:B; cbn in X.
  - injection X as _ <-. split; [|reflexivity]. intros j a A. unfold at_ in *. cbn. destruct (Nat.eq_dec j i) as [->|N].
    + rewrite A in B. injection B as <-. exists (upd_dy f a). split.
      * apply nth_lset_eq. apply nth_error_Some. congruence.
      * destruct (F (a_dy a)) as (F1 & F2 & F3 & F4 & F5). repeat split; cbn; congruence.
    + exists a. rewrite nth_lset_neq by auto. split; [easy|apply same_out_refl].
  - injection X as _ <-. split; [|reflexivity]. intros j a A. exists a. split; [easy|apply same_out_refl].
Qed.

Lemma add_truth_inv i (tr : truths) (y : synth) tr2 y1 : add_truth i tr y = (Ok tr2, y1) ->
  y1 = y /\ exists a, at_ (y_w y) i a /\ tr2 = dset tr (name_of a) (truth (a_par (a_dy a))).
Proof.
  unfold add_truth, sampler_truth. intros H. apply bind_inv_ok in H. destruct H as (x & z & H1 & H).
  apply bind_inv_ok in H1. destruct H1 as (a & z1 & H1 & H2). apply in_w_get_aux in H1. destruct H1 as [-> A].
  unfold ret in *. injection H2 as <- <-. injection H as <- <-. eauto.
Qed.
Lemma check_len_inv n i (y : synth) u y1 : check_len n i y = (Ok u, y1) -> y1 = y.
Proof.
  unfold check_len. intros H. apply bind_inv_ok in H. destruct H as (a & z & H1 & H). apply in_w_get_aux in H1. destruct H1 as [-> A].
  apply bind_inv_ok in H. destruct H as (u1 & z & H1 & H). apply lift_inv in H1. destruct H1 as [_ ->].
  apply lift_inv in H. easy.
Qed.
Lemma props_inv rl i (y : synth) s y1 : props rl i y = (Ok s, y1) ->
  y1 = y /\ fst (sec_props rl (w_auxs (y_w y)) i "" None) = Ok s.
Proof.
  unfold props. intros H. apply bind_inv_ok in H. destruct H as (y0 & z & G & H). unfold get in G. injection G as <- <-.
  apply lift_inv in H. tauto.
Qed.
Fixpoint add_truths w (l : dict nat) (tr : truths) : truths :=
  match l with
  | nil => tr
  | (_, j) :: r => add_truths w r (match nth_error (w_auxs w) j with
                                  | Some b => dset tr (name_of b) (truth (a_par (a_dy b)))
                                  | None => tr end)
  end.
Lemma add_truths_inv l : forall (tr : truths) (y : synth) tr2 y1,
  foldM (fun t (kv : string * nat) => add_truth (E := E) (snd kv) t) tr l y = (Ok tr2, y1) -> y1 = y /\ tr2 = add_truths (y_w y) l tr.
Proof.
  induction l as [|[k j] l IH]; intros tr y tr2 y1 H; cbn in H.
  - unfold ret in H. now injection H as <- <-.
  - apply bind_inv_ok in H. destruct H as (t1 & z & H1 & H). apply add_truth_inv in H1. destruct H1 as (-> & a & A & ->).
    apply IH in H. destruct H as (-> & ->). split; [easy|]. cbn. now rewrite A.
Qed.

Lemma in_w_inv A (m : AM E A) (y : synth) r y1 : in_w m y = (Ok r, y1) -> exists w1, m (y_w y) = (Ok r, w1) /\ y1 = with_w y w1.
Proof. unfold in_w. destruct (m (y_w y)) as [r0 w1]. intros H. injection H as -> <-. eauto. Qed.

Lemma survey_aux_inv prog rl n lum (t0 : truths) st0 k i (y : synth) t2 st2 y2 :
  survey_aux prog rl n lum (t0, st0) (k, i) y = (Ok (t2, st2), y2) ->
  exists a w1 s, at_ (y_w y) i a /\ a_issec (a_ln a) = false /\
    quiet (y_w y) w1 /\ aux_draw prog rl i n w1 = (Ok tt, y_w y2) /\ y2 = with_w y (y_w y2) /\
    fst (sec_props rl (w_auxs (y_w y2)) i "" None) = Ok s /\ st2 = st_add st0 s /\
    exists a2, at_ (y_w y2) i a2 /\
      t2 = add_truths (y_w y2) (a_sec (a_ln a)) (dset t0 (name_of a2) (truth (a_par (a_dy a2)))).
Proof.
  unfold survey_aux. cbn [fst snd]. intros H.
  apply bind_inv_ok in H. destruct H as (a & z & H1 & H). apply in_w_get_aux in H1. destruct H1 as [-> A].
  apply bind_inv_ok in H. destruct H as ([] & z & H1 & H). apply lift_inv in H1. destruct H1 as [H1 ->].
  apply rassert_inv in H1.
  apply bind_inv_ok in H. destruct H as ([] & z1 & H2 & H).
  apply bind_inv_ok in H. destruct H as (sp & z & H3 & H). apply get_sp_inv in H3. destruct H3 as [-> H3].
  apply bind_inv_ok in H. destruct H as ([] & z2 & H4 & H).
  apply bind_inv_ok in H. destruct H as ([] & z3 & H5 & H).
  apply bind_inv_ok in H. destruct H as ([] & z4 & H6 & H).
  apply bind_inv_ok in H. destruct H as (t1 & z & H7 & H). apply add_truth_inv in H7. destruct H7 as (-> & a2 & A2 & ->).
  apply bind_inv_ok in H. destruct H as ([] & z & H8 & H). apply check_len_inv in H8. subst z.
  apply bind_inv_ok in H. destruct H as (s & z & H9 & H). apply props_inv in H9. destruct H9 as [-> H9].
  apply bind_inv_ok in H. destruct H as (t3 & z & H10 & H). apply add_truths_inv in H10. destruct H10 as (-> & ->).
  unfold ret in H. injection H as <- <- <-.
  assert (Q2 := set_quiet i (dy_lum lum) y (fun d => conj eq_refl (conj eq_refl (conj eq_refl (conj eq_refl eq_refl))))).
  unfold set_lum in H2. rewrite H2 in Q2. cbn in Q2.
  assert (Q4 := set_quiet i (dy_sp sp) z1 (fun d => conj eq_refl (conj eq_refl (conj eq_refl (conj eq_refl eq_refl))))).
  unfold set_sp in H4. rewrite H4 in Q4. cbn in Q4.
  assert (Q5 : yquiet z2 z3).
  { match type of H5 with iterM ?f ?l z2 = _ => assert (K : keeps yquiet (iterM f l)) end.
    { apply keeps_iter; [exact yquiet_refl|exact yquiet_trans|]. intros kv.
      apply keeps_bind; [exact yquiet_trans| |].
      - intros y0. unfold in_w, get_aux. cbn. split; [apply quiet_refl|reflexivity].
      - intros b. apply keeps_bind; [exact yquiet_trans| |intros []].
        + destruct (a_usesl (a_st b)); [|intros y0; apply yquiet_refl]. intros y0. apply set_quiet. now intros d.
        + destruct (a_usesd (a_st b)); [|intros y0; apply yquiet_refl]. intros y0. apply set_quiet. now intros d. }
    specialize (K z2). now rewrite H5 in K. }
  assert (Q := yquiet_trans _ _ _ Q2 (yquiet_trans _ _ _ Q4 Q5)).
  apply in_w_inv in H6. destruct H6 as (w4 & H6 & ->).
  exists a, (y_w z3), s. split; [easy|]. split; [now destruct (a_issec (a_ln a))|]. split; [apply Q|]. split; [exact H6|].
  split. { destruct Q as [_ ->]. reflexivity. }
  split; [exact H9|]. split; [easy|]. exists a2. auto.
Qed.

(** Truth entries of the samplers in [D]. *)
Definition recorded w (D : nat -> Prop) (tr : truths) : Prop :=
  forall j b, D j -> at_ w j b -> dget tr (name_of b) = Some (truth (a_par (a_dy b))).
Lemma recorded_one w D tr j b : recorded w D tr -> at_ w j b ->
  (forall i a, D i -> at_ w i a -> name_of a = name_of b -> i = j) ->
  recorded w (fun i => D i \/ i = j) (dset tr (name_of b) (truth (a_par (a_dy b)))).
Proof.
  intros R B N i a [DI| ->] A.
  - rewrite dget_dset. destruct (String.eqb_spec (name_of a) (name_of b)) as [Q|Q]; [|now apply (R i)].
    assert (i = j) by (eapply N; eauto). subst. assert (a = b) by (eapply at_fun; eauto). now subst.
  - assert (a = b) by (eapply at_fun; eauto). subst. now rewrite dget_dset_eq.
Qed.
Lemma recorded_many w l : forall D tr, recorded w D tr ->
  (forall i j a b, D i \/ In i (map snd l) -> D j \/ In j (map snd l) -> at_ w i a -> at_ w j b -> name_of a = name_of b -> i = j) ->
  (forall j, In j (map snd l) -> exists b, at_ w j b) ->
  recorded w (fun i => D i \/ In i (map snd l)) (add_truths w l tr).
Proof.
  induction l as [|[k j] l IH]; intros D tr R N EX; cbn [add_truths map snd].
  - intros i a [DI|[]] A. now apply (R i).
  - destruct (EX j) as (b & B); [now left|]. unfold at_ in B. rewrite B. change (at_ w j b) in B.
    intros i a DI A. apply (IH (fun i => D i \/ i = j) (dset tr (name_of b) (truth (a_par (a_dy b))))) with (j := i).
    + apply recorded_one; [easy|easy|]. intros i0 a0 D0 A0 Q. apply (N i0 j a0 b); auto. right. now left.
    + intros i0 j0 a0 b0 H1 H2. apply N.
      * destruct H1 as [[D0| ->]|I]; [now left|right; now left|right; now right].
      * destruct H2 as [[D0| ->]|I]; [now left|right; now left|right; now right].
    + intros j0 I. apply EX. now right.
    + destruct DI as [DI|[<-|I]]; auto.
    + exact A.
Qed.
End P.
