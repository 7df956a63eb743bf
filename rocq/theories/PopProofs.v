(** Proofs about populations (C39-C41, C43). *)
From Verif Require Import Base BaseFacts Env SimVarModel SimVarSpec SimVarProofs PopModel SynthModel SynthSpec SurveyProofs PopSpec.
From Verif Require SynthInv SurveyTop.
Open Scope string_scope.
Open Scope list_scope.
Open Scope nat_scope.

Section PopProofs.
Variable E : env.
Notation V := (V E).
Implicit Types (a : popargs E) (p q : population E).

(** ** Construction *)
Lemma fvar_ok (o l : list V) m : length o = length m -> length l = length m ->
  fvar E o l m = Ok (SimVar o l (MB m) DFloat).
Proof. intros A B. unfold fvar. apply sv_new_ok; cbn; congruence. Qed.
Lemma fvar_err (o l : list V) m : ~ (length o = length m /\ length l = length m) -> fvar E o l m = Err AssertionError.
Proof. intros A. unfold fvar. apply new_iff. cbn. intros (B & C). apply A. split; congruence. Qed.

Lemma rmapM_first A B (f : A -> res B) l e : (forall x, In x l -> (exists y, f x = Ok y) \/ f x = Err e) ->
  (exists r, rmapM f l = Ok r) \/ rmapM f l = Err e.
Proof.
  induction l as [|x l IH]; intros H; cbn; [now left; exists []|].
  destruct (H x (or_introl eq_refl)) as [(y & ->)| ->]; cbn; [|now right].
  destruct IH as [(r & ->)| ->]; [intros z I; apply H; now right| |]; cbn; eauto.
Qed.
Lemma rmapM_all A B (f : A -> res B) l : (forall x, In x l -> exists y, f x = Ok y) -> exists r, rmapM f l = Ok r.
Proof.
  induction l as [|x l IH]; intros H; cbn; [now exists []|].
  destruct (H x (or_introl eq_refl)) as (y & ->). destruct IH as (r & ->); [intros z I; apply H; now right|]. cbn. eauto.
Qed.

Lemma taken_mem k : ~ In k taken -> mem k readonly = false /\ mem k special = false /\
  mem k ["_protected_names"; "_auxiliary_quantities"] = false /\ mem k internal = false.
Proof.
  intros N. assert (X : forall l, (forall x, In x l -> In x taken) -> mem k l = false).
  { intros l S. destruct (mem k l) eqn:M; [|easy]. apply mem_In in M. now apply S in M. }
  unfold taken in *. repeat split; apply X; intros x I; rewrite !in_app_iff; tauto.
Qed.

Lemma aux_attr_cases sel k (v : list V * list V) : ~ In k taken ->
  (length (snd v) = length sel /\ length (fst v) = length sel /\ aux_attr E sel k v = Ok (SimVar (snd v) (fst v) (MB sel) DFloat)) \/
  (~ (length (snd v) = length sel /\ length (fst v) = length sel) /\ aux_attr E sel k v = Err AssertionError).
Proof.
  intros N. destruct (taken_mem k N) as (A & B & C & D). unfold aux_attr.
  destruct (Nat.eq_dec (length (snd v)) (length sel)) as [L|L]; [destruct (Nat.eq_dec (length (fst v)) (length sel)) as [L'|L']|].
  - left. rewrite (fvar_ok _ _ _ L L'). cbn [rbind]. now rewrite A, B, C, D.
  - right. split; [tauto|]. rewrite fvar_err by tauto. easy.
  - right. split; [tauto|]. rewrite fvar_err by tauto. easy.
Qed.

Lemma built_consistent a p : built E a p -> consistent a.
Proof.
  intros B. split; [|split].
  - destruct (bu_lum _ _ _ B) as (_ & L1), (bu_dist _ _ _ B) as (_ & L2), (bu_theta _ _ _ B) as (_ & L3),
      (bu_phi _ _ _ B) as (_ & L4), (bu_flux _ _ _ B) as (_ & L5 & L6). unfold aligned.
    split; [easy|]. split; [easy|]. split; [easy|]. split; [easy|]. split; [easy|]. split; [easy|]. split.
    + intros q Q. assert (X := bu_prob _ _ _ B). rewrite Q in X. easy.
    + intros x k t o Q I. assert (X := bu_aux _ _ _ B). rewrite Q in X. destruct X as (_ & X).
      apply In_nth_error in I. destruct I as (i & I). destruct (X i k (t, o) I) as (_ & _ & L & L'). cbn in *. easy.
  - exact (bu_known _ _ _ B).
  - intros x k l Q I. assert (X := bu_spaces _ _ _ B). rewrite Q in X. exact (X k l I).
Qed.

Lemma new_consistent a p : pop_new a = Ok p -> consistent a.
Proof. intros H. apply built_consistent with p. now apply pop_new_built. Qed.

Lemma new_faithful a p : pop_new a = Ok p -> faithful a p.
Proof.
  intros H. assert (B := pop_new_built _ _ _ H). unfold faithful, shows. split; [exact (bu_args _ _ _ B)|].
  destruct (bu_lum _ _ _ B) as (-> & _), (bu_dist _ _ _ B) as (-> & _), (bu_theta _ _ _ B) as (-> & _),
      (bu_phi _ _ _ B) as (-> & _), (bu_flux _ _ _ B) as (-> & _). cbn.
  split; [easy|]. split; [easy|]. split; [easy|]. split; [easy|]. split; [easy|]. split.
  - assert (X := bu_prob _ _ _ B). destruct (pa_prob a) as [q|].
    + destruct X as (-> & _). easy.
    + now rewrite X.
  - assert (X := bu_aux _ _ _ B). destruct (pa_aux a) as [x|]; [|rewrite X; constructor].
    destruct X as (L & X). clear - L X. revert X L. generalize (p_aux p). induction x as [|[k v] x IH]; intros [|y l] X L; try discriminate; constructor.
    + destruct (X 0 k v eq_refl) as (_ & N & _). cbn in N. injection N as ->. cbn. easy.
    + apply IH; [|now injection L]. intros i. exact (X (S i)).
Qed.

Lemma new_counts a p : pop_new a = Ok p ->
  p_nobj p = length (pa_sel a) /\ p_ndet p = count (pa_sel a) /\ p_ndet p + p_nnon p = p_nobj p /\
  (p_nodet p = true <-> p_ndet p = 0).
Proof.
  intros H. destruct (bu_counts _ _ _ (pop_new_built _ _ _ H)) as (-> & -> & -> & ->).
  assert (X := count_le_length (pa_sel a)). repeat split; try lia; try apply Nat.eqb_eq.
Qed.

Lemma new_total a : free_names a -> (exists p, pop_new a = Ok p) \/ (~ consistent a /\ pop_new a = Err AssertionError).
Proof.
  intros F. destruct (pop_new a) as [p|e] eqn:H; [left; eauto|right].
  assert (G : forall r : res unit, True) by easy. clear G.
  enough (X : e = AssertionError /\ ~ consistent a) by (destruct X as (-> & X); easy).
  revert H. unfold pop_new. intros H.
  assert (FV : forall (o l : list V) m, fvar E o l m = Err AssertionError /\ ~ (length o = length m /\ length l = length m) \/
            (length o = length m /\ length l = length m) /\ fvar E o l m = Ok (SimVar o l (MB m) DFloat)).
  { intros o l m. destruct (Nat.eq_dec (length o) (length m)) as [L|L]; [destruct (Nat.eq_dec (length l) (length m)) as [L'|L']|].
    - right. split; [easy|]. now apply fvar_ok.
    - left. split; [apply fvar_err|]; tauto.
    - left. split; [apply fvar_err|]; tauto. }
  unfold consistent, aligned.
  destruct (FV (pa_lum a) (pa_lum a) (pa_sel a)) as [(X & N)|(L1 & X)]; rewrite X in H; cbn [rbind] in H; [injection H as <-; split; [easy|tauto]|].
  destruct (FV (pa_dist a) (pa_dist a) (pa_sel a)) as [(X2 & N)|(L2 & X2)]; rewrite X2 in H; cbn [rbind] in H; [injection H as <-; split; [easy|tauto]|].
  destruct (FV (pa_theta a) (pa_theta a) (pa_sel a)) as [(X3 & N)|(L3 & X3)]; rewrite X3 in H; cbn [rbind] in H; [injection H as <-; split; [easy|tauto]|].
  destruct (FV (pa_phi a) (pa_phi a) (pa_sel a)) as [(X4 & N)|(L4 & X4)]; rewrite X4 in H; cbn [rbind] in H; [injection H as <-; split; [easy|tauto]|].
  unfold distances_add_up.
  destruct (Nat.eqb_spec (length (pa_known a) + length (pa_uidx a)) (count (pa_sel a))) as [Q|Q]; cbn [rassert rbind] in H;
    [|injection H as <-; split; [easy|tauto]].
  destruct (FV (pa_fobs a) (pa_flux a) (pa_sel a)) as [(X5 & N)|(L5 & X5)]; rewrite X5 in H; cbn [rbind] in H; [injection H as <-; split; [easy|tauto]|].
  match type of H with rbind ?m _ = _ => destruct m as [pr|e1] eqn:PR end; cbn [rbind] in H.
  2:{ injection H as <-. destruct (pa_prob a) as [q|]; [|discriminate].
      destruct (FV q q (pa_sel a)) as [(X6 & N)|(L6 & X6)]; rewrite X6 in PR; [|discriminate]. injection PR as <-.
      split; [easy|]. intros ((_ & _ & _ & _ & _ & _ & C & _) & _). apply N. split; now apply C. }
  match type of H with rbind ?m _ = _ => destruct m as [ax|e1] eqn:AX end; cbn [rbind] in H.
  2:{ injection H as <-. destruct (pa_aux a) as [x|] eqn:PA; [|discriminate].
      assert (C : forall kv, In kv x -> (exists y, rmap (pair (fst kv)) (aux_attr E (pa_sel a) (fst kv) (snd kv)) = Ok y) \/
                     rmap (pair (fst kv)) (aux_attr E (pa_sel a) (fst kv) (snd kv)) = Err AssertionError).
      { intros [k v] I. destruct (aux_attr_cases (pa_sel a) k v (F x k v PA I)) as [(_ & _ & Z)|(_ & Z)]; cbn [fst snd]; rewrite Z; cbn; eauto. }
      destruct (rmapM_first _ _ _ _ _ C) as [(r & Z)|Z]; [congruence|]. rewrite Z in AX. injection AX as <-. split; [easy|].
      intros ((_ & _ & _ & _ & _ & _ & _ & D) & _).
      destruct (rmapM_all _ _ (fun kv => rmap (pair (fst kv)) (aux_attr E (pa_sel a) (fst kv) (snd kv))) x) as (r & W); [|congruence].
      intros [k [t o]] I. destruct (aux_attr_cases (pa_sel a) k (t, o) (F x k (t, o) PA I)) as [(_ & _ & W)|(W & _)]; [cbn [fst snd]; rewrite W; cbn; eauto|].
      exfalso. apply W. cbn. destruct (D x k t o eq_refl I); tauto. }
  match type of H with rbind ?m _ = _ => destruct m as [sp|e1] eqn:SP end; cbn [rbind] in H; [discriminate|].
  injection H as <-. destruct (pa_spaces a) as [x|] eqn:PS; [|discriminate].
  assert (C : forall kv : string * list V, In kv x -> (exists y, rassert (length (snd kv) =? pa_nmodel a) = Ok y) \/
                     rassert (length (snd kv) =? pa_nmodel a) = Err AssertionError).
  { intros [k v] I. cbn. destruct (length v =? pa_nmodel a); cbn; eauto. }
  destruct (rmapM_first _ _ _ _ _ C) as [(r & Z)|Z]; [congruence|]. rewrite Z in SP. injection SP as <-. split; [easy|].
  intros (_ & _ & D).
  destruct (rmapM_all _ _ (fun kv : string * list V => rassert (length (snd kv) =? pa_nmodel a)) x) as (r & W); [|congruence].
  intros [k l] I. cbn [snd]. rewrite (D x k l PS I), Nat.eqb_refl. cbn. eauto.
Qed.

Lemma new_iff_consistent a : free_names a ->
  (consistent a -> exists p, pop_new a = Ok p) /\ (~ consistent a -> pop_new a = Err AssertionError).
Proof.
  intros F. destruct (new_total a F) as [(p & H)|(N & H)]; split; intros C; eauto; try tauto.
  exfalso. apply C. eapply new_consistent, H.
Qed.

Lemma new_free a p : pop_new a = Ok p -> free_names a.
Proof.
  unfold pop_new. intros H x k v PA I.
  apply rbind_inv in H. destruct H as (l & Hl & H). apply rbind_inv in H. destruct H as (d & Hd & H).
  apply rbind_inv in H. destruct H as (t & Ht & H). apply rbind_inv in H. destruct H as (ph & Hp & H).
  apply rbind_inv in H. destruct H as (u & Hu & H). apply rbind_inv in H. destruct H as (f & Hf & H).
  apply rbind_inv in H. destruct H as (pr & Hpr & H). apply rbind_inv in H. destruct H as (aux & Ha & _).
  rewrite PA in Ha. apply In_nth_error in I. destruct I as (i & I).
  assert (X := rmapM_nth _ _ i Ha). rewrite I in X. destruct X as (z & X & _). cbn [fst snd] in X.
  apply rmap_inv in X. destruct X as (sv & X & _). unfold aux_attr in X. apply rbind_inv in X. destruct X as (w & _ & X).
  intros T. unfold taken in T. rewrite !in_app_iff in T.
  destruct (mem k readonly) eqn:M1; [discriminate|]. destruct (mem k special) eqn:M2; [discriminate|].
  destruct (mem k ["_protected_names"; "_auxiliary_quantities"]) eqn:M3; [discriminate|]. destruct (mem k internal) eqn:M4; [discriminate|].
  destruct T as [T|[T|[T|T]]]; apply mem_In in T; congruence.
Qed.

(** A quantity with the name of a property of the class is refused. *)
Lemma new_property_name a x k v : consistent a -> pa_aux a = Some ((k, v) :: x) -> In k readonly -> pop_new a = Err AttributeError.
Proof.
  intros ((L1 & L2 & L3 & L4 & L5 & L6 & LP & LA) & Q & _) PA I. unfold pop_new.
  rewrite !fvar_ok by easy. cbn [rbind].
  unfold distances_add_up in Q. rewrite Q, Nat.eqb_refl. cbn [rassert rbind].
  assert (PR : exists pr, match pa_prob a with None => Ok None | Some q => rmap Some (fvar E q q (pa_sel a)) end = Ok pr).
  { destruct (pa_prob a) as [q|] eqn:Z; [|eauto]. rewrite (fvar_ok q q) by (now apply LP). cbn. eauto. }
  destruct PR as (pr & ->). cbn [rbind]. rewrite PA. cbn [rmapM fst snd]. unfold aux_attr.
  destruct v as [t o]. destruct (LA _ k t o PA (or_introl eq_refl)) as (A & B). cbn [fst snd].
  rewrite (fvar_ok o t) by easy. cbn [rbind]. apply mem_In in I. rewrite I. easy.
Qed.

(** ** Attributes *)
Section Attributes.
Variable T : Type.
Variable names : T -> option (list string).
Implicit Types (o : attrs T).

Definition wf_prot o l := at_prot o = Names l.

Lemma setattr_prot k v o l : at_prot o = Names l -> k <> "_protected_names" ->
  at_prot (snd (setattr names k v o)) = Names l.
Proof.
  intros P N. unfold setattr. apply String.eqb_neq in N. rewrite N, P.
  destruct (mem k l); [easy|]. destruct (mem k readonly); [easy|]. destruct (mem k special); easy.
Qed.
Lemma delattr_prot k o l : at_prot o = Names l -> k <> "_protected_names" -> at_prot (snd (delattr k o)) = Names l.
Proof.
  intros P N. unfold delattr. apply String.eqb_neq in N. rewrite N.
  destruct (mem k readonly); [easy|]. destruct (mem k special); [easy|]. now destruct (dget (at_vals o) k).
Qed.

Lemma dget_ddel A (d : dict A) k k' : k <> k' -> dget (ddel d k') k = dget d k.
Proof.
  intros N. induction d as [|[x v] d IH]; cbn [ddel dget]; [easy|].
  destruct (String.eqb_spec k' x) as [->|M].
  - destruct (String.eqb_spec k x); [easy|easy].
  - cbn [dget]. destruct (String.eqb k x); [easy|exact IH].
Qed.

Lemma protected_step l k o op : at_prot o = Names l -> In k l -> op_name op <> "_protected_names" -> op <> Delete k ->
  at_prot (attr_step names op o) = Names l /\ dget (at_vals (attr_step names op o)) k = dget (at_vals o) k.
Proof.
  intros P I N D. destruct op as [k' v|k']; cbn in N; unfold attr_step.
  - split; [now apply setattr_prot|]. unfold setattr. apply String.eqb_neq in N. rewrite N, P.
    destruct (mem k' l) eqn:M; [easy|]. destruct (mem k' readonly); [easy|]. destruct (mem k' special); [easy|]. cbn.
    apply dget_dset_neq. intros ->. apply mem_In in I. congruence.
  - split; [now apply delattr_prot|]. unfold delattr. apply String.eqb_neq in N. rewrite N.
    destruct (mem k' readonly); [easy|]. destruct (mem k' special); [easy|]. destruct (dget (at_vals o) k'); [|easy]. cbn.
    apply dget_ddel. intros ->. now apply D.
Qed.

Lemma protected_run l k h : In k l -> (forall op, In op h -> op_name op <> "_protected_names" /\ op <> Delete k) ->
  forall o, at_prot o = Names l ->
  at_prot (attr_run names h o) = Names l /\ dget (at_vals (attr_run names h o)) k = dget (at_vals o) k.
Proof.
  intros I. unfold attr_run. induction h as [|op h IH]; intros H o P; [easy|]. cbn [fold_left].
  destruct (protected_step l k o op P I) as (P1 & D1); [apply H; now left|apply H; now left|].
  destruct (IH (fun x J => H x (or_intror J)) _ P1) as (P2 & D2). split; [easy|]. now rewrite D2.
Qed.

Lemma setattr_protected l k v o : at_prot o = Names l -> In k l -> k <> "_protected_names" ->
  setattr names k v o = (Err AttributeError, o).
Proof.
  intros P I N. unfold setattr. apply String.eqb_neq in N. rewrite N, P. apply mem_In in I. now rewrite I.
Qed.

Lemma setattr_free l k v o : at_prot o = Names l -> ~ In k l -> k <> "_protected_names" -> ~ In k readonly -> ~ In k special ->
  exists o', setattr names k v o = (Ok tt, o') /\ dget (at_vals o') k = Some v /\ at_prot o' = at_prot o /\
    forall k', k' <> k -> dget (at_vals o') k' = dget (at_vals o) k'.
Proof.
  intros P I N R S. unfold setattr. apply String.eqb_neq in N. rewrite N, P.
  destruct (mem k l) eqn:M1; [apply mem_In in M1; easy|].
  destruct (mem k readonly) eqn:M2; [apply mem_In in M2; easy|]. destruct (mem k special) eqn:M3; [apply mem_In in M3; easy|].
  eexists. split; [reflexivity|]. cbn [at_vals at_prot]. split; [apply dget_dset_eq|]. split; [easy|]. intros k' K. now apply dget_dset_neq.
Qed.


Lemma setattr_inv l k v o u o1 : at_prot o = Names l -> k <> "_protected_names" -> setattr names k v o = (Ok u, o1) ->
  o1 = Attrs (Names l) (dset (at_vals o) k v) /\ ~ In k l /\ ~ In k readonly /\ ~ In k special.
Proof.
  intros P N S. unfold setattr in S. apply String.eqb_neq in N. rewrite N, P in S.
  destruct (mem k l) eqn:M1; [discriminate|]. destruct (mem k readonly) eqn:M2; [discriminate|].
  destruct (mem k special) eqn:M3; [discriminate|]. injection S as _ <-. split; [easy|].
  repeat split; intros I; apply mem_In in I; congruence.
Qed.

Lemma install_inv qs : forall o u o' l, at_prot o = Names l -> ~ In "_protected_names" (map fst qs) ->
  install names qs o = (Ok u, o') ->
  at_prot o' = Names (l ++ map fst qs) /\ NoDup (map fst qs) /\ (forall k, In k (map fst qs) -> ~ In k l) /\
  (forall k, ~ In k (map fst qs) -> dget (at_vals o') k = dget (at_vals o) k) /\
  (forall k v, In (k, v) qs -> dget (at_vals o') k = Some v).
Proof.
  induction qs as [|[k v] qs IH]; intros o u o' l P N H; cbn [install] in H.
  - injection H as _ <-. rewrite app_nil_r. split; [easy|]. split; [constructor|]. easy.
  - cbn in N. destruct (setattr names k v o) as [[u1|e] o1] eqn:S; [|discriminate].
    apply (setattr_inv l) in S; [|easy|intros ->; tauto]. destruct S as (-> & NI & _). cbn [at_prot at_vals] in H.
    destruct (IH (Attrs (Names (l ++ [k])) (dset (at_vals o) k v)) u o' (l ++ [k])) as (A & ND & DJ & B & C); [easy|tauto|exact H|].
    cbn [at_vals] in *. rewrite <- app_assoc in A.
    assert (NK : ~ In k (map fst qs)). { intros I. apply DJ in I. apply I, in_app_iff. right. now left. }
    split; [exact A|]. split; [now constructor|]. split; [|split].
    + cbn. intros k' [<-|I]; [easy|]. intros J. apply (DJ k' I), in_app_iff. now left.
    + intros k' N'. cbn in N'. rewrite B by tauto. apply dget_dset_neq. intros ->. tauto.
    + intros k' v' [Q|I]; [|now apply C]. injection Q as <- <-. rewrite (B _ NK). apply dget_dset_eq.
Qed.

Lemma install_ok qs : forall o l, at_prot o = Names l -> NoDup (map fst qs) -> (forall k, In k (map fst qs) -> ~ In k l) ->
  (forall k, In k (map fst qs) -> ~ In k taken) -> exists o', install names qs o = (Ok tt, o').
Proof.
  induction qs as [|[k v] qs IH]; intros o l P ND DJ F; cbn [install]; [eauto|].
  inversion ND as [|? ? NK ND']; subst.
  assert (Fk : ~ In k taken) by (apply F; now left).
  assert (NP : k <> "_protected_names"). { intros ->. apply Fk. unfold taken. rewrite !in_app_iff. right. right. left. now left. }
  destruct (setattr_free l k v o P) as (o1 & S & _).
  - apply DJ. now left.
  - easy.
  - intros I. apply Fk. unfold taken. rewrite !in_app_iff. tauto.
  - intros I. apply Fk. unfold taken. rewrite !in_app_iff. tauto.
  - rewrite S. apply (setattr_inv l) in S; [|easy|easy]. destruct S as (-> & _). cbn [at_prot].
    apply (IH _ (l ++ [k])); [easy|easy| |].
    + intros k' I J. apply in_app_iff in J. destruct J as [J|[<-|[]]]; [apply (DJ k'); [now right|easy]|easy].
    + intros k' I. apply F. now right.
Qed.

(** The constructor on the auxiliary quantities [qs], all other attributes being [o]'s. *)
Lemma finish_ok qs d o : at_prot o = Names [] -> NoDup (map fst qs) -> (forall k, In k (map fst qs) -> ~ In k taken) ->
  exists o', finish names qs d o = (Ok tt, o').
Proof.
  intros P ND F. destruct (install_ok qs o [] P ND) as (o1 & H); [easy|easy|].
  unfold finish. rewrite H. apply (install_inv qs) with (l := []) in H; [|easy|].
  - destruct H as (A & _). assert (N1 : ~ In "_auxiliary_quantities" (map fst qs)).
    { intros I. apply F in I. apply I. unfold taken. rewrite !in_app_iff. right. right. left. right. now left. }
    assert (N2 : ~ In "_auxiliary_quantities" readonly) by (intros I; apply mem_In in I; discriminate I).
    assert (N3 : ~ In "_auxiliary_quantities" special) by (intros I; apply mem_In in I; discriminate I).
    destruct (setattr_free (map fst qs) "_auxiliary_quantities" d o1) as (o' & S & _); [easy|easy|easy|easy|easy|]. now exists o'.
  - intros I. apply F in I. apply I. unfold taken. rewrite !in_app_iff. right. right. left. now left.
Qed.

Lemma finish_inv qs d o u o' : at_prot o = Names [] -> ~ In "_protected_names" (map fst qs) ->
  finish names qs d o = (Ok u, o') ->
  at_prot o' = Names (map fst qs) /\ (forall k v, In (k, v) qs -> dget (at_vals o') k = Some v).
Proof.
  intros P N H. unfold finish in H. destruct (install names qs o) as [[u1|e] o1] eqn:I; [|discriminate].
  apply (install_inv qs) with (l := []) in I; [|easy|easy]. destruct I as (A & _ & _ & _ & C).
  apply (setattr_inv (map fst qs)) in H; [|easy|easy]. destruct H as (-> & NI & _). cbn. split; [easy|].
  intros k v I. rewrite dget_dset_neq; [now apply C|]. intros ->. apply NI, in_map_iff. now exists ("_auxiliary_quantities", v).
Qed.

(** C43: whatever is assigned and deleted afterwards, as long as the list of
    protected names is left alone. *)
Lemma protected_always qs d o u o' h k v0 v : at_prot o = Names [] -> ~ In "_protected_names" (map fst qs) ->
  finish names qs d o = (Ok u, o') -> In (k, v0) qs ->
  (forall op, In op h -> op_name op <> "_protected_names" /\ op <> Delete k) ->
  setattr names k v (attr_run names h o') = (Err AttributeError, attr_run names h o') /\
  dget (at_vals (attr_run names h o')) k = Some v0.
Proof.
  intros P N F I H. destruct (finish_inv _ _ _ _ _ P N F) as (A & B).
  assert (IK : In k (map fst qs)) by (apply in_map_iff; now exists (k, v0)).
  destruct (protected_run _ k h IK H o' A) as (C & D). split; [|rewrite D; now apply B].
  apply (setattr_protected (map fst qs)); [easy|easy|]. intros ->. easy.
Qed.

Lemma others_assignable qs d o u o' h k v : at_prot o = Names [] -> ~ In "_protected_names" (map fst qs) ->
  finish names qs d o = (Ok u, o') -> (forall op, In op h -> op_name op <> "_protected_names") ->
  ~ In k (map fst qs) -> k <> "_protected_names" -> ~ In k readonly -> ~ In k special ->
  exists o'', setattr names k v (attr_run names h o') = (Ok tt, o'') /\ dget (at_vals o'') k = Some v /\
    forall k', k' <> k -> dget (at_vals o'') k' = dget (at_vals (attr_run names h o')) k'.
Proof.
  intros P N F H IK NP R S. destruct (finish_inv _ _ _ _ _ P N F) as (A & _).
  assert (B : at_prot (attr_run names h o') = Names (map fst qs)).
  { revert o' A F. unfold attr_run. induction h as [|op h IH]; intros o' A F; [easy|]. cbn [fold_left].
    assert (forall o1, at_prot o1 = Names (map fst qs) -> at_prot (fold_left (fun o0 op0 => attr_step names op0 o0) h o1) = Names (map fst qs)) as X.
    { clear - H. induction h as [|op' h IH]; intros o1 Q; [easy|]. cbn [fold_left]. apply IH.
      - intros x J. apply H. cbn in J. cbn. tauto.
      - assert (op_name op' <> "_protected_names") by (apply H; cbn; tauto). unfold attr_step.
        destruct op'; [now apply setattr_prot|now apply delattr_prot]. }
    apply X. assert (op_name op <> "_protected_names") by (apply H; now left). unfold attr_step.
    destruct op; [now apply setattr_prot|now apply delattr_prot]. }
  destruct (setattr_free _ k v _ B IK NP R S) as (o'' & X & Y & _ & Z). eauto.
Qed.
End Attributes.

(** The constructor and the record of the population agree. *)
Lemma finish_population T (names : T -> option (list string)) (inj : simvar V -> T) a p x d o :
  pop_new a = Ok p -> pa_aux a = Some x -> NoDup (map fst x) -> at_prot o = Names [] ->
  exists o', finish names (map (fun kv => (fst kv, inj (snd kv))) (p_aux p)) d o = (Ok tt, o') /\
    at_prot o' = Names (map fst x) /\ forall k v, In (k, v) (p_aux p) -> dget (at_vals o') k = Some (inj v).
Proof.
  intros H PA ND P.
  assert (FF : Forall2 (fun (kv : string * (list V * list V)) kx => fst kx = fst kv) x (p_aux p)).
  { destruct (new_faithful _ _ H) as (_ & _ & _ & _ & _ & _ & _ & F). rewrite PA in F.
    eapply Forall2_impl; [|exact F]. now intros kv kx (Q & _). }
  assert (K : map fst (map (fun kv => (fst kv, inj (snd kv))) (p_aux p)) = map fst x).
  { rewrite map_map. cbn. clear - FF. induction FF as [|kv kx ? ? Q F IH]; cbn; [easy|]. now rewrite Q, IH. }
  assert (FN : forall k, In k (map fst x) -> ~ In k taken).
  { intros k I. apply in_map_iff in I. destruct I as ([k' v] & <- & I). exact (new_free _ _ H x k' v PA I). }
  destruct (finish_ok T names (map (fun kv => (fst kv, inj (snd kv))) (p_aux p)) d o P) as (o' & F); [now rewrite K|now rewrite K|].
  exists o'. split; [exact F|].
  assert (NP : ~ In "_protected_names" (map fst (map (fun kv => (fst kv, inj (snd kv))) (p_aux p)))).
  { rewrite K. intros I. apply FN in I. apply I. unfold taken. rewrite !in_app_iff. right. right. left. now left. }
  destruct (finish_inv _ _ _ _ _ _ _ P NP F) as (A & B). rewrite K in A. split; [exact A|].
  intros k v I. apply B, in_map_iff. now exists (k, v).
Qed.

(** ** Stan data *)
Lemma dget_fold (ents : list (string * list V)) : forall (base : dict (sval E)) k,
  NoDup (map fst ents) ->
  dget (fold_left (fun o kv => dset o (fst kv) (SArr E (snd kv))) ents base) k =
  match dget ents k with Some l => Some (SArr E l) | None => dget base k end.
Proof.
  induction ents as [|[k1 l1] ents IH]; intros base k ND; cbn [fold_left fst snd]; [easy|].
  inversion ND as [|? ? N ND']; subst. rewrite (IH _ k ND'). cbn [dget].
  destruct (String.eqb_spec k k1) as [->|NE].
  - destruct (dget ents k1) eqn:D; [|apply dget_dset_eq]. exfalso. apply N.
    apply dget_In in D. apply in_map_iff. now exists (k1, l).
  - destruct (dget ents k); [easy|]. now apply dget_dset_neq.
Qed.

Lemma stan_available a p : pop_new a = Ok p -> pa_spaces a <> None -> pa_aux a <> None -> exists d, stan_data p = Ok d.
Proof.
  intros H S X. assert (B := pop_new_built _ _ _ H). unfold stan_data.
  destruct (bu_dist _ _ _ B) as (-> & LD), (bu_flux _ _ _ B) as (-> & LF & LF'). rewrite (bu_args _ _ _ B).
  rewrite (selected_eq _ _ (pa_sel a)) by easy. cbn [rbind].
  rewrite (selected_eq _ _ (pa_sel a)) by easy. cbn [rbind].
  unfold ufunc1. rewrite sv_new_ok; [|cbn [sv_obs sv_lat sv_sel sv_dt]; now rewrite mask_len_ones, map_length, keep_length|cbn [sv_obs sv_lat sv_sel sv_dt]; now rewrite !map_length, !keep_length].
  cbn [rbind]. destruct (pa_spaces a) as [sp|]; [|easy]. cbn [of_opt rbind]. destruct (pa_aux a) as [ax|] eqn:PA; [|easy]. cbn [of_opt rbind].
  match goal with |- context [rmapM ?f ax] => destruct (rmapM_all _ _ f ax) as (r & ->) end; [|cbn [rbind]; eauto].
  intros [k v] I. cbn [fst snd].
  assert (Y := bu_aux _ _ _ B). rewrite PA in Y. destruct Y as (_ & Y). apply In_nth_error in I. destruct I as (i & I).
  destruct (Y i k v I) as (_ & _ & L & _). unfold np_mask. rewrite L, Nat.eqb_refl. cbn. eauto.
Qed.

Lemma NoDup_app_inv A (l k : list A) : NoDup (l ++ k) -> NoDup l /\ NoDup k /\ forall x, In x l -> ~ In x k.
Proof.
  induction l as [|x l IH]; cbn; intros H; [split; [constructor|easy]|].
  inversion H as [|? ? N H']; subst. destruct (IH H') as (A1 & A2 & A3). rewrite in_app_iff in N. split; [constructor; tauto|]. split; [easy|].
  intros y [<-|I]; [tauto|now apply A3].
Qed.

Lemma ents_keys (f : string * (list V * list V) -> res (list V)) ax : forall r,
  rmapM (fun kv => rmap (pair (fst kv ++ "_obs")%string) (f kv)) ax = Ok r ->
  map fst r = map (fun kv => (fst kv ++ "_obs")%string) ax /\
  forall kv, In kv ax -> exists l, f kv = Ok l /\ In ((fst kv ++ "_obs")%string, l) r.
Proof.
  induction ax as [|kv ax IH]; intros r H; cbn [rmapM] in H; [injection H as <-; easy|].
  destruct (f kv) as [l|e] eqn:F; cbn [rmap rbind] in H; [|discriminate].
  destruct (rmapM _ ax) as [r'|e] eqn:R; cbn [rbind] in H; [|discriminate]. injection H as <-.
  destruct (IH r' eq_refl) as (A & B). cbn [map fst]. rewrite A. split; [easy|].
  intros kv' [<-|I]; [exists l; split; [easy|now left]|]. destruct (B kv' I) as (l' & L & J). exists l'. split; [easy|now right].
Qed.

Lemma dget_none A (d : dict A) k : ~ In k (map fst d) -> dget d k = None.
Proof.
  intros N. destruct (dget d k) eqn:D; [|easy]. exfalso. apply N. apply dget_In in D. apply in_map_iff. now exists (k, a).
Qed.
Lemma dget_some A (d : dict A) k v : NoDup (map fst d) -> In (k, v) d -> dget d k = Some v.
Proof. intros N I. now apply In_dget. Qed.

Lemma stan_contents a p d sp ax : pop_new a = Ok p -> stan_data p = Ok d -> pa_spaces a = Some sp -> pa_aux a = Some ax ->
  stan_keys_apart E sp ax ->
  dget d "N" = Some (SNat E (count (pa_sel a))) /\
  dget d "Nz" = Some (SNat E (length (pa_known a))) /\ dget d "Nnz" = Some (SNat E (length (pa_uidx a))) /\
  dget d "z_idx" = Some (SIdx E (map S (pa_kidx a))) /\ dget d "z_nidx" = Some (SIdx E (map S (pa_uidx a))) /\
  dget d "r_idx" = dget d "z_idx" /\ dget d "r_nidx" = dget d "z_nidx" /\
  entry_is d "z_obs" (keep true (pa_dist a) (pa_sel a)) /\ entry_is d "r_obs" (keep true (pa_dist a) (pa_sel a)) /\
  entry_is d "known_z_obs" (pa_known a) /\ entry_is d "known_r_obs" (pa_known a) /\
  entry_is d "flux_obs" (keep true (pa_fobs a) (pa_sel a)) /\
  entry_is d "log_flux_obs" (map (vlog10 E) (keep true (pa_fobs a) (pa_sel a))) /\
  dget d "flux_sigma" = Some (SNum E (pa_sigma a)) /\ dget d "z_max" = Some (SNum E (pa_rmax a)) /\
  dget d "r_max" = Some (SNum E (pa_rmax a)) /\ dget d "N_model" = Some (SNat E (pa_nmodel a)) /\
  (forall k l, In (k, l) sp -> entry_is d k l) /\
  (forall k t o, In (k, (t, o)) ax -> entry_is d (k ++ "_obs")%string (keep true o (pa_sel a))).
Proof.
  intros H D PS PA K. assert (B := pop_new_built _ _ _ H). unfold stan_data in D.
  rewrite (bu_args _ _ _ B) in D. destruct (bu_counts _ _ _ B) as (_ & CN & _). rewrite CN in D.
  destruct (bu_dist _ _ _ B) as (QD & LD), (bu_flux _ _ _ B) as (QF & LF & LF'). rewrite QD, QF in D.
  rewrite (selected_eq _ (SimVar (pa_dist a) _ _ _) (pa_sel a)) in D by easy. cbn [rbind] in D.
  rewrite (selected_eq _ (SimVar (pa_fobs a) _ _ _) (pa_sel a)) in D by easy. cbn [rbind] in D.
  unfold ufunc1 in D. rewrite sv_new_ok in D; [|cbn [sv_obs sv_lat sv_sel sv_dt]; now rewrite mask_len_ones, map_length, keep_length|cbn [sv_obs sv_lat sv_sel sv_dt]; now rewrite !map_length, !keep_length].
  cbn [rbind] in D. rewrite PS, PA in D. cbn [of_opt rbind sv_obs sv_lat sv_sel sv_dt] in D.
  apply rbind_inv in D. destruct D as (ents & R & D). injection D as <-.
  destruct (ents_keys (fun kv => np_mask (snd (snd kv)) (pa_sel a)) ax ents R) as (EK & EV).
  unfold stan_keys_apart in K. rewrite <- EK in K.
  destruct (NoDup_app_inv _ _ _ K) as (_ & K2 & K3). destruct (NoDup_app_inv _ _ _ K2) as (K4 & K5 & K6).
  match goal with |- context [fold_left _ ents (fold_left _ sp ?b)] => set (base := b) end.
  assert (G : forall k, In k stan_keys -> dget (fold_left (fun o kv => dset o (fst kv) (SArr E (snd kv))) ents
              (fold_left (fun o kv => dset o (fst kv) (SArr E (snd kv))) sp base)) k = dget base k).
  { intros k I. apply K3 in I. rewrite in_app_iff in I. rewrite (dget_fold ents) by easy. rewrite (dget_none _ ents) by tauto.
    rewrite (dget_fold sp) by easy. now rewrite (dget_none _ sp) by tauto. }
  assert (M : forall k, mem k stan_keys = true -> In k stan_keys) by (intros k; apply mem_In).
  repeat match goal with |- context [dget ?x ?k] => lazymatch x with fold_left _ _ _ => rewrite (G k) by (apply M; reflexivity) end end.
  unfold entry_is.
  repeat match goal with |- context [dget (fold_left ?f ents ?x) (String ?c ?k)] => rewrite (G (String c k)) by (apply M; reflexivity) end.
  repeat (split; [solve [reflexivity|left; reflexivity|right; eexists; split; reflexivity]|]).
  split.
  - intros k l I. left. rewrite (dget_fold ents) by easy. rewrite (dget_none _ ents).
    + rewrite (dget_fold sp) by easy. now rewrite (dget_some _ sp k l).
    + apply K6, in_map_iff. now exists (k, l).
  - intros k t o I. left. destruct (EV _ I) as (l & L & J). cbn [fst snd] in *.
    rewrite (dget_fold ents) by easy. rewrite (dget_some _ ents _ l K5 J). unfold np_mask in L.
    destruct (length o =? length (pa_sel a)); [|discriminate]. injection L as <-. now rewrite mselect_keep.
Qed.

Lemma stan_lengths a p d sp ax : pop_new a = Ok p -> stan_data p = Ok d -> pa_spaces a = Some sp -> pa_aux a = Some ax ->
  stan_keys_apart E sp ax ->
  exists n nz nnz, dget d "N" = Some (SNat E n) /\ dget d "Nz" = Some (SNat E nz) /\ dget d "Nnz" = Some (SNat E nnz) /\
  n = p_ndet p /\ nz + nnz = n /\
  (forall k, In k ["z_obs"; "r_obs"; "flux_obs"; "log_flux_obs"] -> exists l, entry_is d k l /\ length l = n) /\
  (forall k t o, In (k, (t, o)) ax -> exists l, entry_is d (k ++ "_obs")%string l /\ length l = n) /\
  (forall k l, In (k, l) sp -> exists m, entry_is d k l /\ dget d "N_model" = Some (SNat E m) /\ length l = m).
Proof.
  intros H D PS PA K. destruct (new_consistent _ _ H) as ((L1 & L2 & L3 & L4 & L5 & L6 & LP & LA) & Q & SF).
  destruct (stan_contents _ _ _ _ _ H D PS PA K) as (C1 & C2 & C3 & C4 & C5 & C6 & C7 & C8 & C9 & C10 & C11 & C12 & C13 & C14 & C15 & C16 & C17 & C18 & C19).
  exists (count (pa_sel a)), (length (pa_known a)), (length (pa_uidx a)).
  destruct (new_counts _ _ H) as (_ & CN & _). repeat (split; [easy|]). split; [|split].
  - intros k I. cbn in I. destruct I as [<-|[<-|[<-|[<-|[]]]]]; eexists; (split; [eassumption|]); rewrite ?map_length; now apply keep_length.
  - intros k t o I. exists (keep true o (pa_sel a)). split; [now apply (C19 k t o)|]. apply keep_length. now destruct (LA ax k t o PA I).
  - intros k l I. exists (pa_nmodel a). split; [now apply C18|]. split; [easy|]. exact (SF sp k l PS I).
Qed.

Lemma stan_partition prog fuel rl fs l10 ns norm (y : synth E) p y' :
  draw_survey prog fuel rl fs l10 ns norm y = (Ok p, y') -> forall d, stan_data p = Ok d ->
  (forall sp ax, pa_spaces (p_args p) = Some sp -> pa_aux (p_args p) = Some ax -> stan_keys_apart E sp ax) ->
  exists n ki ui, dget d "N" = Some (SNat E n) /\ dget d "z_idx" = Some (SIdx E ki) /\ dget d "z_nidx" = Some (SIdx E ui) /\
    dget d "r_idx" = Some (SIdx E ki) /\ dget d "r_nidx" = Some (SIdx E ui) /\ splits_one_to n ki ui.
Proof.
  intros H d D K. destruct (SynthInv.survey_steps _ _ _ _ _ _ _ _ _ _ _ H) as (t & ST).
  assert (N := SynthInv.sp_pop _ _ _ _ _ _ _ _ _ _ _ _ ST). assert (QA := bu_args _ _ _ (pop_new_built _ _ _ N)).
  match type of N with pop_new ?x = _ => set (a := x) in * end. rewrite QA in K.
  destruct (stan_contents _ _ _ _ _ N D eq_refl eq_refl (K _ _ eq_refl eq_refl)) as (C1 & _ & _ & C4 & C5 & C6 & C7 & _).
  destruct (SurveyTop.known_unknown _ _ _ _ _ _ _ _ _ _ _ H) as (S1 & S2 & CV & DJ & _). rewrite QA in S1, S2, CV, DJ.
  exists (count (pa_sel a)), (map S (pa_kidx a)), (map S (pa_uidx a)). rewrite C6, C7. repeat (split; [assumption|]).
  assert (SS : forall l, StronglySorted lt l -> StronglySorted lt (map S l)).
  { induction l as [|x l IH]; intros Q; [constructor|]. inversion Q as [|? ? Q1 Q2]; subst. cbn. constructor; [now apply IH|].
    apply Forall_forall. intros z Z. apply in_map_iff in Z. destruct Z as (z' & <- & Z). rewrite Forall_forall in Q2. apply Q2 in Z. lia. }
  split; [now apply SS|]. split; [now apply SS|]. split.
  - intros i I J. apply in_map_iff in I, J. destruct I as (i1 & <- & I), J as (i2 & Q & J). injection Q as ->. exact (DJ _ I J).
  - destruct (new_counts _ _ N) as (_ & CN & _). rewrite CN in CV. intros [|i].
    + split; [lia|]. intros [I|I]; apply in_map_iff in I; destruct I as (? & Q & _); discriminate.
    + split.
      * intros (_ & L). destruct (proj1 (CV i) L) as [I|I]; [left|right]; now apply in_map.
      * intros [I|I]; apply in_map_iff in I; destruct I as (j & Q & I); injection Q as ->; (split; [lia|]); apply CV; [now left|now right].
Qed.

(** ** Sub-populations *)
Lemma sub_known_spec known dist sel : forall i itr, i + length sel <= length dist ->
  exists ks ki ui, sub_known E known dist sel i itr = Ok (ks, ki, ui) /\
    length ks = length ki /\ length ki + length ui = count sel /\
    (forall j, In j ki -> itr <= j) /\ (forall j, In j ui -> itr <= j) /\
    forall k, nth_error sel k = Some true ->
      (In (itr + count (firstn k sel)) ki <-> idx_in E (i + k) known = true) /\
      (In (itr + count (firstn k sel)) ui <-> idx_in E (i + k) known = false) /\
      (forall n, nth_error ki n = Some (itr + count (firstn k sel)) -> nth_error ks n = nth_error dist (i + k)).
Proof.
  induction sel as [|b sel IH]; intros i itr L; cbn [sub_known].
  - do 3 eexists. split; [reflexivity|]. cbn. split; [easy|]. split; [easy|]. split; [easy|]. split; [easy|]. intros [|k] K; discriminate.
  - cbn [length] in L. destruct b.
    + destruct (IH (S i) (S itr)) as (ks & ki & ui & -> & A & B & CK & CU & D); [lia|].
      destruct (nth_error dist i) as [d|] eqn:ND; [|apply nth_error_None in ND; lia].
      destruct (idx_in E i known) eqn:I; cbn [of_opt rbind].
      * exists (d :: ks), (itr :: ki), ui. split; [easy|]. cbn [length count]. split; [lia|]. split; [lia|].
        split; [intros j [<-|J]; [lia|apply CK in J; lia]|]. split; [intros j J; apply CU in J; lia|].
        intros [|k] N; cbn [firstn count].
        { rewrite !Nat.add_0_r, I. split; [|split].
          - split; [easy|]. intros _. now left.
          - split; [|easy]. intros J. apply CU in J. lia.
          - intros [|n] M; cbn in M |- *; [now rewrite ND|]. apply nth_error_In in M. apply CK in M. lia. }
        cbn in N. destruct (D k N) as (D1 & D2 & D3). replace (itr + (1 + count (firstn k sel))) with (S itr + count (firstn k sel)) by lia.
        replace (i + S k) with (S i + k) by lia. split; [|split].
        -- rewrite <- D1. split; [intros [Q|Q]; [lia|exact Q]|now right].
        -- exact D2.
        -- intros [|n] M; cbn in M |- *; [injection M as M; lia|now apply D3].
      * exists ks, ki, (itr :: ui). split; [easy|]. cbn [length count]. split; [lia|]. split; [lia|].
        split; [intros j J; apply CK in J; lia|]. split; [intros j [<-|J]; [lia|apply CU in J; lia]|].
        intros [|k] N; cbn [firstn count].
        { rewrite !Nat.add_0_r, I. split; [|split].
          - split; [|easy]. intros J. apply CK in J. lia.
          - split; [easy|]. intros _. now left.
          - intros n M. apply nth_error_In in M. apply CK in M. lia. }
        cbn in N. destruct (D k N) as (D1 & D2 & D3). replace (itr + (1 + count (firstn k sel))) with (S itr + count (firstn k sel)) by lia.
        replace (i + S k) with (S i + k) by lia. split; [|split].
        -- exact D1.
        -- rewrite <- D2. split; [intros [Q|Q]; [lia|easy]|now right].
        -- exact D3.
    + destruct (IH (S i) itr) as (ks & ki & ui & -> & A & B & CK & CU & D); [lia|].
      exists ks, ki, ui. split; [easy|]. cbn [count]. split; [easy|]. split; [easy|]. split; [easy|]. split; [easy|].
      intros [|k] N; [discriminate|]. cbn in N. cbn [firstn count]. destruct (D k N) as (D1 & D2 & D3).
      replace (i + S k) with (S i + k) by lia. auto.
Qed.

Definition sub_mask (b : bool) (m : list bool) : list bool := if b then m else mnot m.

Lemma sub_mask_len b m : length (sub_mask b m) = length m.
Proof. destruct b; [easy|]. unfold sub_mask, mnot. apply map_length. Qed.
Lemma mselect_sub A b (l : list A) m : mselect l (sub_mask b m) = keep b l m.
Proof. destruct b; [apply mselect_keep|apply mselect_keep_not]. Qed.
Lemma keep_sub_count A b (l : list A) m : length l = length m -> length (keep b l m) = count (sub_mask b m).
Proof. intros H. rewrite <- mselect_sub. apply mselect_length. now rewrite sub_mask_len. Qed.

Lemma idx_in_iff i known : idx_in E i known = true <-> exists d, In d known /\ veq E (vofnat E i) d = true.
Proof. unfold idx_in. rewrite existsb_exists. easy. Qed.

Lemma sub_spec b a p : pop_new a = Ok p -> exists q, sub_population b p = Ok q /\ sub_of b p q /\
  forall k j, becomes b p k j ->
    (In j (pa_kidx (p_args q)) <-> exists d, In d (pa_known a) /\ veq E (vofnat E k) d = true) /\
    (In j (pa_uidx (p_args q)) <-> ~ exists d, In d (pa_known a) /\ veq E (vofnat E k) d = true) /\
    (forall n, nth_error (pa_kidx (p_args q)) n = Some j -> nth_error (pa_known (p_args q)) n = nth_error (pa_dist a) k).
Proof.
  intros H. assert (B := pop_new_built _ _ _ H). assert (FR := new_free _ _ H).
  destruct (new_consistent _ _ H) as ((L1 & L2 & L3 & L4 & L5 & L6 & LP & LA) & Q & SF).
  unfold sub_population. rewrite (bu_args _ _ _ B). fold (sub_mask b (pa_sel a)).
  set (m := sub_mask b (pa_sel a)).
  assert (LM : length m = length (pa_sel a)) by apply sub_mask_len.
  assert (LB : forall (x : simvar V), valid x (pa_sel a) -> exists s, mask_len s = count m /\
     (if b then @sv_selected V else @sv_non_selected V) x = Ok (SimVar (keep b (sv_obs x) (pa_sel a)) (keep b (sv_lat x) (pa_sel a)) s (sv_dt x))).
  { intros x Vx. destruct (part_eq _ b x (pa_sel a) Vx) as (s & S1 & S2). exists s. unfold m, sub_mask. unfold psize in S1. unfold part in S2.
    destruct b; easy. }
  set (pick := if b then @sv_selected V else @sv_non_selected V) in *.
  (* auxiliary quantities *)
  assert (AX : exists ax, match pa_aux a with
              | None => Ok None
              | Some x => rmap Some (rmapM (fun kv => let? t := np_mask (fst (snd kv)) m in
                  let? o := np_mask (snd (snd kv)) m in Ok (fst kv, (t, o))) x)
              end = Ok ax /\
              ax = option_map (map (fun kv => (fst kv, (keep b (fst (snd kv)) (pa_sel a), keep b (snd (snd kv)) (pa_sel a))))) (pa_aux a)).
  { destruct (pa_aux a) as [x|] eqn:PA; [|eauto]. cbn [option_map].
    assert (R : rmapM (fun kv => let? t := np_mask (fst (snd kv)) m in
                  let? o := np_mask (snd (snd kv)) m in Ok (fst kv, (t, o))) x =
                Ok (map (fun kv => (fst kv, (keep b (fst (snd kv)) (pa_sel a), keep b (snd (snd kv)) (pa_sel a)))) x)).
    { assert (LA' : forall k t o, In (k, (t, o)) x -> length t = length (pa_sel a) /\ length o = length (pa_sel a)) by (intros; now apply (LA x k)).
      clear - LA' LM. induction x as [|[k [t o]] x IH]; [easy|]. cbn [rmapM map fst snd].
      destruct (LA' k t o (or_introl eq_refl)) as (T1 & T2). unfold np_mask at 1 2. rewrite T1, T2, LM, Nat.eqb_refl. cbn [rbind].
      rewrite IH; [|intros k' t' o' I; apply (LA' k'); now right]. cbn [rbind]. unfold m. now rewrite !mselect_sub. }
    rewrite R. cbn. eauto. }
  destruct AX as (ax & -> & QX). cbn [rbind].
  destruct (bu_lum _ _ _ B) as (QL & _), (bu_dist _ _ _ B) as (QD & _), (bu_theta _ _ _ B) as (QT & _), (bu_phi _ _ _ B) as (QH & _), (bu_flux _ _ _ B) as (QF & _).
  destruct (sub_known_spec (pa_known a) (sv_obs (p_dist p)) m 0 0) as (ks & ki & ui & -> & KL & KC & _ & _ & KS).
  { rewrite QD. cbn [sv_obs]. rewrite L2. unfold m. rewrite sub_mask_len. apply Nat.le_refl. }
  cbn [rbind].
  assert (PR : exists pr, match p_prob p with None => Ok None | Some z => rmap Some (pick z) end = Ok pr /\
     option_map (@sv_obs V) pr = option_map (fun z => keep b z (pa_sel a)) (pa_prob a)).
  { assert (X := bu_prob _ _ _ B). destruct (pa_prob a) as [q|]; [|rewrite X; cbn; eauto]. destruct X as (-> & LQ).
    destruct (LB (SimVar q q (MB (pa_sel a)) DFloat)) as (s & _ & X); [easy|]. rewrite X. cbn. eexists. split; [reflexivity|]. easy. }
  destruct PR as (pr & -> & QP). cbn [rbind].
  destruct (LB (p_lum p)) as (s1 & _ & X1); [rewrite QL; easy|]. rewrite X1. cbn [rbind].
  destruct (LB (p_dist p)) as (s2 & _ & X2); [rewrite QD; easy|]. rewrite X2. cbn [rbind].
  destruct (LB (p_flux p)) as (s3 & _ & X3); [rewrite QF; easy|]. rewrite X3. cbn [rbind].
  destruct (LB (p_theta p)) as (s4 & _ & X4); [rewrite QT; easy|]. rewrite X4. cbn [rbind].
  destruct (LB (p_phi p)) as (s5 & _ & X5); [rewrite QH; easy|]. rewrite X5. cbn [rbind].
  cbn [sv_obs sv_lat]. rewrite QP.
  match goal with |- context [pop_new ?x] => set (a' := x) end.
  assert (FR' : free_names a').
  { intros x k v PX I. unfold a' in PX. cbn [pa_aux] in PX. rewrite PX in QX. destruct (pa_aux a) as [x0|] eqn:PA; [|discriminate].
    cbn in QX. injection QX as QX. rewrite QX in I. apply in_map_iff in I. destruct I as ([k0 v0] & Z & I). cbn in Z. injection Z as <- _.
    exact (FR x0 k0 v0 PA I). }
  assert (KK : forall A (l : list A), length l = length (pa_sel a) -> length (keep b l (pa_sel a)) = length (repeat true (count m))).
  { intros A l L. rewrite repeat_length. now apply keep_sub_count. }
  assert (C' : consistent a').
  { unfold consistent, aligned, distances_add_up, spaces_fit, a'. cbn [pa_lum pa_dist pa_theta pa_phi pa_fobs pa_flux pa_prob pa_aux pa_sel pa_known pa_uidx pa_spaces pa_nmodel].
    rewrite QL, QD, QT, QH, QF. cbn [sv_obs sv_lat]. split; [|split].
    - repeat (split; [now apply KK|]). split.
      + intros q Z. destruct (pa_prob a) as [q0|] eqn:PQ; [|discriminate]. cbn in Z. injection Z as <-. apply KK. now apply LP.
      + intros x k t o Z I. rewrite Z in QX. destruct (pa_aux a) as [x0|] eqn:PA; [|discriminate]. cbn in QX. injection QX as QX.
        rewrite QX in I. apply in_map_iff in I. destruct I as ([k0 [t0 o0]] & Y & I). cbn in Y. injection Y as <- <- <-.
        destruct (LA x0 k0 t0 o0 eq_refl I). split; now apply KK.
    - rewrite count_repeat. lia.
    - exact SF. }
  destruct (proj1 (new_iff_consistent a' FR') C') as (q & HQ). exists q. split; [exact HQ|].
  assert (B' := pop_new_built _ _ _ HQ). assert (QA' := bu_args _ _ _ B').
  assert (KM : length (keep b (pa_sel a) (pa_sel a)) = count m) by now apply keep_sub_count.
  split.
  - unfold sub_of. rewrite QA', (bu_args _ _ _ B). cbv zeta. rewrite KM.
    destruct (bu_counts _ _ _ B') as (N1 & N2 & N3 & _). rewrite N1, N2, N3. unfold a'. cbn [pa_sel]. rewrite repeat_length, count_repeat.
    split; [easy|]. split; [easy|]. split; [lia|]. split; [easy|].
    unfold restricted, shows. rewrite KM.
    destruct (bu_lum _ _ _ B') as (-> & _), (bu_dist _ _ _ B') as (-> & _), (bu_theta _ _ _ B') as (-> & _), (bu_phi _ _ _ B') as (-> & _), (bu_flux _ _ _ B') as (-> & _).
    unfold a'. cbn [sv_obs sv_lat sv_sel pa_lum pa_dist pa_theta pa_phi pa_fobs pa_flux pa_sel]. rewrite QL, QD, QT, QH, QF. cbn [sv_obs sv_lat].
    split; [easy|]. split; [easy|]. split; [easy|]. split; [easy|]. split; [easy|]. split.
    + assert (Y := bu_prob _ _ _ B'). unfold a' in Y. cbn [pa_prob pa_sel] in Y. assert (Y0 := bu_prob _ _ _ B).
      destruct (pa_prob a) as [q0|]; cbn [option_map] in Y.
      * destruct Y as (-> & _), Y0 as (-> & _). easy.
      * now rewrite Y, Y0.
    + split; [|repeat split].
      assert (G := new_faithful _ _ HQ). destruct G as (_ & _ & _ & _ & _ & _ & _ & G).
      assert (G0 := new_faithful _ _ H). destruct G0 as (_ & _ & _ & _ & _ & _ & _ & G0).
      unfold a' in G. cbn [pa_aux pa_sel] in G. rewrite QX in G. destruct (pa_aux a) as [x0|]; cbn [option_map] in G.
      * clear - G0 G. revert G. generalize (p_aux q). induction G0 as [|kv kx x1 x2 (Z1 & Z2 & Z3 & Z4) G0 IH]; intros l1 G; cbn [map] in G; inversion G as [|? ky ? ? (Y1 & Y2 & Y3 & Y4) G']; subst; constructor.
        { cbn [fst snd] in *. rewrite Y1, Z1, Y2, Y3, Y4, Z2, Z3. easy. }
        now apply IH.
      * inversion G0. inversion G. constructor.
  - intros k j (NB & CJ). rewrite QA', (bu_args _ _ _ B) in *. unfold a'. cbn [pa_kidx pa_uidx pa_known].
    assert (NM : nth_error m k = Some true).
    { unfold m, sub_mask. destruct b; [easy|]. unfold mnot. rewrite nth_error_map, NB. easy. }
    destruct (KS k NM) as (K1 & K2 & K3). cbn [Nat.add] in *.
    assert (CJ' : count (firstn k m) = j).
    { rewrite <- CJ. unfold m, sub_mask. destruct b.
      - f_equal. transitivity (map (fun x : bool => x) (firstn k (pa_sel a))); [now rewrite map_id|]. apply map_ext. now intros [].
      - unfold mnot. rewrite firstn_map. f_equal. }
    rewrite CJ' in *. split; [rewrite K1; apply idx_in_iff|]. split.
    + rewrite K2, <- idx_in_iff. destruct (idx_in E k (pa_known a)); split; easy.
    + intros n N. rewrite (K3 n N), QD. easy.
Qed.
End PopProofs.
