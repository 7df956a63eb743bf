(** Proofs for C59. *)
From Verif Require Import Base BaseFacts CfgModel CfgSpec.
Section Proofs.
Variable V : Type.
Notation cfg := (cfg V).
Notation yaml := (yaml V).
Variable as_bool : yaml -> option bool.
Variable as_num : yaml -> option V.
Variable as_str : yaml -> option string.
Notation merge := (merge V as_bool as_num as_str).
Notation is_value := (is_value V as_bool as_num as_str).

Fixpoint merges (e : list (string * yaml)) (d : list (string * cfg)) : res (list (string * cfg)) :=
  match e with
  | nil => Ok d
  | (k, u) :: r => match dget d k with
                   | None => Err KeyError
                   | Some c => match merge c u with Ok c' => merges r (dset d k c') | Err x => Err x end
                   end
  end.
Lemma merge_map d e : merge (CGroup V d) (YMap V e) = rmap (CGroup V) (merges e d).
Proof.
  transitivity (rmap (CGroup V) ((fix go e d := match e with
                                              | nil => Ok d
                                              | (k, u') :: r => let? d' := merge1 V (fun c x => merge c u') k u' d in go r d'
                                              end) e d)); [reflexivity|].
  f_equal. revert d. induction e as [|[k u] r IH]; intros d; [reflexivity|]. cbn [merges].
  unfold merge1 at 1. destruct (dget d k) as [c|]; [|reflexivity]. cbn [of_opt rbind]. destruct (merge c u); [|reflexivity]. cbn [rbind]. apply IH.
Qed.

Lemma yaml_ind' (P : yaml -> Prop) : P YNull -> (forall b, P (YBool b)) -> (forall v, P (YNum V v)) -> (forall s, P (YStr s)) ->
  (forall l, P (YList V l)) -> (forall d, (forall k u, In (k, u) d -> P u) -> P (YMap V d)) -> forall u, P u.
Proof.
  intros A B C D F G. fix IH 1. intros [|b|v|s|l|d]; [exact A|exact (B b)|exact (C v)|exact (D s)|exact (F l)|].
  apply G. induction d as [|[k u] r IHd]; intros k' u'; [intros []|]. intros [I|I]; [injection I as <- <-; apply IH|exact (IHd k' u' I)].
Qed.

(** A merged group: each key has its merged value or its old one. *)
Lemma merges_get e : forall d d', NoDup (dkeys e) -> merges e d = Ok d' ->
  dkeys d' = dkeys d /\ forall k, match dget e k with
    | None => dget d' k = dget d k
    | Some u => exists c c', dget d k = Some c /\ merge c u = Ok c' /\ dget d' k = Some c'
    end.
Proof.
  induction e as [|[k u] r IH]; intros d d' N H.
  - injection H as <-. split; [reflexivity|]. intros k. reflexivity.
  - cbn [merges] in H. destruct (dget d k) as [c|] eqn:Q; [|discriminate]. destruct (merge c u) as [c'|] eqn:M; [|discriminate].
    inversion N as [|? ? NI N']; subst. destruct (IH _ _ N' H) as (K & G). split.
    + rewrite K, dkeys_dset. assert (X : dmem d k = true) by (unfold dmem; now rewrite Q). now rewrite X.
    + intros k'. cbn [dget]. specialize (G k'). destruct (String.eqb k' k) eqn:EQ.
      * apply String.eqb_eq in EQ. subst k'. assert (X : dget r k = None) by (now apply dget_None). rewrite X, dget_dset_eq in G. eauto.
      * apply String.eqb_neq in EQ. rewrite dget_dset_neq in G by congruence. exact G.
Qed.

Lemma leaf_value c u c' : merge c u = Ok c' -> leaf V c -> is_value c u c'.
Proof.
  intros H L. destruct c as [b|v|s|d]; [| | |destruct (L d eq_refl)]; destruct u; cbn in H; try discriminate H;
  match type of H with match ?x with _ => _ end = _ => destruct x eqn:Q; [injection H as <-; exact (conj I Q)|discriminate H] end.
Qed.
Lemma value_leaf c u c' : is_value c u c' -> merge c u = Ok c' /\ leaf V c.
Proof.
  unfold CfgSpec.is_value, scalar. destruct c as [b|v|s|d], c' as [b'|v'|s'|d']; intros (S & H); try contradiction; (split; [|discriminate]);
  destruct u; try contradiction; cbn; rewrite H; reflexivity.
Qed.
Lemma group_inv d u c' : merge (CGroup V d) u = Ok c' -> exists e d', u = YMap V e /\ merges e d = Ok d' /\ c' = CGroup V d'.
Proof.
  intros H. destruct u as [|b|v|s|l|e]; try discriminate H. rewrite merge_map in H.
  destruct (merges e d) as [d'|] eqn:Q; [|discriminate H]. injection H as <-. eauto.
Qed.

(** A file that is a single value. *)
Lemma leaf_get u c c' : (forall e, u <> YMap V e) -> merge c u = Ok c' -> forall p,
  (setting V c' p = None <-> setting V c p = None) /\
  forall l, setting V c p = Some l -> leaf V l ->
  match named V u p with
  | Some x => exists l', setting V c' p = Some l' /\ is_value l x l'
  | None => setting V c' p = Some l
  end.
Proof.
  intros NU H p. assert (LC : leaf V c). { intros d ->. destruct (group_inv _ _ _ H) as (e & _ & Q & _). now destruct (NU e). }
  assert (VA := leaf_value _ _ _ H LC). destruct p as [|k r].
  - cbn. split; [split; discriminate|]. intros l G _. injection G as <-. eauto.
  - assert (A : setting V c (k :: r) = None) by (destruct c; try reflexivity; now destruct (LC d)).
    assert (B : setting V c' (k :: r) = None).
    { destruct VA as (_ & VA). destruct c as [b0|v0|s0|d0], c'; try reflexivity; try contradiction. }
    rewrite A, B. split; [reflexivity|discriminate].
Qed.

(** The merged configuration at every path. *)
Lemma merge_get u : proper V u -> forall c c', merge c u = Ok c' -> forall p,
  (setting V c' p = None <-> setting V c p = None) /\
  forall l, setting V c p = Some l -> leaf V l ->
  match named V u p with
  | Some x => exists l', setting V c' p = Some l' /\ is_value l x l'
  | None => setting V c' p = Some l
  end.
Proof.
  induction u as [|b|v|s|l0|e IH] using yaml_ind'; intros PR c c' H p; [apply leaf_get, H; discriminate..|].
  inversion PR as [| | | | |? N PRs]; subst.
  destruct c as [b0|v0|s0|d]; [discriminate H|discriminate H|discriminate H|].
  destruct (group_inv _ _ _ H) as (e0 & d' & Q & M & ->). injection Q as <-.
  destruct (merges_get e d d' N M) as (K & G). destruct p as [|k r].
  - cbn. split; [split; discriminate|]. intros l L1 L. injection L1 as <-. now destruct (L d).
  - cbn. specialize (G k). destruct (dget e k) as [u|] eqn:EU.
    + destruct G as (c0 & c1 & C0 & C1 & C2). rewrite C0, C2. apply (IH k u); [now apply dget_In|apply (PRs k), dget_In, EU|exact C1].
    + rewrite G. destruct (dget d k) as [c0|]; [|split; [reflexivity|discriminate]]. split; [reflexivity|].
      intros l L1 _. exact L1.
Qed.

(** It succeeds exactly if the file names keys and types that are there. *)
Lemma merge_known u : proper V u -> forall c c', merge c u = Ok c' -> acceptable V as_bool as_num as_str c u.
Proof.
  induction u as [|b|v|s|l0|e IH] using yaml_ind'; intros PR c c' H p x NM.
  1-5: (destruct p as [|k r]; cbn in NM; [injection NM as <-; exists c; split; [reflexivity|]; right; exists c'; apply leaf_value; [exact H|
        intros d ->; now destruct (group_inv _ _ _ H) as (? & ? & Q & _)]|discriminate NM]).
  destruct c as [b0|v0|s0|d]; [discriminate H|discriminate H|discriminate H|].
  destruct p as [|k r]; cbn in NM; [injection NM as <-; exists (CGroup V d); split; [reflexivity|]; left; eauto|].
  inversion PR as [| | | | |? N PRs]; subst. destruct (dget e k) as [u|] eqn:EU; [|discriminate].
  destruct (group_inv _ _ _ H) as (e0 & d' & Q & M & ->). injection Q as <-.
  destruct (merges_get e d d' N M) as (K & G). specialize (G k). rewrite EU in G. destruct G as (c0 & c1 & C0 & C1 & C2).
  cbn. rewrite C0. apply (IH k u) with (c' := c1); [now apply dget_In|apply (PRs k), dget_In, EU|exact C1|exact NM].
Qed.
Lemma merges_ok e : forall d, NoDup (dkeys e) -> (forall k u, In (k, u) e -> exists c c', dget d k = Some c /\ merge c u = Ok c') ->
  exists d', merges e d = Ok d'.
Proof.
  induction e as [|[k u] r IH]; intros d N H; [exists d; reflexivity|]. cbn [merges]. inversion N as [|? ? NI N']; subst.
  destruct (H k u (or_introl eq_refl)) as (c & c' & A & B). rewrite A, B. apply IH; [exact N'|].
  intros k' u' I. rewrite dget_dset_neq; [apply H; now right|]. intros ->. apply NI. apply (in_map fst) in I. exact I.
Qed.
Lemma merge_accepts u : proper V u -> forall c, acceptable V as_bool as_num as_str c u -> exists c', merge c u = Ok c'.
Proof.
  induction u as [|b|v|s|l0|e IH] using yaml_ind'; intros PR c A.
  1-5: (destruct (A nil _ eq_refl) as (c0 & G & [(d & x & Q & _)|(c1 & VA)]); [discriminate Q|]; cbn in G; injection G as <-;
    exists c1; apply value_leaf, VA).
  inversion PR as [| | | | |? N PRs]; subst.
  destruct (A nil _ eq_refl) as (c0 & G & [(d & x & Q & ->)|(c1 & VA)]); [|now destruct VA as ([] & _)].
  cbn in G. injection G as ->. rewrite merge_map.
  assert (X : exists d', merges e x = Ok d'); [|destruct X as (d' & ->); cbn; eauto].
  apply merges_ok; [exact N|]. intros k u I. assert (EU : dget e k = Some u) by (apply In_dget; assumption).
  destruct (A [k] u) as (c0 & G & _); [cbn; rewrite EU; reflexivity|]. cbn in G. destruct (dget x k) as [c1|] eqn:C; [|discriminate].
  destruct (IH k u I (PRs k u I) c1) as (c' & M); [|exists c1, c'; split; [reflexivity|exact M]].
  intros p y NM. destruct (A (k :: p) y) as (c2 & G2 & R); [cbn; rewrite EU; exact NM|]. cbn in G2. rewrite C in G2. eauto.
Qed.

(** Defaults written out and read again. *)
Lemma to_yaml_group d : to_yaml V (CGroup V d) = YMap V (map (fun kc => (fst kc, to_yaml V (snd kc))) d).
Proof.
  transitivity (YMap V ((fix go d := match d with nil => nil | (k, c') :: r => (k, to_yaml V c') :: go r end) d)); [reflexivity|].
  f_equal. induction d as [|[k c] r IH]; [reflexivity|]. cbn [map fst snd]. now rewrite <- IH.
Qed.
Lemma cfg_ind' (P : cfg -> Prop) : (forall b, P (CBool b)) -> (forall v, P (CNum V v)) -> (forall s, P (CStr s)) ->
  (forall d, (forall k c, In (k, c) d -> P c) -> P (CGroup V d)) -> forall c, P c.
Proof.
  intros B C D G. fix IH 1. intros [b|v|s|d]; [exact (B b)|exact (C v)|exact (D s)|].
  apply G. induction d as [|[k u] r IHd]; intros k' u'; [intros []|]. intros [I|I]; [injection I as <- <-; apply IH|exact (IHd k' u' I)].
Qed.
Lemma again c : lawful V as_bool as_num as_str -> proper_cfg V c -> merge c (to_yaml V c) = Ok c.
Proof.
  intros L. induction c as [b|v|s|d IH] using cfg_ind'; intros PC.
  - cbn. now rewrite (law_bool _ _ _ _ L).
  - cbn. now rewrite (law_num _ _ _ _ L).
  - cbn. now rewrite (law_str _ _ _ _ L).
  - inversion PC as [| | |? N PCs]; subst. rewrite to_yaml_group, merge_map.
    enough (X : forall l, (forall k c, In (k, c) l -> dget d k = Some c /\ merge c (to_yaml V c) = Ok c) -> merges (map (fun kc => (fst kc, to_yaml V (snd kc))) l) d = Ok d).
    { rewrite X; [reflexivity|]. intros k c I. split; [now apply In_dget|]. apply (IH k c I), (PCs k c I). }
    induction l as [|[k c] r IHl]; intros H; [reflexivity|]. cbn [map merges fst snd].
    destruct (H k c (or_introl eq_refl)) as (A & B). rewrite A, B, dset_id by exact A. apply IHl. intros k' c' I. apply H. now right.
Qed.
End Proofs.
