(** Which positions a slice takes. *)
From Verif Require Import Base BaseFacts SelSpec SimVarModel SimVarSpec.

Lemma clip_bound n i : clip n i = slice_bound n i.
Proof.
  unfold clip, slice_bound. destruct (i <? 0)%Z eqn:I;
  repeat match goal with |- context [(?a <? ?b)%Z] => destruct (Z.ltb_spec a b) end; lia.
Qed.

Lemma slice_positions_spec n a b step i :
  In i (slice_positions n a b step) <->
  (slice_from n a <= Z.of_nat i < slice_to n b)%Z /\
  exists k, (0 <= k)%Z /\ (Z.of_nat i = slice_from n a + k * Z.pos step)%Z.
Proof.
  unfold slice_positions.
  replace (match a with Some j => clip n j | None => 0%Z end) with (slice_from n a)
    by (destruct a; cbn; [now rewrite clip_bound|easy]).
  replace (match b with Some j => clip n j | None => Z.of_nat n end) with (slice_to n b)
    by (destruct b; cbn; [now rewrite clip_bound|easy]).
  rewrite filter_In, in_seq, !andb_true_iff, Z.leb_le, Z.ltb_lt, Z.eqb_eq.
  assert (HB : (slice_to n b <= Z.of_nat n)%Z).
  { destruct b; cbn; [unfold slice_bound|]; lia. }
  split.
  - intros (_ & (H1 & H2) & H3). split; [lia|].
    exists ((Z.of_nat i - slice_from n a) / Z.pos step)%Z. split; [apply Z.div_pos; lia|].
    pose proof (Z.div_mod (Z.of_nat i - slice_from n a) (Z.pos step)). lia.
  - intros ((H1 & H2) & k & K & H). split; [lia|]. split; [lia|].
    replace (Z.of_nat i - slice_from n a)%Z with (k * Z.pos step)%Z by lia. apply Z.mod_mul. lia.
Qed.

Lemma filter_sorted (f : nat -> bool) l : StronglySorted lt l -> StronglySorted lt (filter f l).
Proof.
  induction 1 as [|x l S IH F]; cbn; [constructor|]. destruct (f x); [|exact IH].
  constructor; [exact IH|]. rewrite Forall_forall in *. intros y I. apply filter_In in I. now apply F.
Qed.
Lemma seq_sorted a n : StronglySorted lt (seq a n).
Proof.
  revert a. induction n as [|n IH]; intros a; cbn; constructor; [apply IH|].
  rewrite Forall_forall. intros y I. apply in_seq in I. lia.
Qed.
Lemma slice_positions_sorted n a b step : StronglySorted lt (slice_positions n a b step).
Proof. apply filter_sorted, seq_sorted. Qed.
