(** Relations between the state before and after a program, for every outcome. *)
From Verif Require Import Base.
Set Implicit Arguments.

Definition keeps {S A : Type} (R : S -> S -> Prop) (m : M S A) : Prop := forall s, R s (snd (m s)).

Section Keeps.
Variable S : Type.
Variable R : S -> S -> Prop.
Hypothesis refl : forall s, R s s.
Hypothesis trans : forall a b c, R a b -> R b c -> R a c.

Lemma keeps_ret A (a : A) : keeps R (ret a). Proof. intros s. apply refl. Qed.
Lemma keeps_raise A e : keeps R (@raise S A e). Proof. intros s. apply refl. Qed.
Lemma keeps_lift A (r : res A) : keeps R (lift r). Proof. intros s. apply refl. Qed.
Lemma keeps_get : keeps R (@get S). Proof. intros s. apply refl. Qed.
Lemma keeps_gets A (f : S -> A) : keeps R (gets f). Proof. intros s. apply refl. Qed.
Lemma keeps_modify f : (forall s, R s (f s)) -> keeps R (modify f). Proof. intros H s. apply H. Qed.
Lemma keeps_bind A B (m : M S A) (k : A -> M S B) :
  keeps R m -> (forall a, keeps R (k a)) -> keeps R (bind m k).
Proof.
  intros H K s. unfold bind. specialize (H s). destruct (m s) as [[a|e] s1]; [|exact H].
  apply trans with s1; [exact H|apply K].
Qed.
(** The continuation may use how its argument was obtained. *)
Lemma keeps_bind_ok A B (m : M S A) (k : A -> M S B) :
  keeps R m -> (forall a s s1, m s = (Ok a, s1) -> R s1 (snd (k a s1))) -> keeps R (bind m k).
Proof.
  intros H K s. unfold bind. specialize (H s). destruct (m s) as [[a|e] s1] eqn:X; [|exact H].
  apply trans with s1; [exact H|eapply K; eauto].
Qed.
Lemma keeps_iter A (f : A -> M S unit) l : (forall a, keeps R (f a)) -> keeps R (iterM f l).
Proof.
  intros H. induction l as [|x l IH]; cbn; [apply keeps_ret|]. apply keeps_bind; [apply H|auto].
Qed.
Lemma keeps_map A B (f : A -> M S B) l : (forall a, keeps R (f a)) -> keeps R (mapM f l).
Proof.
  intros H. induction l as [|x l IH]; cbn; [apply keeps_ret|]. apply keeps_bind; [apply H|intros b].
  apply keeps_bind; [apply IH|intros; apply keeps_ret].
Qed.
Lemma keeps_fold A B (f : B -> A -> M S B) l : (forall b a, keeps R (f b a)) -> forall b, keeps R (foldM f b l).
Proof.
  intros H. induction l as [|x l IH]; cbn; intros b; [apply keeps_ret|]. apply keeps_bind; [apply H|auto].
Qed.
Lemma keeps_repeat A (f : M S A) n : keeps R f -> keeps R (repeatM f n).
Proof.
  intros H. induction n as [|n IH]; cbn; [apply keeps_ret|]. apply keeps_bind; [apply H|intros b].
  apply keeps_bind; [apply IH|intros; apply keeps_ret].
Qed.
End Keeps.

Ltac kp := repeat first
  [ assumption
  | apply keeps_ret; assumption | apply keeps_raise; assumption | apply keeps_lift; assumption
  | apply keeps_get; assumption | apply keeps_gets; assumption
  | apply keeps_iter; [assumption|assumption|intros ?]
  | apply keeps_map; [assumption|assumption|intros ?]
  | apply keeps_fold; [assumption|assumption|intros ? ?]
  | apply keeps_repeat; [assumption|assumption|]
  | apply keeps_bind; [assumption| |intros ?] ].
