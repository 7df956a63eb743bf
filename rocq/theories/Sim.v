(** Relating the runs of two programs, for every outcome. *)
From Verif Require Import Base.
Set Implicit Arguments.

Definition sim {S S' A B : Type} (R : S -> S' -> Prop) (Q : A -> B -> Prop) (m : M S A) (m' : M S' B) : Prop :=
  forall s s', R s s' ->
    match m s, m' s' with
    | (Ok a, t), (Ok b, t') => Q a b /\ R t t'
    | (Err e, t), (Err e', t') => e = e' /\ R t t'
    | _, _ => False
    end.

Section Sim.
Variables S S' : Type.
Variable R : S -> S' -> Prop.

Lemma sim_ret A B (Q : A -> B -> Prop) a b : Q a b -> sim R Q (ret a) (ret b).
Proof. intros H s s' HR. cbn. auto. Qed.
Lemma sim_raise A B (Q : A -> B -> Prop) e : sim R Q (raise e) (raise e).
Proof. intros s s' HR. cbn. auto. Qed.
Lemma sim_lift A (r : res A) : sim R eq (lift r) (lift r).
Proof. intros s s' HR. unfold lift. destruct r; auto. Qed.
Lemma sim_lift_eq A (r r' : res A) : r = r' -> sim R eq (lift r) (lift r').
Proof. intros ->. apply sim_lift. Qed.
Lemma sim_get : sim R R get get.
Proof. intros s s' HR. cbn. auto. Qed.
Lemma sim_gets A (f : S -> A) (f' : S' -> A) : (forall s s', R s s' -> f s = f' s') -> sim R eq (gets f) (gets f').
Proof. intros H s s' HR. cbn. auto. Qed.
Lemma sim_modify f f' : (forall s s', R s s' -> R (f s) (f' s')) -> sim R eq (modify f) (modify f').
Proof. intros H s s' HR. cbn. auto. Qed.
Lemma sim_bind A A' B B' (Q : A -> A' -> Prop) (P : B -> B' -> Prop) m m' k k' :
  sim R Q m m' -> (forall a a', Q a a' -> sim R P (k a) (k' a')) -> sim R P (bind m k) (bind m' k').
Proof.
  intros H K s s' HR. specialize (H s s' HR). unfold bind.
  destruct (m s) as [[a|e] t], (m' s') as [[a'|e'] t']; try easy. destruct H as [HQ HR']. now apply K.
Qed.
Lemma sim_eq A B B' (P : B -> B' -> Prop) (m : M S A) (m' : M S' A) k k' :
  sim R eq m m' -> (forall a, sim R P (k a) (k' a)) -> sim R P (bind m k) (bind m' k').
Proof. intros H K. eapply sim_bind; [exact H|]. intros a a' <-. apply K. Qed.
Lemma sim_iter A (f : A -> M S unit) f' l : (forall a, In a l -> sim R eq (f a) (f' a)) -> sim R eq (iterM f l) (iterM f' l).
Proof.
  induction l as [|x l IH]; cbn; intros H; [now apply sim_ret|]. apply sim_eq; [apply H; now left|]. intros _. apply IH. intros a I. apply H. now right.
Qed.
Lemma sim_fold A B (f : B -> A -> M S B) f' l : (forall b a, In a l -> sim R eq (f b a) (f' b a)) -> forall b, sim R eq (foldM f b l) (foldM f' b l).
Proof.
  induction l as [|x l IH]; cbn; intros H b; [now apply sim_ret|]. apply sim_eq; [apply H; now left|]. intros c. apply IH. intros b' a I. apply H. now right.
Qed.
Lemma sim_weak A B (Q P : A -> B -> Prop) m m' : sim R Q m m' -> (forall a b, Q a b -> P a b) -> sim R P m m'.
Proof.
  intros H QP s s' HR. specialize (H s s' HR). destruct (m s) as [[a|e] t], (m' s') as [[b|e'] t']; auto. destruct H. auto.
Qed.
End Sim.
