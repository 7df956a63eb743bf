(** Facts about dictionaries, heaps and masks. *)
From Verif Require Import Base.
Set Implicit Arguments.

Section Dict.
Variable A : Type.
Implicit Types d : dict A.

Lemma dget_dset_eq d k v : dget (dset d k v) k = Some v.
Proof.
  induction d as [|[k' v'] r IH]; cbn [dset dget].
  - now rewrite String.eqb_refl.
  - destruct (String.eqb k k') eqn:E; cbn [dget]; now rewrite E.
Qed.

Lemma dget_dset_neq d k k2 v : k2 <> k -> dget (dset d k v) k2 = dget d k2.
Proof.
  intros N. induction d as [|[k' v'] r IH]; cbn [dset dget].
  - destruct (String.eqb_spec k2 k); congruence.
  - destruct (String.eqb_spec k k') as [->|]; cbn [dget].
    + destruct (String.eqb_spec k2 k'); congruence.
    + now rewrite IH.
Qed.

Lemma dget_dset d k k2 v :
  dget (dset d k v) k2 = if String.eqb k2 k then Some v else dget d k2.
Proof.
  destruct (String.eqb_spec k2 k) as [->|N].
  - apply dget_dset_eq.
  - now apply dget_dset_neq.
Qed.

Lemma dget_In d k v : dget d k = Some v -> In (k, v) d.
Proof.
  induction d as [|[k' v'] r IH]; cbn [dget]; [easy|].
  destruct (String.eqb_spec k k') as [->|]; intros H.
  - injection H as ->. now left.
  - right. auto.
Qed.

Lemma In_dget d k v : NoDup (dkeys d) -> In (k, v) d -> dget d k = Some v.
Proof.
  induction d as [|[k' v'] r IH]; cbn [dget dkeys map fst]; [easy|].
  intros ND [E|I].
  - injection E as -> ->. now rewrite String.eqb_refl.
  - inversion ND as [|? ? N1 N2]; subst.
    destruct (String.eqb_spec k k') as [->|]; [|auto].
    exfalso. apply N1. change k' with (fst (k', v)). now apply in_map.
Qed.

Lemma dget_None d k : dget d k = None <-> ~ In k (dkeys d).
Proof.
  induction d as [|[k' v'] r IH]; cbn [dget dkeys map fst In]; [tauto|].
  destruct (String.eqb_spec k k') as [->|N].
  - split; [easy|]. intros H. exfalso. auto.
  - fold (dkeys r). rewrite IH. split; [intros H [E|I]; [now symmetry in E|auto]|auto].
Qed.

Lemma dget_Some_In_keys d k : (exists v, dget d k = Some v) <-> In k (dkeys d).
Proof.
  destruct (dget d k) as [v|] eqn:E.
  - split; [intros _|eauto]. apply dget_In in E.
    change k with (fst (k, v)). now apply in_map.
  - apply dget_None in E. split; [intros [v H]; discriminate|tauto].
Qed.

Lemma dkeys_dset d k v :
  dkeys (dset d k v) = if dmem d k then dkeys d else dkeys d ++ [k].
Proof.
  unfold dmem. induction d as [|[k' v'] r IH]; cbn [dset dget dkeys map fst app]; [easy|].
  destruct (String.eqb_spec k k') as [->|N]; cbn [map fst]; [easy|].
  fold (dkeys r). unfold dkeys in IH. rewrite IH.
  destruct (dget r k); reflexivity.
Qed.

Lemma In_dkeys_dset d k v k2 : In k2 (dkeys (dset d k v)) <-> k2 = k \/ In k2 (dkeys d).
Proof.
  rewrite <- !dget_Some_In_keys.
  destruct (String.eqb_spec k2 k) as [->|N].
  - rewrite dget_dset_eq. split; [auto|eauto].
  - rewrite dget_dset_neq by easy. split; [auto|]. now intros [E|H].
Qed.

Lemma NoDup_dset d k v : NoDup (dkeys d) -> NoDup (dkeys (dset d k v)).
Proof.
  intros ND. rewrite dkeys_dset. unfold dmem.
  destruct (dget d k) eqn:E; [easy|]. apply dget_None in E.
  apply NoDup_rev in ND. rewrite <- (rev_involutive (dkeys d ++ [k])).
  apply NoDup_rev. rewrite rev_app_distr. cbn. constructor; [|easy].
  now rewrite <- in_rev.
Qed.

Lemma dset_fresh d k v : dget d k = None -> dset d k v = d ++ [(k, v)].
Proof.
  induction d as [|[k' v'] r IH]; cbn [dset dget app]; [easy|].
  destruct (String.eqb k k'); [easy|]. intros H. now rewrite IH.
Qed.

Lemma dset_id d k v : dget d k = Some v -> dset d k v = d.
Proof.
  induction d as [|[k' v'] r IH]; cbn [dset dget]; [easy|].
  destruct (String.eqb k k') eqn:E; intros H.
  - now injection H as ->.
  - now rewrite IH.
Qed.

Lemma dset_dset d k v w : dset (dset d k v) k w = dset d k w.
Proof.
  induction d as [|[k' v'] r IH]; cbn [dset].
  - now rewrite String.eqb_refl.
  - destruct (String.eqb k k') eqn:E; cbn [dset]; rewrite E; [easy|]. now rewrite IH.
Qed.

Lemma dget_app d e k :
  dget (d ++ e) k = match dget d k with Some v => Some v | None => dget e k end.
Proof.
  induction d as [|[k' v'] r IH]; cbn [dget app]; [easy|].
  destruct (String.eqb k k'); easy.
Qed.

Lemma dget_dupdate d e k : NoDup (dkeys e) ->
  dget (dupdate d e) k = match dget e k with Some v => Some v | None => dget d k end.
Proof.
  unfold dupdate. revert d. induction e as [|[k' v'] r IH]; intros d ND; cbn [fold_left dget fst snd]; [easy|].
  cbn [dkeys map fst] in ND. inversion ND as [|? ? N1 N2]; subst.
  rewrite IH by easy. rewrite dget_dset.
  destruct (String.eqb_spec k k') as [->|N]; [|easy].
  assert (dget r k' = None) as -> by now apply dget_None. easy.
Qed.

End Dict.

Section Heap.
Variable A : Type.
Implicit Types l : list A.

Lemma lset_length l i a : length (lset l i a) = length l.
Proof. revert i; induction l as [|x r IH]; intros [|i]; cbn; auto. Qed.

Lemma nth_lset l i j a :
  nth_error (lset l i a) j =
  if Nat.eqb i j then (match nth_error l j with Some _ => Some a | None => None end)
  else nth_error l j.
Proof.
  revert i j; induction l as [|x r IH]; intros i j.
  - destruct i, j; cbn; try easy; destruct (Nat.eqb i j); easy.
  - destruct i as [|i], j as [|j]; cbn; try easy; apply IH.
Qed.

Lemma nth_lset_eq l i a : i < length l -> nth_error (lset l i a) i = Some a.
Proof.
  intros H. rewrite nth_lset, Nat.eqb_refl.
  apply nth_error_Some in H. now destruct (nth_error l i).
Qed.

Lemma nth_lset_neq l i j a : i <> j -> nth_error (lset l i a) j = nth_error l j.
Proof. intros N. rewrite nth_lset. now destruct (Nat.eqb_spec i j). Qed.

Lemma lset_id l i a : nth_error l i = Some a -> lset l i a = l.
Proof.
  revert i; induction l as [|x r IH]; intros [|i]; cbn; intros H; try easy.
  - congruence.
  - now rewrite IH.
Qed.

Lemma list_ext l1 l2 : (forall i, nth_error l1 i = nth_error l2 i) -> l1 = l2.
Proof.
  revert l2. induction l1 as [|x r IH]; intros [|y q] H.
  - easy.
  - specialize (H 0). discriminate.
  - specialize (H 0). discriminate.
  - f_equal.
    + specialize (H 0). cbn in H. congruence.
    + apply IH. intros i. apply (H (S i)).
Qed.

Lemma nth_error_repeat (a : A) n i : nth_error (repeat a n) i = if i <? n then Some a else None.
Proof.
  revert i; induction n as [|n IH]; intros [|i]; cbn; try easy.
  rewrite IH. easy.
Qed.
End Heap.

Section Masks.

Lemma nth_error_mnot m i : nth_error (mnot m) i = option_map negb (nth_error m i).
Proof. unfold mnot. apply nth_error_map. Qed.

Lemma count_mnot m : count m + count (mnot m) = length m.
Proof. unfold mnot. induction m as [|[|] r IH]; cbn in *; lia. Qed.

Lemma count_le_length m : count m <= length m.
Proof. induction m as [|[|] r IH]; cbn; lia. Qed.

Lemma mselect_length A (l : list A) m : length l = length m -> length (mselect l m) = count m.
Proof.
  revert m; induction l as [|x r IH]; intros [|b m]; cbn; try easy.
  intros H. destruct b; cbn; rewrite IH; lia.
Qed.

Lemma mselect_map A B (f : A -> B) l m : mselect (map f l) m = map f (mselect l m).
Proof.
  revert m; induction l as [|x r IH]; intros [|b m]; cbn; try easy.
  destruct b; cbn; now rewrite IH.
Qed.

Lemma mselect_combine A B (l : list A) (k : list B) m :
  length l = length m -> length k = length m ->
  mselect (combine l k) m = combine (mselect l m) (mselect k m).
Proof.
  revert k m; induction l as [|x r IH]; intros [|y k] [|b m]; cbn; try easy.
  intros H1 H2. destruct b; cbn; rewrite IH; auto; lia.
Qed.

Lemma where_from_shift i m : where_from i m = map (Nat.add i) (np_where m).
Proof.
  unfold np_where. revert i. induction m as [|b r IH]; intros i; cbn [where_from map]; [easy|].
  rewrite (IH (S i)), (IH 1).
  destruct b; cbn [map]; rewrite ?map_map.
  - f_equal; [lia|]. apply map_ext. intros; lia.
  - apply map_ext. intros; lia.
Qed.

Lemma In_where_from i m j : In j (where_from i m) <-> i <= j /\ nth_error m (j - i) = Some true.
Proof.
  revert i. induction m as [|b r IH]; intros i; cbn [where_from].
  - split; [easy|]. intros [_ H]. destruct (j - i); discriminate.
  - assert (K : i <= j /\ nth_error (b :: r) (j - i) = Some true <->
                (j = i /\ b = true) \/ (S i <= j /\ nth_error r (j - S i) = Some true)).
    { split.
      - intros [L H]. destruct (Nat.eq_dec j i) as [->|N].
        + left. rewrite Nat.sub_diag in H. cbn in H. split; congruence.
        + right. split; [lia|]. replace (j - i) with (S (j - S i)) in H by lia. easy.
      - intros [[-> ->]|[L H]].
        + split; [lia|]. now rewrite Nat.sub_diag.
        + split; [lia|]. replace (j - i) with (S (j - S i)) by lia. easy. }
    rewrite K. destruct b; cbn [In]; rewrite IH; intuition (try congruence).
Qed.

Lemma In_np_where m j : In j (np_where m) <-> nth_error m j = Some true.
Proof.
  unfold np_where. rewrite In_where_from, Nat.sub_0_r. intuition lia.
Qed.

Lemma where_from_length i m : length (where_from i m) = count m.
Proof. revert i; induction m as [|[|] r IH]; intros i; cbn; auto. Qed.

Lemma np_where_length m : length (np_where m) = count m.
Proof. apply where_from_length. Qed.

Lemma combine_length_eq A B (l : list A) (k : list B) :
  length l = length k -> length (combine l k) = length l.
Proof. intros H. rewrite combine_length. lia. Qed.

Lemma nth_error_combine A B (l : list A) (k : list B) i :
  nth_error (combine l k) i =
  match nth_error l i, nth_error k i with Some a, Some b => Some (a, b) | _, _ => None end.
Proof.
  revert k i; induction l as [|x r IH]; intros [|y k] [|i]; cbn; try easy.
  - now destruct (nth_error r i).
Qed.

Lemma bcast2_same A B C (f : A -> B -> C) a b : length a = length b ->
  bcast2 f a b = Ok (map (fun p => f (fst p) (snd p)) (combine a b)).
Proof. intros H. unfold bcast2. now rewrite (proj2 (Nat.eqb_eq _ _) H). Qed.

Lemma nth_map_combine A B C (f : A -> B -> C) a b i :
  nth_error (map (fun p => f (fst p) (snd p)) (combine a b)) i =
  match nth_error a i, nth_error b i with Some x, Some y => Some (f x y) | _, _ => None end.
Proof.
  rewrite nth_error_map, nth_error_combine.
  now destruct (nth_error a i), (nth_error b i).
Qed.

Lemma rmapM_length A B (f : A -> res B) l r : rmapM f l = Ok r -> length r = length l.
Proof.
  revert r; induction l as [|x l IH]; cbn; intros r H; [now injection H as <-|].
  destruct (f x); [|discriminate]. cbn in H.
  destruct (rmapM f l); [|discriminate]. cbn in H. injection H as <-.
  cbn. now rewrite (IH _ eq_refl).
Qed.

Lemma rmapM_nth A B (f : A -> res B) l r i : rmapM f l = Ok r ->
  match nth_error l i with
  | Some x => exists y, f x = Ok y /\ nth_error r i = Some y
  | None => nth_error r i = None
  end.
Proof.
  revert r i; induction l as [|x l IH]; cbn; intros r i H.
  - injection H as <-. destruct i; easy.
  - destruct (f x) eqn:E; [|discriminate]. cbn in H.
    destruct (rmapM f l); [|discriminate]. cbn in H. injection H as <-.
    destruct i; cbn; [eauto|]. apply IH. easy.
Qed.
End Masks.

Section Monad.
Variables S A B : Type.
Lemma bind_ok (m : M S A) (k : A -> M S B) s a s1 : m s = (Ok a, s1) -> bind m k s = k a s1.
Proof. intros H. unfold bind. now rewrite H. Qed.
Lemma bind_err (m : M S A) (k : A -> M S B) s e s1 : m s = (Err e, s1) -> bind m k s = (Err e, s1).
Proof. intros H. unfold bind. now rewrite H. Qed.
Lemma bind_inv_ok (m : M S A) (k : A -> M S B) s b s2 :
  bind m k s = (Ok b, s2) -> exists a s1, m s = (Ok a, s1) /\ k a s1 = (Ok b, s2).
Proof. unfold bind. destruct (m s) as [[a|e] s1]; [eauto|discriminate]. Qed.
End Monad.

Lemma Forall2_impl A B (P Q : A -> B -> Prop) (l1 : list A) (l2 : list B) :
  (forall a b, P a b -> Q a b) -> Forall2 P l1 l2 -> Forall2 Q l1 l2.
Proof. intros H F. induction F; constructor; auto. Qed.
