(** Proofs about histograms of distances (C87). *)
From Coq Require Import Reals List Arith Lia Lra Bool.
From Verif Require Import Base BaseFacts Env SimVarModel SimVarSpec PopModel SynthModel PlotModel PlotSpec HistModel LibModel RealModel HistSpec.
From Verif Require RealSize PlotProofs PopProofs.
Import ListNotations.
Open Scope nat_scope.

(** ** Lists *)
Lemma diff_map (c : nat -> nat) n : forall a, diff (map c (seq a (S n))) = map (fun k => c (S k) - c k) (seq a n).
Proof.
  induction n as [|n IH]; intros a; [reflexivity|]. specialize (IH (S a)).
  cbn [seq map] in *. cbn [diff]. f_equal. exact IH.
Qed.
Lemma sum_diff (c : nat -> nat) n : (forall k, c k <= c (S k)) -> forall a, list_sum (map (fun k => c (S k) - c k) (seq a n)) = c (a + n) - c a.
Proof.
  intros M. assert (G : forall a n, c a <= c (a + n)).
  { intros a k. induction k as [|k IH]; [now rewrite Nat.add_0_r|]. rewrite Nat.add_succ_r. specialize (M (a + k)). lia. }
  induction n as [|n IH]; intros a; cbn [seq map]; [rewrite Nat.add_0_r; cbn; lia|]. change (list_sum (?x :: ?l)) with (x + list_sum l). rewrite IH.
  rewrite Nat.add_succ_r. specialize (G (S a) n). specialize (M a). cbn [plus] in *. lia.
Qed.
Lemma filter_minus {A} (p q : A -> bool) l : (forall x, q x = true -> p x = true) ->
  length (filter p l) - length (filter q l) = length (filter (fun x => p x && negb (q x)) l) /\ length (filter q l) <= length (filter p l).
Proof.
  intros H. induction l as [|x l [IH1 IH2]]; [split; reflexivity|]. cbn [filter]. specialize (H x). destruct (q x), (p x); cbn [negb andb length]; split; lia || discriminate (H eq_refl).
Qed.
Lemma filter_all {A} (p : A -> bool) l : (forall x, In x l -> p x = true) -> length (filter p l) = length l.
Proof. induction l as [|x l IH]; intros H; [reflexivity|]. cbn [filter]. rewrite (H x (or_introl eq_refl)). cbn. rewrite IH; [reflexivity|]. intros z Z. apply H. now right. Qed.
Lemma filter_none {A} (p : A -> bool) l : (forall x, In x l -> p x = false) -> length (filter p l) = 0.
Proof. induction l as [|x l IH]; intros H; [reflexivity|]. cbn [filter]. rewrite (H x (or_introl eq_refl)). apply IH. intros z Z. apply H. now right. Qed.
Lemma keep_filter {A} (p : A -> bool) b l m : length (filter p (keep b l m)) <= length (filter p l).
Proof.
  revert m. induction l as [|x l IH]; intros [|c m]; [reflexivity|reflexivity|apply Nat.le_0_l|]. specialize (IH m).
  change (keep b (x :: l) (c :: m)) with (map fst (if Bool.eqb c b then (x, c) :: filter (fun p => Bool.eqb (snd p) b) (combine l m) else filter (fun p => Bool.eqb (snd p) b) (combine l m))).
  destruct (Bool.eqb c b); cbn [map fst filter]; fold (keep b l m); destruct (p x); cbn [length]; unfold keep in *; lia.
Qed.

Section P.
Variable m : machine.
Notation E := (real_env m).
Open Scope R_scope.
Open Scope list_scope.
Variables (n : nat) (top : R).
Hypothesis N : (0 < n)%nat.
Hypothesis T : 0 < top.
Let e (k : nat) : R := INR k * (top / INR n).
Lemma inr_pos : 0 < INR n. Proof. now apply lt_0_INR. Qed.
Lemma width : 0 < top / INR n. Proof. apply Rdiv_lt_0_compat; [exact T|exact inr_pos]. Qed.
Lemma e_step k : e k < e (S k). Proof. unfold e. rewrite S_INR. assert (W := width). lra. Qed.
Lemma e_n : e n = top. Proof. unfold e. field. assert (W := inr_pos). lra. Qed.
Lemma e_0 : e 0%nat = 0. Proof. unfold e. cbn. ring. Qed.
Lemma edges : (@linspace E 0 top (S n) : list R) = map e (seq 0 (S n)).
Proof.
  assert (L : (@linspace E 0 top (S n) : list R) = map (fun i => 0 + INR i * ((top - 0) / INR n)) (seq 0 n) ++ [top]).
  { clear e. revert N. destruct n as [|k]; [intros Z; exfalso; exact (Nat.nlt_0_r _ Z)|reflexivity]. }
  rewrite L, seq_S, map_app. cbn [map plus]. rewrite e_n. f_equal. apply map_ext. intros i. unfold e. now rewrite Rminus_0_r, Rplus_0_l.
Qed.
Lemma edges_rise k : forall a, @rising E (map e (seq a k)) = true.
Proof.
  induction k as [|k IH]; intros a; [reflexivity|]. specialize (IH (S a)). destruct k as [|k]; [reflexivity|]. cbn [seq map] in *. cbn [rising].
  apply andb_true_iff. split; [|exact IH]. apply negb_true_iff. change (ltb (e (S a)) (e a) = false). unfold ltb. assert (ST := e_step a). destruct (Rlt_dec _ _); [lra|reflexivity].
Qed.
(** What is counted up to the edges. *)
Let c (xs : list R) (k : nat) : nat := if Nat.eqb k n then @up_to E xs top else @left_of E xs (e k).
Lemma histogram_is xs : @histogram E xs (@linspace E 0 top (S n)) = Ok (map (fun k => c xs (S k) - c xs k)%nat (seq 0 n)).
Proof.
  unfold histogram. rewrite edges, edges_rise. f_equal. rewrite <- diff_map. f_equal. rewrite seq_S, map_app. cbn [map plus].
  change (@removelast (V E)) with (@removelast R). change (@last (V E)) with (@last R). rewrite removelast_last, last_last, map_map, map_app. f_equal.
  - apply map_ext_in. intros k K. apply in_seq in K. unfold c. destruct (Nat.eqb_spec k n); [lia|reflexivity].
  - cbn [map]. unfold c. rewrite Nat.eqb_refl, e_n. reflexivity.
Qed.
Lemma lt_true (a b : R) : vlt E a b = true <-> a < b. Proof. exact (RealSize.ltb_iff a b). Qed.
Lemma le_true (a b : R) : vle E a b = true <-> a <= b. Proof. exact (RealSize.leb_iff a b). Qed.
(** Below edge [k], or up to the last. *)
Let q (k : nat) (x : R) : bool := if Nat.eqb k n then vle E x top else vlt E x (e k).
Lemma c_q xs k : c xs k = length (filter (q k) xs).
Proof. unfold c, q. destruct (Nat.eqb k n); reflexivity. Qed.
Lemma q_step k x : q k x = true -> (k < n)%nat -> q (S k) x = true.
Proof.
  unfold q. destruct (Nat.eqb_spec k n); [lia|]. intros H K. apply lt_true in H. assert (ST := e_step k). destruct (Nat.eqb_spec (S k) n) as [J|J].
  - apply le_true. rewrite <- e_n, <- J. lra.
  - apply lt_true. lra.
Qed.
Theorem bars_count xs bs : @histogram E xs (@linspace E 0 top (S n)) = Ok bs -> counts n top xs bs.
Proof.
  rewrite histogram_is. intros H. apply (f_equal (fun r => match r with Ok l => l | Err _ => nil end)) in H. cbn beta iota in H. subst bs. split; [now rewrite map_length, seq_length|].
  intros k b H. rewrite nth_error_map in H. destruct (nth_error (seq 0 n) k) as [k'|] eqn:K; [|discriminate]. cbn in H. injection H as <-.
  assert (KN : (k < n)%nat) by (rewrite <- (seq_length n 0); apply nth_error_Some; rewrite K; discriminate).
  apply (nth_error_nth _ _ 0%nat) in K. rewrite seq_nth in K by exact KN. cbn in K. subst k'.
  exists (fun x => q (S k) x && negb (q k x)). split.
  - intros x. rewrite andb_true_iff, negb_true_iff. unfold q, in_bin. fold (e k) (e (S k)). destruct (Nat.eqb_spec k n); [lia|]. rewrite <- not_true_iff_false, lt_true. split.
    + intros (A & B). split; [lra|]. destruct (Nat.eqb_spec (S k) n) as [J|J]; [apply le_true in A|apply lt_true in A; now left].
      destruct A as [A|A]; [left; rewrite J, e_n; exact A|right; now split].
    + intros (A & B). split; [|lra]. destruct (Nat.eqb_spec (S k) n) as [J|J].
      * apply le_true. destruct B as [B|[_ B]]; [rewrite J, e_n in B; lra|lra].
      * apply lt_true. destruct B as [B|[B _]]; [exact B|contradiction].
  - rewrite !c_q. apply filter_minus. intros x Q. now apply q_step.
Qed.
Let c' xs k := c xs (Nat.min k n).
Lemma sum_is xs : list_sum (map (fun k => c xs (S k) - c xs k)%nat (seq 0 n)) = (@up_to E xs top - @left_of E xs 0%R)%nat.
Proof.
  rewrite (map_ext_in _ (fun k => c' xs (S k) - c' xs k)%nat).
  - rewrite sum_diff.
    + unfold c'. rewrite Nat.add_0_l, Nat.min_id. cbn [Nat.min]. unfold c. rewrite Nat.eqb_refl. destruct (Nat.eqb_spec 0 n); [lia|]. now rewrite e_0.
    + intros k. unfold c'. destruct (Nat.lt_ge_cases k n) as [K|K].
      * rewrite !Nat.min_l by lia. rewrite !c_q. apply filter_minus. intros x Q. now apply q_step.
      * rewrite !Nat.min_r by lia. reflexivity.
  - intros k K. apply in_seq in K. unfold c'. now rewrite !Nat.min_l by lia.
Qed.
Theorem all_counted xs bs : @histogram E xs (@linspace E 0 top (S n)) = Ok bs -> (forall x, In x xs -> 0 <= x <= top) -> list_sum bs = length xs.
Proof.
  rewrite histogram_is. intros H F. apply (f_equal (fun r => match r with Ok l => l | Err _ => nil end)) in H. cbn beta iota in H. subst bs. rewrite sum_is.
  unfold up_to, left_of. rewrite filter_all by (intros x X; apply le_true, F, X). rewrite filter_none; [lia|]. intros x X. apply not_true_iff_false. rewrite lt_true. apply F in X. lra.
Qed.
Theorem none_counted xs bs : @histogram E xs (@linspace E 0 top (S n)) = Ok bs -> (forall x, In x xs -> x < 0 \/ top < x) -> list_sum bs = 0%nat.
Proof.
  rewrite histogram_is. intros H F. apply (f_equal (fun r => match r with Ok l => l | Err _ => nil end)) in H. cbn beta iota in H. subst bs. rewrite sum_is.
  unfold up_to, left_of. assert (X : filter (fun x => vle E x top) xs = filter (fun x => vlt E x 0) xs); [|rewrite X; lia].
  apply filter_ext_in. intros x X. apply F in X. apply eq_true_iff_eq. rewrite lt_true, le_true. lra.
Qed.
Theorem fewer xs b mask bs bs' : @histogram E xs (@linspace E 0 top (S n)) = Ok bs -> @histogram E (keep b xs mask) (@linspace E 0 top (S n)) = Ok bs' -> Forall2 le bs' bs.
Proof.
  rewrite !histogram_is. intros H H'. apply (f_equal (fun r => match r with Ok l => l | Err _ => nil end)) in H, H'. cbn beta iota in H, H'. subst bs bs'.
  assert (G : forall l, (forall k, In k l -> (k < n)%nat) -> Forall2 le (map (fun k => c (keep b xs mask) (S k) - c (keep b xs mask) k)%nat l) (map (fun k => c xs (S k) - c xs k)%nat l)).
  - induction l as [|k l IH]; intros K; [constructor|]. cbn [map]. constructor; [|apply IH; intros z Z; apply K; now right].
    specialize (K k (or_introl eq_refl)). rewrite !c_q. destruct (filter_minus (q (S k)) (q k) xs) as [-> _]; [intros x Q; now apply q_step|].
    destruct (filter_minus (q (S k)) (q k) (keep b xs mask)) as [-> _]; [intros x Q; now apply q_step|]. apply keep_filter.
  - apply G. intros k K. apply in_seq in K. lia.
Qed.
Lemma drawn xs : exists bs, @histogram E xs (@linspace E 0 top (S n)) = Ok bs. Proof. rewrite histogram_is. eauto. Qed.
End P.
