(** Proofs for C58. *)
From Verif Require Import Base BaseFacts LogModel LogSpec.
Open Scope Z_scope.

(** Induction over programs that reaches into blocks. *)
Lemma op_ind' (P : op -> Prop) :
  P OSilence -> P OQuiet -> P OLoud -> P ODebug -> P OActivate -> P OSilenceWarnings -> P OActivateWarnings ->
  (forall a, P (OUpdate a)) -> (forall b, P (OBars b)) -> (forall e, P (ORaise e)) ->
  (forall l, (forall o, In o l -> P o) -> P (OWith l)) -> forall o, P o.
Proof.
  intros H1 H2 H3 H4 H5 H6 H7 H8 H9 H10 H11. fix F 1. intros [| | | | | | |a|b|e|l];
    [exact H1|exact H2|exact H3|exact H4|exact H5|exact H6|exact H7|exact (H8 a)|exact (H9 b)|exact (H10 e)|].
  apply H11. induction l as [|x r IH]; intros o; [intros []|]. intros [<-|I]; [apply F|exact (IH o I)].
Qed.
Definition block (l : list op) : LM unit := (fix go (l : list op) : LM unit := match l with nil => ret tt | x :: r => run x ;; go r end) l.
Lemma block_runs l : block l = runs l.
Proof. induction l as [|x r IH]; [reflexivity|]. cbn. now rewrite <- IH. Qed.
Lemma with_eq l s : run (OWith l) s =
  (fst (runs l (Logs (set_level ERROR (l_usr s)) (set_level ERROR (l_con s)) (l_dev s) (l_susr s) (l_scon s) (l_progress s))),
   let s1 := snd (runs l (Logs (set_level ERROR (l_usr s)) (set_level ERROR (l_con s)) (l_dev s) (l_susr s) (l_scon s) (l_progress s))) in
   Logs (set_level (h_level (l_usr s)) (l_usr s1)) (set_level (h_level (l_con s)) (l_con s1)) (l_dev s1) (l_susr s1) (l_scon s1) (l_progress s1)).
Proof.
  transitivity ((let! s := get in on_con (set_level ERROR) ;; on_usr (set_level ERROR) ;;
    finally (block l) (on_con (set_level (h_level (l_con s))) ;; on_usr (set_level (h_level (l_usr s))))) s); [reflexivity|].
  rewrite block_runs. cbn. unfold bind, finally. cbn. destruct (runs l _) as [r s1]. reflexivity.
Qed.

(** Something that holds of every state after every operation, if it holds before. *)
Lemma runs_keep (P : logs -> Prop) l : (forall o s, In o l -> P s -> P (snd (run o s))) -> forall s, P s -> P (snd (runs l s)).
Proof.
  induction l as [|x r IH]; intros H s HP; [exact HP|]. cbn. unfold bind.
  assert (X := H x s (or_introl eq_refl) HP). destruct (run x s) as [[v|e] s1]; cbn in *; [|exact X].
  apply IH; [intros; apply H; auto|exact X].
Qed.

Lemma with_levels l s : same_levels s (snd (run (OWith l) s)) /\ fst (run (OWith l) s) = 
  fst (runs l (Logs (set_level ERROR (l_usr s)) (set_level ERROR (l_con s)) (l_dev s) (l_susr s) (l_scon s) (l_progress s))).
Proof. rewrite with_eq. split; [split|]; reflexivity. Qed.

(** What [_log_state] keeps changes only with the mode. *)
Lemma no_mode_stored o : no_mode o -> forall s, l_susr (snd (run o s)) = l_susr s /\ l_scon (snd (run o s)) = l_scon s.
Proof.
  induction o using op_ind'; intros N s; inversion N; subst; try (cbn; auto; fail).
  - cbn. unfold bind, lift. destruct (check_level a); cbn; auto.
  - rewrite with_eq. cbn [snd l_susr l_scon].
    apply (runs_keep (fun s' => l_susr s' = l_susr s /\ l_scon s' = l_scon s)); [|cbn; auto].
    intros o s0 I (A & B). destruct (H o I (H1 o I) s0) as (C & D). now rewrite C, D.
Qed.
Lemma after_stored h s : (forall o, In o h -> no_mode o) -> l_susr (after s h) = l_susr s /\ l_scon (after s h) = l_scon s.
Proof.
  unfold after. revert s. induction h as [|o h IH]; intros s H; [cbn; auto|]. cbn.
  destruct (IH (step s o)) as (A & B); [intros; apply H; now right|]. rewrite A, B. apply no_mode_stored, H. now left.
Qed.
Lemma mode_stores o s : mode o -> l_susr (step s o) = usr_level s /\ l_scon (step s o) = console_level s.
Proof. intros [-> | [-> | [-> | ->]]]; cbn; auto. Qed.
Lemma activate_levels s : usr_level (step s OActivate) = l_susr s /\ console_level (step s OActivate) = l_scon s /\ dev_level (step s OActivate) = DEBUG.
Proof. cbn. auto. Qed.
Lemma restored s o h : mode o -> (forall x, In x h -> no_mode x) -> same_levels s (after s (o :: h ++ [OActivate])).
Proof.
  intros Mo N. unfold after. cbn [fold_left]. rewrite fold_left_app. cbn [fold_left].
  destruct (mode_stores o s Mo) as (A & B). destruct (after_stored h (step s o) N) as (C & D).
  destruct (activate_levels (after (step s o) h)) as (X & Y & _). split; [fold (after (step s o) h); rewrite X, C, A|fold (after (step s o) h); rewrite Y, D, B]; reflexivity.
Qed.

(** The developer log: never restored, always switched on. *)
Definition dev_ok (s : logs) : Prop := dev_level s = DEBUG \/ dev_level s = CRITICAL.
Lemma dev_run o s : dev_ok s -> dev_ok (snd (run o s)).
Proof.
  revert s. induction o using op_ind'; intros s D; try (cbn; unfold dev_ok, dev_level in *; cbn; auto; fail).
  - cbn. unfold bind, lift. destruct (check_level a); cbn; auto.
  - rewrite with_eq. cbn [snd]. unfold dev_ok, dev_level. cbn [l_dev].
    apply (runs_keep dev_ok); [intros o s0 I; apply H, I|exact D].
Qed.

(** Filters: the warning filter is there at most once. *)
Definition once (h : handler) : Prop := drop1 (h_filters h) = filter negb (h_filters h).
Lemma once_nil l : once (Handler l nil). Proof. reflexivity. Qed.
Lemma filters_of_levels h l : once h -> once (set_level l h). Proof. exact (fun x => x). Qed.
Lemma drop1_filter l : filter negb (drop1 l) = filter negb l.
Proof. induction l as [|[|] r IH]; cbn; [easy|easy|now rewrite IH]. Qed.
Lemma drop1_falses l : drop1 (filter negb l) = filter negb l.
Proof. induction l as [|[|] r IH]; cbn; [easy|exact IH|now rewrite IH]. Qed.
Lemma filter_idem l : filter negb (filter negb l) = filter negb l.
Proof. induction l as [|[|] r IH]; cbn; [easy|exact IH|now rewrite IH]. Qed.
Lemma once_remove h : once h -> once (remove_filter h).
Proof. unfold once, remove_filter. cbn. intros ->. now rewrite drop1_falses, filter_idem. Qed.
Lemma drop1_app l : existsb (fun b => b) l = false -> drop1 (l ++ [true]) = l /\ filter negb l = l.
Proof.
  induction l as [|[|] r IH]; cbn; intros H; [auto|discriminate|]. destruct (IH H) as (A & B). now rewrite A, B.
Qed.
Lemma once_add h : once h -> once (add_filter h).
Proof.
  unfold once, add_filter. destruct (existsb _ (h_filters h)) eqn:Q; [easy|]. intros _. cbn.
  destruct (drop1_app _ Q) as (A & B). rewrite A, filter_app, B. cbn. now rewrite app_nil_r.
Qed.
Definition both_once (s : logs) : Prop := once (l_usr s) /\ once (l_con s).
Lemma once_run o s : both_once s -> both_once (snd (run o s)).
Proof.
  revert s. induction o using op_ind'; intros s (A & B);
    try (cbn; split; cbn; auto using once_add, once_remove; fail).
  - cbn. unfold bind, lift. destruct (check_level a); cbn; split; auto.
  - rewrite with_eq. cbn [snd]. 
    destruct (runs_keep both_once l (fun o s0 I => H o I s0) _ (conj A B : both_once (Logs (set_level ERROR (l_usr s)) (set_level ERROR (l_con s)) (l_dev s) (l_susr s) (l_scon s) (l_progress s)))) as (X & Y).
    split; [exact X|exact Y].
Qed.
Lemma once_after h s : both_once s -> both_once (after s h).
Proof.
  unfold after. revert s. induction h as [|o h IH]; intros s B; [exact B|]. cbn. apply IH, once_run, B.
Qed.
Lemma writes_removed h lvl : once h -> writes (remove_filter h) lvl = (h_level h <=? lvl).
Proof.
  unfold once, writes, remove_filter. cbn. intros ->. rewrite andb_comm.
  assert (X : forall l, forallb (fun b : bool => if b then negb (lvl =? WARNING) else true) (filter negb l) = true).
  { induction l as [|[|] r IH]; cbn; auto. }
  now rewrite X.
Qed.
Lemma writes_added h lvl : writes (add_filter h) lvl = writes h lvl && negb (lvl =? WARNING).
Proof.
  unfold writes, add_filter. destruct (existsb _ (h_filters h)) eqn:Q.
  - rewrite <- andb_assoc. f_equal. induction (h_filters h) as [|[|] r IH]; cbn in *; [discriminate| |now apply IH].
    destruct (lvl =? WARNING); cbn; [easy|now rewrite andb_true_r].
  - cbn. rewrite forallb_app. cbn. now rewrite andb_true_r, andb_assoc.
Qed.
