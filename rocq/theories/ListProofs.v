(** Proofs for C88. *)
From Verif Require Import Base BaseFacts ClassModel ClassSpec ClassProofs ListModel.

Lemma printed items : forall p, print_names items p = p ++ map fst items.
Proof. induction items as [|[k c] r IH]; intros p; cbn; [now rewrite app_nil_r|]. now rewrite IH, <- app_assoc. Qed.
Lemma listed h w : list_available h w = dkeys (cl_reg w h).
Proof. unfold list_available. now rewrite printed. Qed.

Lemma usable l h s : In s (list_available h (run l)) <-> exists c, registry_make (run l) h s = Ok c.
Proof.
  rewrite listed, <- dget_Some_In_keys. unfold registry_make. pose proof (good_run l) as (_ & _ & RG). split; intros [c H].
  - exists c. rewrite H. cbn. apply RG in H as (k & N & M & A & _). unfold instantiate. rewrite N. cbn. now rewrite A.
  - destruct (dget (cl_reg (run l) h) s) as [d|]; [eauto|discriminate].
Qed.
(** One class statement. *)
Lemma step w m b a h : exists more, list_available h (snd (class_statement m b a w)) = list_available h w ++ more /\ length more <= 1 /\
  (NoDup (list_available h w) -> NoDup (list_available h (snd (class_statement m b a w)))).
Proof.
  rewrite !listed. destruct (class_statement m b a w) as [[c|e] w'] eqn:H; cbn [snd].
  2:{ rewrite (statement_err _ _ _ _ _ _ H). exists nil. rewrite app_nil_r. split; [easy|]. split; [cbn; lia|easy]. }
  destruct (statement_ok _ _ _ _ _ _ H) as (bs & mm & r & abs & _ & _ & _ & _ & _ & X).
  assert (N : exists more, dkeys (cl_reg w h) = dkeys (cl_reg w h) ++ more /\ length more <= 1 /\ (NoDup (dkeys (cl_reg w h)) -> NoDup (dkeys (cl_reg w h)))).
  { exists nil. rewrite app_nil_r. split; [easy|]. split; [cbn; lia|easy]. }
  destruct mm as [h'|]; [|destruct X as [_ ->]; exact N]. destruct X as [_ [[_ ->]|(_ & s & _ & ->)]]; [exact N|].
  unfold put_reg. destruct (hier_eqb h' h); [|exact N]. rewrite dkeys_dset. unfold dmem. destruct (dget (cl_reg w h) s) as [d|] eqn:D; [exact N|].
  exists [s]. split; [easy|]. split; [cbn; lia|]. intros ND. apply dget_None in D.
  revert ND D. clear. generalize (dkeys (cl_reg w h)) as q. induction q as [|x q IH]; cbn; intros ND D; [constructor; [intros []|constructor]|].
  inversion_clear ND as [|? ? NI ND']. constructor.
  - rewrite in_app_iff. intros [I|[X|[]]]; [exact (NI I)|]. apply D. now left.
  - apply IH; [exact ND'|]. intros I. apply D. now right.
Qed.
Lemma steps l h : forall w, exists more, list_available h (fold_left run1 l w) = list_available h w ++ more /\ length more <= length l /\
  (NoDup (list_available h w) -> NoDup (list_available h (fold_left run1 l w))).
Proof.
  induction l as [|((m & b) & a) l IH]; intros w; cbn [fold_left]; [exists nil; rewrite app_nil_r; split; [easy|]; split; [cbn; lia|easy]|].
  destruct (IH (run1 w (m, b, a))) as (m2 & E2 & L2 & N2). destruct (step w m b a h) as (m1 & E1 & L1 & N1). cbn [run1] in *.
  exists (m1 ++ m2). rewrite E2, E1, app_assoc. split; [easy|]. split; [rewrite app_length; cbn; lia|]. rewrite <- E1, <- E2. tauto.
Qed.
Lemma once l h : NoDup (list_available h (run l)).
Proof. destruct (steps l h start) as (_ & _ & _ & N). apply N. rewrite listed. constructor. Qed.
Lemma grows l1 l2 h : exists more, list_available h (run (l1 ++ l2)) = list_available h (run l1) ++ more /\ length more <= length l2.
Proof. rewrite run_app. destruct (steps l2 h (run l1)) as (more & E & L & _). eauto. Qed.
