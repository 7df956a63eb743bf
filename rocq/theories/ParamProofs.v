From Verif Require Import Base BaseFacts ParamModel ParamSpec.
Set Implicit Arguments.

Section Proofs.
Variable V : Type.
Variables ge le : V -> V -> bool.
Notation pop := (pop V).
Notation pclass := (pclass V).
Notation pstate := (pstate V).
Notation pdecl := (pdecl V).

Definition eff (d : pdecl) (o : option (option V)) : option V :=
  match o with Some (Some v) => Some v | _ => pd_default d end.

Lemma touch_norm_store (d : pdecl) k o : po_store (touch_norm d k o) = po_store o.
Proof. unfold touch_norm. now destruct (pd_norm d). Qed.

Lemma param_get_spec (d : pdecl) k o :
  fst (param_get d k o) = of_opt AssertionError (eff d (dget (po_store o) k)).
Proof.
  unfold param_get, eff. rewrite touch_norm_store.
  destruct (dget (po_store o) k) as [[v|]|]; cbn; try easy; now destruct (pd_default d).
Qed.

Lemma param_get_store (d : pdecl) k o k2 d2 :
  (k2 = k -> d2 = d) ->
  eff d2 (dget (po_store (snd (param_get d k o))) k2) = eff d2 (dget (po_store o) k2).
Proof.
  intros K. unfold param_get. rewrite touch_norm_store.
  destruct (dget (po_store o) k) as [[v|]|] eqn:E; cbn [snd].
  - now rewrite touch_norm_store.
  - destruct (pd_default d) eqn:D; cbn [snd po_store]; rewrite dget_dset;
    (destruct (String.eqb_spec k2 k) as [->|]; [rewrite E|easy]; rewrite K by easy; cbn; now rewrite D).
  - destruct (pd_default d) eqn:D; cbn [snd po_store]; rewrite dget_dset;
    (destruct (String.eqb_spec k2 k) as [->|]; [rewrite E|easy]; rewrite K by easy; cbn; now rewrite D).
Qed.

Definition set_check (d : pdecl) (v : option V) : res unit :=
  if pd_free d then (let? _ := check_bound ge (pd_vmin d) v in check_bound le (pd_vmax d) v)
  else Err RuntimeError.

Lemma param_set_spec (d : pdecl) k v o :
  fst (param_set ge le d k v o) = set_check d v.
Proof.
  unfold param_set, set_check. destruct (pd_free d); [|easy].
  destruct (let? _ := check_bound ge (pd_vmin d) v in check_bound le (pd_vmax d) v) as [[]|]; easy.
Qed.

Lemma param_set_store (d : pdecl) k v o :
  po_store (snd (param_set ge le d k v o)) =
  match set_check d v with Ok _ => dset (po_store o) k v | Err _ => po_store o end.
Proof.
  unfold param_set, set_check. destruct (pd_free d); cbn [snd]; [|now rewrite touch_norm_store].
  destruct (let? _ := check_bound ge (pd_vmin d) v in check_bound le (pd_vmax d) v) as [[]|];
    cbn [snd po_store]; now rewrite touch_norm_store.
Qed.

Lemma set_check_ok (d : pdecl) v :
  set_check d (Some v) = Ok tt <-> pd_free d = true /\ within ge le d v.
Proof.
  unfold set_check, within. destruct (pd_free d).
  2: split; [discriminate|intros [H _]; discriminate].
  destruct (pd_vmin d) as [a|]; cbn; [destruct (ge v a) eqn:E1; cbn|];
  (destruct (pd_vmax d) as [b|]; cbn; [destruct (le v b) eqn:E2; cbn|]);
  split; intros H; try discriminate; repeat split; intros; try congruence;
  destruct H as (_ & H1 & H2);
  try specialize (H1 _ eq_refl); try specialize (H2 _ eq_refl); congruence.
Qed.

Lemma set_check_err (d : pdecl) v :
  set_check d (Some v) = Ok tt \/ set_check d (Some v) = Err RuntimeError.
Proof.
  unfold set_check. destruct (pd_free d); [|auto].
  destruct (pd_vmin d) as [a|]; cbn; [destruct (ge v a); cbn|]; auto;
  (destruct (pd_vmax d) as [b|]; cbn; [destruct (le v b); cbn|]); auto.
Qed.

(** Class declarations are constant up to the free flag. *)
Definition same_decl (c c' : pclass) : Prop :=
  forall k, match dget c k, dget c' k with
            | Some d, Some d' => pd_default d = pd_default d' /\ pd_vmin d = pd_vmin d'
                                 /\ pd_vmax d = pd_vmax d' /\ pd_norm d = pd_norm d'
            | None, None => True
            | _, _ => False
            end.

Lemma same_decl_refl c : same_decl c c.
Proof. intros k. destruct (dget c k); auto. Qed.

Lemma same_decl_trans a b c : same_decl a b -> same_decl b c -> same_decl a c.
Proof.
  intros H1 H2 k. specialize (H1 k). specialize (H2 k).
  destruct (dget a k), (dget b k), (dget c k); try easy. intuition congruence.
Qed.

Lemma pstep_same_decl s o : same_decl (ps_class s) (ps_class (snd (pstep ge le s o))).
Proof.
  destruct o as [i k|i k v|k b|i v]; cbn [pstep].
  - destruct (nth_error (ps_objs s) i), (dget (ps_class s) k); try apply same_decl_refl.
    destruct (param_get _ _ _). apply same_decl_refl.
  - destruct (nth_error (ps_objs s) i), (dget (ps_class s) k); try apply same_decl_refl.
    destruct (param_set _ _ _ _ _). apply same_decl_refl.
  - destruct (dget (ps_class s) k) as [d|] eqn:E; [|apply same_decl_refl].
    cbn [snd ps_class]. intros k2. rewrite dget_dset.
    destruct (String.eqb_spec k2 k) as [->|]; [rewrite E; cbn; auto|].
    destruct (dget (ps_class s) k2); auto.
  - destruct (nth_error (ps_objs s) i); apply same_decl_refl.
Qed.

(** The effective value of parameter [k] of instance [i]. *)
Definition effv (s : pstate) (i : nat) (k : string) : option (option V) :=
  match nth_error (ps_objs s) i, dget (ps_class s) k with
  | Some ob, Some d => Some (eff d (dget (po_store ob) k))
  | _, _ => None
  end.

Lemma reads_effv s i k :
  reads ge le s i k = match effv s i k with
                      | Some e => rmap Some (of_opt AssertionError e)
                      | None => Err AttributeError
                      end.
Proof.
  unfold reads, effv; cbn [pstep].
  destruct (nth_error (ps_objs s) i) as [ob|], (dget (ps_class s) k) as [d|]; try easy.
  rewrite <- param_get_spec. now destruct (param_get d k ob).
Qed.

Lemma effv_lset s i ob ob' k i2 :
  nth_error (ps_objs s) i = Some ob ->
  effv (PState (ps_class s) (lset (ps_objs s) i ob')) i2 k =
  if Nat.eqb i i2 then option_map (fun d => eff d (dget (po_store ob') k)) (dget (ps_class s) k)
  else effv s i2 k.
Proof.
  intros H. unfold effv. cbn [ps_objs ps_class]. rewrite nth_lset.
  destruct (Nat.eqb_spec i i2) as [<-|]; [|easy].
  rewrite H. now destruct (dget (ps_class s) k).
Qed.

Lemma eff_default_only (d d' : pdecl) o : pd_default d = pd_default d' -> eff d o = eff d' o.
Proof. unfold eff. intros ->. easy. Qed.

(** Effect of one operation on every effective value. *)
Lemma effv_step s o i k :
  (forall j v, o <> PNormSet j v) ->
  effv (snd (pstep ge le s o)) i k =
  match o, fst (pstep ge le s o) with
  | PSet j k' v, Ok _ =>
      if Nat.eqb j i && String.eqb k' k
      then option_map (fun d => eff d (Some v)) (dget (ps_class s) k)
      else effv s i k
  | _, _ => effv s i k
  end.
Proof.
  intros NN. destruct o as [j k'|j k' v|k' b|j v]; cbn [pstep].
  - destruct (nth_error (ps_objs s) j) as [ob|] eqn:E1, (dget (ps_class s) k') as [d|] eqn:E2;
      try (cbn; now destruct (effv s i k)).
    destruct (param_get d k' ob) as [r ob'] eqn:G. cbn [snd fst].
    rewrite (@effv_lset s j ob ob' k i E1).
    assert (K : (if j =? i then option_map (fun d0 => eff d0 (dget (po_store ob') k)) (dget (ps_class s) k)
             else effv s i k) = effv s i k).
    { destruct (Nat.eqb_spec j i) as [->|]; [|easy].
      unfold effv. rewrite E1. destruct (dget (ps_class s) k) as [d2|] eqn:E3; [|easy].
      cbn. f_equal. change ob' with (snd (r, ob')). rewrite <- G.
      apply param_get_store. intros ->. congruence. }
    destruct r; cbn; exact K.
  - destruct (nth_error (ps_objs s) j) as [ob|] eqn:E1, (dget (ps_class s) k') as [d|] eqn:E2;
      try (cbn; now destruct (effv s i k)).
    pose proof (param_set_spec d k' v ob) as P1.
    pose proof (param_set_store d k' v ob) as P2.
    destruct (param_set ge le d k' v ob) as [r ob']. cbn [fst snd] in *.
    rewrite (@effv_lset s j ob ob' k i E1). subst r. rewrite P2.
    destruct (set_check d v) as [u|]; cbn [rmap fst].
    + destruct (Nat.eqb_spec j i) as [->|]; cbn [andb]; [|easy].
      destruct (dget (ps_class s) k) as [d2|] eqn:E3; cbn [option_map].
      * rewrite dget_dset. rewrite (String.eqb_sym k' k).
        destruct (String.eqb k k') eqn:E4; [easy|].
        unfold effv. now rewrite E1, E3.
      * destruct (String.eqb k' k); unfold effv; rewrite ?E1, ?E3; easy.
    + destruct (Nat.eqb_spec j i) as [->|]; [|easy].
      unfold effv. rewrite E1. now destruct (dget (ps_class s) k).
  - destruct (dget (ps_class s) k') as [d|] eqn:E; cbn [fst snd]; [|easy].
    unfold effv; cbn [ps_objs ps_class].
    destruct (nth_error (ps_objs s) i) as [ob|]; [|easy].
    rewrite dget_dset. destruct (String.eqb_spec k k') as [->|]; [|easy].
    now rewrite E.
  - exfalso. eapply NN. reflexivity.
Qed.

Lemma prun_cons s o h :
  prun ge le s (o :: h) =
  (fst (pstep ge le s o) :: fst (prun ge le (snd (pstep ge le s o)) h),
   snd (prun ge le (snd (pstep ge le s o)) h)).
Proof.
  cbn [prun]. destruct (pstep ge le s o) as [x s1]. cbn [fst snd].
  now destruct (prun ge le s1 h).
Qed.

Lemma no_norm_cons (o : pop) (h : list pop) : no_norm_set (o :: h) -> (forall j v, o <> PNormSet j v) /\ no_norm_set h.
Proof.
  intros H. split.
  - intros j v ->. apply (H j v). now left.
  - intros j v I. apply (H j v). now right.
Qed.

Lemma prun_same_decl h s : same_decl (ps_class s) (ps_class (snd (prun ge le s h))).
Proof.
  revert s; induction h as [|o h IH]; intros s; [apply same_decl_refl|].
  rewrite prun_cons. cbn [snd]. eapply same_decl_trans; [apply pstep_same_decl|apply IH].
Qed.

Lemma effv_run h : forall s i k acc,
  no_norm_set h ->
  effv s i k = match nth_error (ps_objs s) i, dget (ps_class s) k with
               | Some _, Some d => Some (match acc with Some v => Some v | None => pd_default d end)
               | _, _ => None
               end ->
  effv (snd (prun ge le s h)) i k =
  match nth_error (ps_objs s) i, dget (ps_class s) k with
  | Some _, Some d =>
      Some (match last_accepted i k h (fst (prun ge le s h)) acc with
            | Some v => Some v | None => pd_default d end)
  | _, _ => None
  end.
Proof.
  induction h as [|o h IH]; intros s i k acc NN HS.
  - exact HS.
  - apply no_norm_cons in NN. destruct NN as [N1 N2].
    rewrite prun_cons. cbn [snd fst].
    set (s1 := snd (pstep ge le s o)).
    assert (HD := pstep_same_decl s o). fold s1 in HD. specialize (HD k).
    assert (HO : match nth_error (ps_objs s) i, nth_error (ps_objs s1) i with
                 | Some _, Some _ => True | None, None => True | _, _ => False end).
    { subst s1. destruct o as [j k'|j k' v|k' b|j v]; cbn [pstep].
      - destruct (nth_error (ps_objs s) j) eqn:E, (dget (ps_class s) k');
          try (cbn; now destruct (nth_error (ps_objs s) i)).
        destruct (param_get _ _ _). cbn. rewrite nth_lset.
        destruct (j =? i); destruct (nth_error (ps_objs s) i); easy.
      - destruct (nth_error (ps_objs s) j) eqn:E, (dget (ps_class s) k');
          try (cbn; now destruct (nth_error (ps_objs s) i)).
        destruct (param_set _ _ _ _ _). cbn. rewrite nth_lset.
        destruct (j =? i); destruct (nth_error (ps_objs s) i); easy.
      - destruct (dget (ps_class s) k'); cbn; now destruct (nth_error (ps_objs s) i).
      - exfalso. eapply N1. reflexivity. }
    assert (ES := effv_step s i k N1). fold s1 in ES.
    set (acc' := match o, fst (pstep ge le s o) with
                 | PSet j k' v, Ok _ => if Nat.eqb j i && String.eqb k' k then v else acc
                 | _, _ => acc end).
    assert (HL : last_accepted i k (o :: h) (fst (pstep ge le s o) :: fst (prun ge le s1 h)) acc
                 = last_accepted i k h (fst (prun ge le s1 h)) acc').
    { subst acc'. clear. generalize (fst (prun ge le s1 h)).
      generalize (fst (pstep ge le s o)). intros x l. destruct o, x; reflexivity. }
    rewrite HL.
    rewrite (IH s1 i k acc' N2).
    + destruct (nth_error (ps_objs s) i), (nth_error (ps_objs s1) i); try easy.
      destruct (dget (ps_class s) k), (dget (ps_class s1) k); try easy.
      destruct HD as (-> & _). easy.
    + rewrite ES.
      assert (KS : match nth_error (ps_objs s) i, dget (ps_class s) k with
                   | Some _, Some d => Some (match acc' with Some v => Some v | None => pd_default d end)
                   | _, _ => None
                   end =
                   match nth_error (ps_objs s1) i, dget (ps_class s1) k with
                   | Some _, Some d => Some (match acc' with Some v => Some v | None => pd_default d end)
                   | _, _ => None
                   end).
      { destruct (nth_error (ps_objs s) i), (nth_error (ps_objs s1) i); try easy.
        destruct (dget (ps_class s) k), (dget (ps_class s1) k); try easy.
        destruct HD as (-> & _). easy. }
      rewrite <- KS. subst acc'.
      destruct o as [j k'|j k' v|k' b|j v]; try exact HS.
      destruct (fst (pstep ge le s (PSet j k' v))) eqn:EF; [|exact HS].
      destruct (Nat.eqb_spec j i) as [->|]; cbn [andb]; [|exact HS].
      destruct (String.eqb_spec k' k) as [->|]; [|exact HS].
      cbn [pstep] in EF.
      destruct (nth_error (ps_objs s) i); [|discriminate].
      destruct (dget (ps_class s) k); [|discriminate].
      cbn. unfold eff. now destruct v.
Qed.

Lemma run_lengths h s : length (ps_objs (snd (prun ge le s h))) = length (ps_objs s).
Proof.
  revert s; induction h as [|o h IH]; intros s; [easy|].
  rewrite prun_cons. cbn [snd]. rewrite IH.
  destruct o as [j k'|j k' v|k' b|j v]; cbn [pstep].
  - destruct (nth_error (ps_objs s) j), (dget (ps_class s) k'); try easy.
    destruct (param_get _ _ _). apply lset_length.
  - destruct (nth_error (ps_objs s) j), (dget (ps_class s) k'); try easy.
    destruct (param_set _ _ _ _ _). apply lset_length.
  - destruct (dget (ps_class s) k'); easy.
  - destruct (nth_error (ps_objs s) j); [|easy]. apply lset_length.
Qed.

(** C01 *)
Lemma read_last_accepted c n h i k d :
  no_norm_set h -> i < n -> dget c k = Some d ->
  let r := prun ge le (pinit c n) h in
  reads ge le (snd r) i k =
  match last_accepted i k h (fst r) None with
  | Some v => Ok (Some v)
  | None => match pd_default d with Some v => Ok (Some v) | None => Err AssertionError end
  end.
Proof.
  intros NN L D. cbn zeta. rewrite reads_effv.
  assert (E : nth_error (ps_objs (pinit c n)) i = Some (pobj_new V)).
  { cbn. rewrite nth_error_repeat. apply Nat.ltb_lt in L. now rewrite L. }
  rewrite (@effv_run h (pinit c n) i k None NN).
  - rewrite E. cbn [ps_class pinit]. rewrite D.
    destruct (last_accepted _ _ _ _ _); [easy|]. now destruct (pd_default d).
  - unfold effv. rewrite E. cbn [ps_class pinit]. rewrite D. easy.
Qed.

(** C02: outcome of an assignment. *)
Lemma set_outcome s i k v ob d :
  nth_error (ps_objs s) i = Some ob -> dget (ps_class s) k = Some d ->
  (pd_free d = true /\ within ge le d v -> fst (pstep ge le s (PSet i k (Some v))) = Ok None) /\
  (~ (pd_free d = true /\ within ge le d v) ->
     fst (pstep ge le s (PSet i k (Some v))) = Err RuntimeError).
Proof.
  intros H1 H2. cbn [pstep]. rewrite H1, H2.
  pose proof (param_set_spec d k (Some v) ob) as P.
  destruct (param_set ge le d k (Some v) ob) as [r ob']. cbn [fst] in *. subst r.
  rewrite <- set_check_ok. split; intros H.
  - now rewrite H.
  - destruct (set_check_err d v) as [E|E]; [easy|]. now rewrite E.
Qed.

Lemma rejected_set_keeps_reads s i k v e :
  fst (pstep ge le s (PSet i k v)) = Err e ->
  forall i2 k2, reads ge le (snd (pstep ge le s (PSet i k v))) i2 k2 = reads ge le s i2 k2.
Proof.
  intros H i2 k2. rewrite !reads_effv.
  rewrite effv_step by congruence. now rewrite H.
Qed.

Lemma get_keeps_reads s i k i2 k2 :
  reads ge le (snd (pstep ge le s (PGet V i k))) i2 k2 = reads ge le s i2 k2.
Proof. rewrite !reads_effv. now rewrite effv_step by congruence. Qed.

Lemma set_keeps_other_reads s i k v i2 k2 :
  (i2, k2) <> (i, k) ->
  reads ge le (snd (pstep ge le s (PSet i k v))) i2 k2 = reads ge le s i2 k2.
Proof.
  intros N. rewrite !reads_effv. rewrite effv_step by congruence.
  destruct (fst (pstep ge le s (PSet i k v))); [|easy].
  destruct (Nat.eqb_spec i i2) as [->|]; [|easy].
  destruct (String.eqb_spec k k2) as [->|]; [congruence|easy].
Qed.

Lemma last_accepted_within c n h i k d acc0 :
  forall s, same_decl c (ps_class s) -> dget c k = Some d ->
  n = length (ps_objs s) ->
  no_norm_set h ->
  (forall v, acc0 = Some v -> within ge le d v) ->
  forall v, last_accepted i k h (fst (prun ge le s h)) acc0 = Some v -> within ge le d v.
Proof.
  revert acc0. induction h as [|o h IH]; intros acc0 s HD D HN NN HA v HL.
  - now apply HA.
  - apply no_norm_cons in NN. destruct NN as [N1 N2].
    rewrite prun_cons in HL. cbn [fst] in HL.
    set (s1 := snd (pstep ge le s o)) in *.
    assert (HD1 : same_decl c (ps_class s1)) by (eapply same_decl_trans; [exact HD|apply pstep_same_decl]).
    assert (HN1 : n = length (ps_objs s1)).
    { rewrite HN. symmetry. pose proof (run_lengths [o] s) as RL. rewrite prun_cons in RL. exact RL. }
    assert (Hgen : forall acc', last_accepted i k h (fst (prun ge le s1 h)) acc' = Some v ->
                   (forall w, acc' = Some w -> within ge le d w) -> within ge le d v).
    { intros acc' H1 H2. eapply IH with (s := s1) (acc0 := acc'); eauto. }
    destruct o as [j k'|j k' w|k' b|j w]; cbn [last_accepted] in HL.
    + destruct (fst (pstep ge le s (PGet V j k'))); eapply Hgen; eauto.
    + destruct (fst (pstep ge le s (PSet j k' w))) eqn:EF; [|eapply Hgen; eauto].
      destruct (Nat.eqb_spec j i) as [->|]; cbn [andb] in HL; [|eapply Hgen; eauto].
      destruct (String.eqb_spec k' k) as [->|]; [|eapply Hgen; eauto].
      eapply Hgen; [exact HL|]. intros x ->.
      cbn [pstep] in EF.
      destruct (nth_error (ps_objs s) i) as [ob|]; [|discriminate].
      destruct (dget (ps_class s) k) as [d'|] eqn:E; [|discriminate].
      pose proof (param_set_spec d' k (Some x) ob) as P.
      destruct (param_set ge le d' k (Some x) ob) as [r ob']. cbn [fst] in *. subst r.
      destruct (set_check_err d' x) as [K|K]; rewrite K in EF; [|discriminate].
      apply set_check_ok in K. destruct K as [_ K].
      specialize (HD k). rewrite D, E in HD. destruct HD as (_ & Hm & HM & _).
      unfold within in *. now rewrite Hm, HM.
    + destruct (fst (pstep ge le s (PFix V k' b))); eapply Hgen; eauto.
    + exfalso. eapply N1. reflexivity.
Qed.

(** C02: every value ever read satisfies the bounds or is the default. *)
Lemma reads_within c n h i k d v :
  no_norm_set h -> i < n -> dget c k = Some d ->
  reads ge le (snd (prun ge le (pinit c n) h)) i k = Ok (Some v) ->
  within ge le d v \/ pd_default d = Some v.
Proof.
  intros NN L D R. rewrite (read_last_accepted c k NN L D) in R.
  destruct (last_accepted i k h _ None) as [w|] eqn:E.
  - left. injection R as <-.
    apply (@last_accepted_within c n h i k d None (pinit c n)) with (v := w); auto.
    + apply same_decl_refl.
    + cbn. now rewrite repeat_length.
    + discriminate.
  - right. destruct (pd_default d); congruence.
Qed.

(** C03 *)
Lemma fixed_step s o k d :
  (forall b, o <> PFix V k b) ->
  dget (ps_class s) k = Some d -> dget (ps_class (snd (pstep ge le s o))) k = Some d.
Proof.
  intros N D. destruct o as [j k'|j k' w|k' b|j w]; cbn [pstep].
  - destruct (nth_error (ps_objs s) j), (dget (ps_class s) k'); try easy.
    now destruct (param_get _ _ _).
  - destruct (nth_error (ps_objs s) j), (dget (ps_class s) k'); try easy.
    now destruct (param_set _ _ _ _ _).
  - destruct (dget (ps_class s) k'); [|easy]. cbn. rewrite dget_dset_neq; [easy|].
    intros ->. now apply (N b).
  - now destruct (nth_error (ps_objs s) j).
Qed.

Lemma fixed_never_changes h : forall s k d,
  dget (ps_class s) k = Some d -> pd_free d = false ->
  never_refixed k h -> no_norm_set h ->
  (forall i v x, In (PSet i k v, x) (combine h (fst (prun ge le s h))) ->
                 i < length (ps_objs s) -> x = Err RuntimeError) /\
  (forall i, reads ge le (snd (prun ge le s h)) i k = reads ge le s i k).
Proof.
  induction h as [|o h IH]; intros s k d D F NR NN.
  - split; [easy|]. easy.
  - apply no_norm_cons in NN. destruct NN as [N1 N2].
    rewrite prun_cons. cbn [fst snd combine].
    assert (NO : forall b, o <> PFix V k b).
    { intros b ->. apply (NR b). now left. }
    assert (NR' : never_refixed k h) by (intros b I; apply (NR b); now right).
    assert (HN1 : length (ps_objs (snd (pstep ge le s o))) = length (ps_objs s)).
    { pose proof (run_lengths [o] s) as RL. rewrite prun_cons in RL. exact RL. }
    destruct (IH (snd (pstep ge le s o)) k d (fixed_step s NO D) F NR' N2) as [I1 I2].
    assert (FAIL : forall i v, o = PSet i k v -> i < length (ps_objs s) ->
                   fst (pstep ge le s o) = Err RuntimeError).
    { intros i v -> L. cbn [pstep].
      apply nth_error_Some in L. destruct (nth_error (ps_objs s) i) as [ob|]; [|easy].
      rewrite D. pose proof (param_set_spec d k v ob) as P.
      destruct (param_set ge le d k v ob). cbn [fst] in *. subst.
      unfold set_check. now rewrite F. }
    split.
    + intros i v x [E|I] L.
      * injection E as E1 E2. subst x. now apply (FAIL i v).
      * apply (I1 i v x I). now rewrite HN1.
    + intros i. rewrite I2. rewrite !reads_effv.
      rewrite effv_step by easy.
      destruct o as [j k'|j k' w|k' b|j w]; try easy.
      destruct (fst (pstep ge le s (PSet j k' w))) eqn:EF; [|easy].
      destruct (Nat.eqb_spec j i) as [->|]; cbn [andb]; [|easy].
      destruct (String.eqb_spec k' k) as [->|]; [|easy].
      destruct (nth_error (ps_objs s) i) as [ob|] eqn:E.
      * assert (LI : i < length (ps_objs s)) by (apply nth_error_Some; now rewrite E).
        specialize (FAIL i w eq_refl LI). discriminate.
      * cbn [pstep] in EF. now rewrite E in EF.
Qed.

Lemma fix_sets_flag s k d b :
  dget (ps_class s) k = Some d ->
  exists d', dget (ps_class (snd (pstep ge le s (PFix V k b)))) k = Some d' /\
             pd_free d' = negb b /\ pd_default d' = pd_default d /\
             pd_vmin d' = pd_vmin d /\ pd_vmax d' = pd_vmax d.
Proof.
  intros D. cbn [pstep]. rewrite D. cbn [snd ps_class].
  exists (set_fix d b). rewrite dget_dset_eq. cbn. auto.
Qed.

(** C04 *)
Lemma meta_accepts_all (attrs : list (string * option pdecl)) : meta_new attrs = Ok tt.
Proof.
  unfold meta_new. induction attrs as [|[k [d|]] r IH]; cbn; auto.
  now rewrite andb_false_r.
Qed.

End Proofs.
