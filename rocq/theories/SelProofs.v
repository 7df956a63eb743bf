From Verif Require Import Base BaseFacts Env ParamModel SelModel SelSpec.
Open Scope string_scope.
Local Arguments read_par : simpl never.
Local Arguments bern_loop : simpl never.
Local Arguments bern_vec : simpl never.
Local Arguments bern_n : simpl never.
Local Arguments bern1 : simpl never.

Section Proofs.
Variable E : env.
Notation V := (V E).
Notation Rst := (Rst E).
Notation selector := (selector E).
Implicit Types (s : selector) (g : Rst).

(** ** reading parameters *)
Lemma read_par_is s g k b : par_is s k b ->
  exists o, read_par k (s, g) = (Ok b, (with_par s o, g)) /\
            (forall k2 b2, par_is s k2 b2 -> par_is (with_par s o) k2 b2).
Proof.
  intros (d & D & R). unfold read_par. rewrite D.
  destruct (param_get d k (s_par s)) as [r o] eqn:G. cbn in R. subst r.
  exists o. split; [easy|]. intros k2 b2 (d2 & D2 & R2). exists d2. cbn. split; [easy|].
  revert R2 G. unfold param_get.
  destruct (String.eqb_spec k2 k) as [->|N].
  - assert (d2 = d) by congruence. subst d2.
    unfold touch_norm. destruct (pd_norm d); cbn [po_store];
    (destruct (dget (po_store (s_par s)) k) as [[w|]|] eqn:Q;
     [intros H1 H2; injection H2 as -> <-; cbn [po_store]; rewrite Q; easy| |];
     (destruct (pd_default d) as [w|] eqn:Q2; [|discriminate]; intros H1 H2;
      injection H2 as -> <-; cbn [po_store]; rewrite dget_dset_eq; easy)).
  - assert (dget (po_store o) k2 = dget (po_store (s_par s)) k2 -> 
            fst (param_get d2 k2 (s_par s)) = Ok b2 ->
            fst (param_get d2 k2 o) = Ok b2) as K.
    { intros H. unfold param_get, touch_norm. destruct (pd_norm d2); cbn [po_store]; rewrite H;
      destruct (dget (po_store (s_par s)) k2) as [[w|]|]; cbn; auto; destruct (pd_default d2); auto. }
    intros H1 H2. apply K; [|exact H1].
    unfold touch_norm in H2.
    destruct (pd_norm d); cbn [po_store] in H2;
    (destruct (dget (po_store (s_par s)) k) as [[w|]|];
     [injection H2 as H2 <-; easy| |];
     (destruct (pd_default d) as [w|]; injection H2 as H2 <-; cbn [po_store]; now apply dget_dset_neq)).
Qed.

Lemma read_par_unset s g k : par_unset s k ->
  exists o, read_par k (s, g) = (Err AssertionError, (with_par s o, g)).
Proof.
  intros (d & D & R). unfold read_par. rewrite D.
  destruct (param_get d k (s_par s)) as [r o] eqn:G. cbn in R. subst r. eauto.
Qed.

Lemma read_par_frame s g k :
  exists r o, read_par k (s, g) = (r, (with_par s o, g)).
Proof.
  unfold read_par. destruct (dget _ k).
  - destruct (param_get _ _ _) as [r o]. eauto.
  - exists (Err AttributeError), (s_par s). now destruct s.
Qed.

Lemma selects_on_source s v : selects_on s v -> values_source s = Ok v.
Proof.
  unfold selects_on, values_source.
  intros [[-> ->]|[(-> & -> & ->)|[(-> & -> & -> & ->)|(-> & -> & -> & -> & ->)]]]; easy.
Qed.

Lemma selects_on_total s : no_flag s \/ exists v, selects_on s v.
Proof.
  unfold no_flag, selects_on.
  destruct (s_fflux s); [right; eauto|].
  destruct (s_flum s); [right; eauto 6|].
  destruct (s_fobs s); [right; eauto 8|].
  destruct (s_fdist s); [right; eauto 12|]. left; auto.
Qed.

Lemma mask_is_map (f : V -> bool) v : mask_is (map f v) v (fun x => f x = true).
Proof.
  split; [apply map_length|]. intros i x H. rewrite nth_error_map, H. cbn.
  split; congruence.
Qed.

Lemma mask_is_map2 (op : bool -> bool -> bool) (f h : V -> bool) v :
  mask_is (map (fun p => op (fst p) (snd p)) (combine (map f v) (map h v))) v
          (fun x => op (f x) (h x) = true).
Proof.
  split; [rewrite map_length, combine_length, !map_length; lia|].
  intros i x H. rewrite nth_map_combine, !nth_error_map, H. cbn. split; congruence.
Qed.

(** ** C05 *)
Lemma lower_draw progress size s g v b :
  s_kind s = KLower E -> selects_on s (Some v) -> par_is s "boundary" b ->
  draws progress size s g (map (fun x => vle E b x) v) g.
Proof.
  intros K S P. unfold draws, sel_draw, bind, here, gets. cbn [fst]. rewrite K.
  rewrite (selects_on_source _ _ S). cbn [lift].
  destruct (read_par_is _ g _ _ P) as (o & -> & _). cbn. eexists; split; reflexivity.
Qed.

Lemma upper_draw progress size s g v b :
  s_kind s = KUpper E -> selects_on s (Some v) -> par_is s "boundary" b ->
  draws progress size s g (map (fun x => vle E x b) v) g.
Proof.
  intros K S P. unfold draws, sel_draw, bind, here, gets. cbn [fst]. rewrite K.
  rewrite (selects_on_source _ _ S). cbn [lift].
  destruct (read_par_is _ g _ _ P) as (o & -> & _). cbn. eexists; split; reflexivity.
Qed.

Lemma box_draw progress size s g v lo hi :
  s_kind s = KBox E -> selects_on s (Some v) -> par_is s "vmin" lo -> par_is s "vmax" hi ->
  draws progress size s g
    (map (fun p => andb (fst p) (snd p)) (combine (map (fun x => vle E lo x) v) (map (fun x => vle E x hi) v))) g.
Proof.
  intros K S P1 P2. unfold draws, sel_draw, bind, here, gets. cbn [fst]. rewrite K.
  rewrite (selects_on_source _ _ S). cbn [lift].
  destruct (read_par_is _ g _ _ P1) as (o & -> & F). cbn.
  destruct (read_par_is _ g _ _ (F _ _ P2)) as (o2 & -> & _). cbn.
  rewrite bcast2_same by now rewrite !map_length. cbn. eexists; split; reflexivity.
Qed.

Lemma draws_fun p n s g m g' m2 g2 :
  draws p n s g m g' -> draws p n s g m2 g2 -> m = m2 /\ g' = g2.
Proof. intros (s1 & H1 & M1) (s2 & H2 & M2). rewrite H1 in H2. injection H2 as <- <-. split; congruence. Qed.

Lemma lower_exact progress size s g v b :
  s_kind s = KLower E -> selects_on s (Some v) -> par_is s "boundary" b ->
  exists m, draws progress size s g m g /\ mask_is m v (fun x => vle E b x = true).
Proof.
  intros. eexists. split; [eapply lower_draw; eassumption|]. apply (mask_is_map (fun x => vle E b x)).
Qed.

Lemma upper_exact progress size s g v b :
  s_kind s = KUpper E -> selects_on s (Some v) -> par_is s "boundary" b ->
  exists m, draws progress size s g m g /\ mask_is m v (fun x => vle E x b = true).
Proof.
  intros. eexists. split; [eapply upper_draw; eassumption|]. apply (mask_is_map (fun x => vle E x b)).
Qed.

Lemma box_exact progress size s g v lo hi :
  s_kind s = KBox E -> selects_on s (Some v) -> par_is s "vmin" lo -> par_is s "vmax" hi ->
  exists m, draws progress size s g m g /\
            mask_is m v (fun x => vle E lo x = true /\ vle E x hi = true).
Proof.
  intros. eexists. split; [eapply box_draw; eassumption|].
  destruct (mask_is_map2 andb (fun x => vle E lo x) (fun x => vle E x hi) v) as [L P].
  split; [easy|]. intros i x I. rewrite (P i x I). apply andb_true_iff.
Qed.

Definition bound_kind s := s_kind s = KLower E \/ s_kind s = KUpper E \/ s_kind s = KBox E.

(** The error branches. *)
Lemma bound_no_flag progress size s g :
  bound_kind s -> no_flag s -> sel_draw progress size (s, g) = (Err NameError, (s, g)).
Proof.
  intros K (F1 & F2 & F3 & F4). unfold sel_draw, bind, here, gets, values_source. cbn [fst].
  destruct K as [->|[->| ->]]; rewrite F1, F2, F3, F4; reflexivity.
Qed.

Lemma bound_failure_keeps_mask progress size s g e s' g' :
  bound_kind s -> sel_draw progress size (s, g) = (Err e, (s', g')) -> s_mask s' = s_mask s /\ g' = g.
Proof.
  intros K. unfold sel_draw, bind, here, gets. cbn [fst].
  destruct (values_source s) as [vs|e0] eqn:VS.
  2:{ destruct K as [->|[->| ->]]; cbn; intros H; injection H as _ <- <-; auto. }
  destruct K as [->|[->| ->]]; cbn [lift].
  - destruct (read_par_frame s g "boundary") as (r & o & ->).
    destruct r; [|intros H; injection H as _ <- <-; auto].
    destruct vs; cbn; intros H; [discriminate|injection H as _ <- <-; auto].
  - destruct (read_par_frame s g "boundary") as (r & o & ->).
    destruct r; [|intros H; injection H as _ <- <-; auto].
    destruct vs; cbn; intros H; [discriminate|injection H as _ <- <-; auto].
  - destruct (read_par_frame s g "vmin") as (r & o & ->).
    destruct r; [|intros H; injection H as _ <- <-; auto].
    destruct vs as [l|]; cbn [np_ge np_le lift]; [|intros H; injection H as _ <- <-; auto].
    destruct (read_par_frame (with_par s o) g "vmax") as (r2 & o2 & ->).
    destruct r2; [|intros H; injection H as _ <- <-; auto].
    rewrite bcast2_same by now rewrite !map_length. cbn. discriminate.
Qed.

Lemma lower_upper_errors progress size s g :
  s_kind s = KLower E \/ s_kind s = KUpper E ->
  (forall v, selects_on s v -> par_unset s "boundary" ->
     fst (sel_draw progress size (s, g)) = Err AssertionError) /\
  (forall b, selects_on s None -> par_is s "boundary" b ->
     fst (sel_draw progress size (s, g)) = Err TypeError).
Proof.
  intros K. split.
  - intros v S P. unfold sel_draw, bind, here, gets. cbn [fst].
    apply selects_on_source in S. destruct (read_par_unset _ g _ P) as (o & R).
    destruct K as [->| ->]; rewrite S; cbn [lift]; rewrite R; reflexivity.
  - intros b S P. unfold sel_draw, bind, here, gets. cbn [fst].
    apply selects_on_source in S. destruct (read_par_is _ g _ _ P) as (o & R & _).
    destruct K as [->| ->]; rewrite S; cbn [lift]; rewrite R; reflexivity.
Qed.

(** ** C06 *)
Definition mask_subset (m1 m2 : list bool) : Prop :=
  forall i, nth_error m1 i = Some true -> nth_error m2 i = Some true.

Lemma mask_is_subset A (v : list A) m1 m2 (P1 P2 : A -> Prop) :
  mask_is m1 v P1 -> mask_is m2 v P2 -> (forall x, P1 x -> P2 x) -> mask_subset m1 m2.
Proof.
  intros [L1 H1] [L2 H2] I i H.
  destruct (nth_error v i) as [x|] eqn:Q.
  - apply (H2 i x Q). apply I. now apply (H1 i x Q).
  - apply nth_error_None in Q. rewrite <- L1 in Q. apply nth_error_None in Q. congruence.
Qed.

Definition le_trans := forall a b c : V, vle E a b = true -> vle E b c = true -> vle E a c = true.

Lemma lower_monotone progress size s1 s2 g v b1 b2 m1 m2 :
  le_trans ->
  s_kind s1 = KLower E -> s_kind s2 = KLower E ->
  selects_on s1 (Some v) -> selects_on s2 (Some v) ->
  par_is s1 "boundary" b1 -> par_is s2 "boundary" b2 -> vle E b1 b2 = true ->
  draws progress size s1 g m1 g -> draws progress size s2 g m2 g -> mask_subset m2 m1.
Proof.
  intros T K1 K2 S1 S2 P1 P2 L D1 D2.
  destruct (lower_exact progress size _ g _ _ K1 S1 P1) as (x1 & E1 & M1).
  destruct (lower_exact progress size _ g _ _ K2 S2 P2) as (x2 & E2 & M2).
  destruct (draws_fun _ _ _ _ _ _ _ _ D1 E1) as [-> _].
  destruct (draws_fun _ _ _ _ _ _ _ _ D2 E2) as [-> _].
  apply (mask_is_subset _ _ _ _ _ _ M2 M1). cbn. intros x X. eapply T; eauto.
Qed.

Lemma upper_monotone progress size s1 s2 g v b1 b2 m1 m2 :
  le_trans ->
  s_kind s1 = KUpper E -> s_kind s2 = KUpper E ->
  selects_on s1 (Some v) -> selects_on s2 (Some v) ->
  par_is s1 "boundary" b1 -> par_is s2 "boundary" b2 -> vle E b2 b1 = true ->
  draws progress size s1 g m1 g -> draws progress size s2 g m2 g -> mask_subset m2 m1.
Proof.
  intros T K1 K2 S1 S2 P1 P2 L D1 D2.
  destruct (upper_exact progress size _ g _ _ K1 S1 P1) as (x1 & E1 & M1).
  destruct (upper_exact progress size _ g _ _ K2 S2 P2) as (x2 & E2 & M2).
  destruct (draws_fun _ _ _ _ _ _ _ _ D1 E1) as [-> _].
  destruct (draws_fun _ _ _ _ _ _ _ _ D2 E2) as [-> _].
  apply (mask_is_subset _ _ _ _ _ _ M2 M1). cbn. intros x X. eapply T; eauto.
Qed.

Lemma box_monotone progress size s1 s2 g v lo1 hi1 lo2 hi2 m1 m2 :
  le_trans ->
  s_kind s1 = KBox E -> s_kind s2 = KBox E ->
  selects_on s1 (Some v) -> selects_on s2 (Some v) ->
  par_is s1 "vmin" lo1 -> par_is s1 "vmax" hi1 -> par_is s2 "vmin" lo2 -> par_is s2 "vmax" hi2 ->
  vle E lo1 lo2 = true -> vle E hi2 hi1 = true ->
  draws progress size s1 g m1 g -> draws progress size s2 g m2 g -> mask_subset m2 m1.
Proof.
  intros T K1 K2 S1 S2 P1 Q1 P2 Q2 L H D1 D2.
  destruct (box_exact progress size _ g _ _ _ K1 S1 P1 Q1) as (x1 & E1 & M1).
  destruct (box_exact progress size _ g _ _ _ K2 S2 P2 Q2) as (x2 & E2 & M2).
  destruct (draws_fun _ _ _ _ _ _ _ _ D1 E1) as [-> _].
  destruct (draws_fun _ _ _ _ _ _ _ _ D2 E2) as [-> _].
  apply (mask_is_subset _ _ _ _ _ _ M2 M1). cbn. intros x [X1 X2]. split; eapply T; eauto.
Qed.

(** ** C07 *)
Lemma add_and s1 s2 m1 m2 :
  s_mask s1 = Some m1 -> s_mask s2 = Some m2 -> length m1 = length m2 ->
  exists t m, sel_add s1 s2 = Ok t /\ s_mask t = Some m /\ length m = length m1 /\
    forall i b1 b2, nth_error m1 i = Some b1 -> nth_error m2 i = Some b2 ->
                    nth_error m i = Some (b1 && b2).
Proof.
  intros H1 H2 L. unfold sel_add, sel_selection, np_logical_and. rewrite H1, H2. cbn.
  rewrite bcast2_same by easy. cbn. do 2 eexists. repeat split.
  - rewrite map_length, combine_length. lia.
  - intros i b1 b2 B1 B2. now rewrite nth_map_combine, B1, B2.
Qed.

Lemma bcast_and_comm (a b : list bool) : bcast2 andb a b = bcast2 andb b a.
Proof.
  assert (K : forall a b : list bool, map (fun p => fst p && snd p) (combine a b)
                        = map (fun p => fst p && snd p) (combine b a)).
  { clear. induction a as [|x r IH]; intros [|y q]; cbn; auto. now rewrite IH, andb_comm. }
  unfold bcast2. rewrite (Nat.eqb_sym (length b)).
  destruct (Nat.eqb (length a) (length b)) eqn:L.
  - now rewrite K.
  - destruct a as [|x [|x2 a]], b as [|y [|y2 b]]; cbn in *; try easy; f_equal; f_equal;
    try apply andb_comm; try (f_equal; try apply andb_comm); apply map_ext; intros; apply andb_comm.
Qed.

Lemma add_comm s1 s2 m1 m2 :
  s_mask s1 = Some m1 -> s_mask s2 = Some m2 -> sel_add s1 s2 = sel_add s2 s1.
Proof.
  intros H1 H2. unfold sel_add, sel_selection, np_logical_and. rewrite H1, H2. cbn.
  now rewrite bcast_and_comm.
Qed.

Lemma map_and_assoc (a b c : list bool) :
  map (fun p => fst p && snd p) (combine (map (fun p => fst p && snd p) (combine a b)) c) =
  map (fun p => fst p && snd p) (combine a (map (fun p => fst p && snd p) (combine b c))).
Proof.
  revert b c; induction a as [|x a IH]; intros [|y b] [|z c]; cbn; auto.
  now rewrite IH, andb_assoc.
Qed.

Lemma add_assoc s1 s2 s3 m1 m2 m3 :
  s_mask s1 = Some m1 -> s_mask s2 = Some m2 -> s_mask s3 = Some m3 ->
  length m1 = length m2 -> length m2 = length m3 ->
  (let? t := sel_add s1 s2 in sel_add t s3) = (let? t := sel_add s2 s3 in sel_add s1 t).
Proof.
  intros H1 H2 H3 L1 L2. unfold sel_add, sel_selection, np_logical_and. rewrite H1, H2, H3. cbn.
  rewrite !bcast2_same by easy. cbn.
  rewrite !bcast2_same; cbn.
  - now rewrite map_and_assoc.
  - rewrite map_length, combine_length. lia.
  - rewrite map_length, combine_length. lia.
Qed.

Lemma add_idem s m : s_mask s = Some m ->
  exists t, sel_add s s = Ok t /\ s_mask t = Some m.
Proof.
  intros H. unfold sel_add, sel_selection, np_logical_and. rewrite H. cbn.
  rewrite bcast2_same by easy. cbn. eexists. split; [reflexivity|]. cbn. f_equal.
  clear H. induction m as [|b m IH]; cbn; auto. now rewrite IH, andb_diag.
Qed.

Lemma add_mismatch s1 s2 m1 m2 :
  s_mask s1 = Some m1 -> s_mask s2 = Some m2 ->
  length m1 <> length m2 -> length m1 <> 1 -> length m2 <> 1 ->
  sel_add s1 s2 = Err ValueError.
Proof.
  intros H1 H2 L N1 N2. unfold sel_add, sel_selection, np_logical_and, bcast2. rewrite H1, H2. cbn.
  destruct (Nat.eqb_spec (length m1) (length m2)); [easy|].
  destruct m1 as [|x [|y m1]], m2 as [|u [|w m2]]; cbn in *; try easy; lia.
Qed.

Lemma add_unsampled_right s1 s2 : s_mask s2 = None -> sel_add s1 s2 = Err RuntimeError.
Proof. intros H. unfold sel_add, sel_selection. now rewrite H. Qed.

(** A mask of length one is silently repeated. *)
Lemma add_broadcast s1 s2 m1 b :
  s_mask s1 = Some m1 -> s_mask s2 = Some [b] ->
  exists t, sel_add s1 s2 = Ok t /\ s_mask t = Some (map (fun x => x && b) m1).
Proof.
  intros H1 H2. unfold sel_add, sel_selection, np_logical_and, bcast2. rewrite H1, H2. cbn.
  destruct m1 as [|x [|y m1]]; cbn; eauto.
Qed.

(** Sums of any number of selectors. *)
Lemma sum_is_forall l : forall s m,
  s_mask s = Some m ->
  (forall t, In t l -> exists mt, s_mask t = Some mt /\ length mt = length m) ->
  exists u mu, sel_sum s l = Ok u /\ s_mask u = Some mu /\ length mu = length m /\
    forall i, nth_error mu i = Some true <->
              nth_error m i = Some true /\
              forall t mt, In t l -> s_mask t = Some mt -> nth_error mt i = Some true.
Proof.
  induction l as [|t l IH]; intros s m H HL; cbn [sel_sum].
  - exists s, m. split; [easy|]. split; [easy|]. split; [easy|].
    intros i. split; [intros I; split; [easy|intros t mt []]|now intros [I _]].
  - destruct (HL t (or_introl eq_refl)) as (mt & Ht & Lt).
    destruct (add_and s t m mt H Ht (eq_sym Lt)) as (u & mu & -> & Hu & Lu & Pu).
    cbn [rbind].
    destruct (IH u mu Hu) as (w & mw & -> & Hw & Lw & Pw).
    { intros t' I. destruct (HL t' (or_intror I)) as (m' & A & B). exists m'. split; auto. lia. }
    exists w, mw. split; [easy|]. split; [easy|]. split; [lia|].
    intros i. split; [intros H0; split|].
    + rewrite Pw in H0. destruct H0 as [A B].
      destruct (nth_error m i) as [b1|] eqn:Q1.
      * destruct (nth_error mt i) as [b2|] eqn:Q2.
        -- rewrite (Pu i b1 b2 Q1 Q2) in A. injection A as A. now apply andb_true_iff in A as [-> _].
        -- apply nth_error_None in Q2. assert (i < length m) by (apply nth_error_Some; congruence). lia.
      * apply nth_error_None in Q1. rewrite <- Lu in Q1. apply nth_error_None in Q1. congruence.
    + rewrite Pw in H0. destruct H0 as [A B].
      intros t' mt' [->|I] Ht'; [|now apply (B t' mt' I Ht')].
      assert (mt' = mt) by congruence. subst mt'.
      destruct (nth_error mt i) as [b2|] eqn:Q2.
      * destruct (nth_error m i) as [b1|] eqn:Q1.
        -- rewrite (Pu i b1 b2 Q1 Q2) in A. injection A as A. now apply andb_true_iff in A as [_ ->].
        -- apply nth_error_None in Q1. assert (i < length mt) by (apply nth_error_Some; congruence). lia.
      * apply nth_error_None in Q2. rewrite Lt, <- Lu in Q2. apply nth_error_None in Q2. congruence.
    + intros [A B]. rewrite Pw. split.
      * rewrite (Pu i true true A (B t mt (or_introl eq_refl) Ht)). easy.
      * intros t' mt' I Ht'. apply (B t' mt'); auto. now right.
Qed.

(** ** C08 *)
Lemma select_sampled p n s g m :
  s_sampled s = true -> s_mask s = Some m -> sel_select p n (s, g) = (Ok tt, (s, g)).
Proof.
  intros S H. unfold sel_select, bind, here, gets. cbn [fst]. rewrite S. cbn. rewrite H.
  unfold with_sampled. destruct s; cbn in *; subst. easy.
Qed.

Lemma step_no_reset o s g m :
  o <> OReset E -> s_sampled s = true -> s_mask s = Some m ->
  let st := snd (selstep o (s, g)) in
  s_sampled (fst st) = true /\ s_mask (fst st) = Some m /\ snd st = g.
Proof.
  intros N S H. destruct o as [p n|l|l|l|l|]; try easy.
  cbn [selstep]. now rewrite (select_sampled p n s g m S H).
Qed.

Lemma history_no_reset h : forall s g m,
  ~ In (OReset E) h -> s_sampled s = true -> s_mask s = Some m ->
  s_mask (fst (selrun h (s, g))) = Some m /\ snd (selrun h (s, g)) = g.
Proof.
  induction h as [|o h IH]; intros s g m NI S H; [easy|]. cbn [selrun].
  assert (N : o <> OReset E) by (intros ->; apply NI; now left).
  destruct (step_no_reset o s g m N S H) as (S1 & H1 & G1).
  destruct (snd (selstep o (s, g))) as [s1 g1]. cbn in *. subst g1.
  apply IH; auto.
Qed.

Lemma select_ok_sampled p n s g s' g' :
  sel_select p n (s, g) = (Ok tt, (s', g')) -> s_sampled s' = true /\ exists m, s_mask s' = Some m.
Proof.
  unfold sel_select, bind, here, gets. cbn [fst].
  destruct (s_sampled s) eqn:S; cbn [ret fst].
  - destruct (s_mask s) eqn:H; [|discriminate]. intros Q. injection Q as <- <-. cbn. eauto.
  - destruct (sel_draw p n (s, g)) as [[[]|e] [s1 g1]]; [|discriminate]. cbn.
    destruct (s_mask s1) eqn:H; [|discriminate]. intros Q. injection Q as <- <-. cbn. eauto.
Qed.

Lemma reset_selection p n s g s' g' :
  sel_select p n (s, g) = (Ok tt, (s', g')) -> sel_selection (sel_reset s') = Err RuntimeError.
Proof.
  intros H. apply select_ok_sampled in H. destruct H as [S _].
  unfold sel_reset, sel_selection. now rewrite S.
Qed.

Lemma select_after_reset s g p n :
  s_sampled s = true -> sel_select p n (sel_reset s, g) = sel_select p n (new_like s, g).
Proof.
  intros S. unfold sel_reset. rewrite S. reflexivity.
Qed.

(** ** C09 *)
Lemma where_sorted i m : StronglySorted lt (where_from i m).
Proof.
  revert i; induction m as [|b m IH]; intros i; cbn; [constructor|].
  destruct b; [|apply IH]. constructor; [apply IH|].
  apply Forall_forall. intros j I. apply In_where_from in I. lia.
Qed.

Lemma counts s m : s_mask s = Some m ->
  exists a b, n_selected s = Ok a /\ n_non_selected s = Ok b /\ n_objects s = Ok (length m) /\
              a + b = length m.
Proof.
  intros H. unfold n_selected, n_non_selected, n_objects, sel_mask. rewrite H. cbn.
  do 2 eexists. repeat split. apply count_mnot.
Qed.

Lemma indices s m : s_mask s = Some m ->
  exists a b, selection_index s = Ok a /\ non_selection_index s = Ok b /\
    StronglySorted lt a /\ StronglySorted lt b /\
    n_selected s = Ok (length a) /\ n_non_selected s = Ok (length b) /\
    (forall i, In i a <-> nth_error m i = Some true) /\
    (forall i, In i b <-> nth_error m i = Some false).
Proof.
  intros H. unfold selection_index, non_selection_index, n_selected, n_non_selected, sel_mask.
  rewrite H. cbn. do 2 eexists. repeat split; try apply where_sorted; try apply In_np_where.
  - now rewrite np_where_length.
  - now rewrite np_where_length.
  - intros I. apply In_np_where in I. rewrite nth_error_mnot in I.
    destruct (nth_error m i) as [[|]|]; cbn in I; congruence.
  - intros I. apply In_np_where. now rewrite nth_error_mnot, I.
Qed.

(** ** C10 *)
Lemma distance_exact progress size s g p lo hi :
  s_kind s = KDistance E -> d_sp (s_data s) = Some p ->
  par_is s "min_distance" lo -> par_is s "max_distance" hi ->
  exists m, draws progress size s g m g /\
            mask_is m (sv_dist p) (fun r => vle E lo r = true /\ vle E r hi = true).
Proof.
  intros K D P1 P2. unfold draws, sel_draw, bind, here, gets. cbn [fst]. rewrite K, D. cbn [of_opt lift].
  destruct (read_par_is _ g _ _ P1) as (o & -> & F). cbn.
  destruct (read_par_is _ g _ _ (F _ _ P2)) as (o2 & -> & _). cbn.
  rewrite bcast2_same by now rewrite !map_length. cbn.
  eexists. split; [eexists; split; reflexivity|].
  destruct (mask_is_map2 andb (fun x => vle E lo x) (fun x => vle E x hi) (sv_dist p)) as [L P].
  split; [easy|]. intros i x I. rewrite (P i x I). apply andb_true_iff.
Qed.

Lemma galactic_exact progress size s g p lim :
  s_kind s = KGalactic E -> d_sp (s_data s) = Some p -> par_is s "b_limit" lim ->
  exists m, draws progress size s g m g /\
    mask_is m (combine (sv_ra p) (sv_dec p))
      (fun q => vle E lim (gal_b E (fst q) (snd q)) = true \/
                vle E (gal_b E (fst q) (snd q)) (vsub E (vofnat E 0) lim) = true).
Proof.
  intros K D P. unfold draws, sel_draw, bind, here, gets. cbn [fst]. rewrite K, D. cbn [of_opt lift].
  destruct (read_par_is _ g _ _ P) as (o & -> & F). cbn.
  destruct (read_par_is _ g _ _ (F _ _ P)) as (o2 & -> & _). cbn.
  rewrite bcast2_same by now rewrite !map_length. cbn.
  eexists. split; [eexists; split; reflexivity|].
  set (q := map (fun q => gal_b E (fst q) (snd q)) (combine (sv_ra p) (sv_dec p))).
  destruct (mask_is_map2 orb (fun b => vle E lim b) (fun b => vle E b (vsub E (vofnat E 0) lim)) q) as [L H].
  split; [rewrite L; apply map_length|].
  intros i x I. rewrite (H i (gal_b E (fst x) (snd x))).
  - apply orb_true_iff.
  - unfold q. now rewrite nth_error_map, I.
Qed.

Lemma distance_monotone progress size s1 s2 g p lo1 hi1 lo2 hi2 m1 m2 :
  le_trans ->
  s_kind s1 = KDistance E -> s_kind s2 = KDistance E ->
  d_sp (s_data s1) = Some p -> d_sp (s_data s2) = Some p ->
  par_is s1 "min_distance" lo1 -> par_is s1 "max_distance" hi1 ->
  par_is s2 "min_distance" lo2 -> par_is s2 "max_distance" hi2 ->
  vle E lo1 lo2 = true -> vle E hi2 hi1 = true ->
  draws progress size s1 g m1 g -> draws progress size s2 g m2 g -> mask_subset m2 m1.
Proof.
  intros T K1 K2 S1 S2 P1 Q1 P2 Q2 L H D1 D2.
  destruct (distance_exact progress size _ g _ _ _ K1 S1 P1 Q1) as (x1 & E1 & M1).
  destruct (distance_exact progress size _ g _ _ _ K2 S2 P2 Q2) as (x2 & E2 & M2).
  destruct (draws_fun _ _ _ _ _ _ _ _ D1 E1) as [-> _].
  destruct (draws_fun _ _ _ _ _ _ _ _ D2 E2) as [-> _].
  apply (mask_is_subset _ _ _ _ _ _ M2 M1). cbn. intros x [X1 X2]. split; eapply T; eauto.
Qed.

Lemma galactic_monotone progress size s1 s2 g p l1 l2 m1 m2 :
  le_trans ->
  s_kind s1 = KGalactic E -> s_kind s2 = KGalactic E ->
  d_sp (s_data s1) = Some p -> d_sp (s_data s2) = Some p ->
  par_is s1 "b_limit" l1 -> par_is s2 "b_limit" l2 ->
  vle E l1 l2 = true -> vle E (vsub E (vofnat E 0) l2) (vsub E (vofnat E 0) l1) = true ->
  draws progress size s1 g m1 g -> draws progress size s2 g m2 g -> mask_subset m2 m1.
Proof.
  intros T K1 K2 S1 S2 P1 P2 L H D1 D2.
  destruct (galactic_exact progress size _ g _ _ K1 S1 P1) as (x1 & E1 & M1).
  destruct (galactic_exact progress size _ g _ _ K2 S2 P2) as (x2 & E2 & M2).
  destruct (draws_fun _ _ _ _ _ _ _ _ D1 E1) as [-> _].
  destruct (draws_fun _ _ _ _ _ _ _ _ D2 E2) as [-> _].
  apply (mask_is_subset _ _ _ _ _ _ M2 M1). cbn. intros x [X|X]; [left|right]; eapply T; eauto.
Qed.

(** ** C11 *)
Lemma unity_exact progress size s g : s_kind s = KUnity E ->
  draws progress size s g (repeat true size) g.
Proof.
  intros K. unfold draws, sel_draw, bind, here, gets. cbn [fst]. rewrite K. cbn. eexists; split; reflexivity.
Qed.

Lemma bern_loop_draws n : forall s g p,
  s_kind s = KBernoulli E -> par_is s "probability" p -> r_bern_ok E p = true ->
  exists o, bern_loop n (s, g) =
    (Ok (fst (rdraws (r_bern E p) n g)), (with_par s o, snd (rdraws (r_bern E p) n g))).
Proof.
  induction n as [|n IH]; intros s g p K P B.
  - exists (s_par s). cbn. now destruct s.
  - destruct (read_par_is _ g _ _ P) as (o & RP & F).
    unfold bern_loop in *. cbn [repeatM rdraws].
    destruct (r_bern E p g) as [b g1] eqn:RB.
    erewrite bind_ok.
    2:{ erewrite bind_ok; [|exact RP]. unfold bern1. cbn [snd fst]. rewrite B, RB. reflexivity. }
    destruct (IH (with_par s o) g1 p K (F _ _ P) B) as (o2 & R).
    erewrite bind_ok; [|exact R].
    destruct (rdraws (r_bern E p) n g1) as [bs g2]. cbn. eexists. reflexivity.
Qed.

Lemma bernoulli_paths size s g p :
  s_kind s = KBernoulli E -> par_is s "probability" p -> r_bern_ok E p = true ->
  let r := rdraws (r_bern E p) size g in
  draws true size s g (fst r) (snd r) /\ draws false size s g (fst r) (snd r) /\
  length (fst r) = size.
Proof.
  intros K P B. cbn zeta. split; [|split].
  - unfold draws, sel_draw, bind, here, gets. cbn [fst]. rewrite K.
    assert (K1 : s_kind (with_mask s (Some (repeat false size))) = KBernoulli E) by easy.
    assert (P1 : par_is (with_mask s (Some (repeat false size))) "probability" p) by exact P.
    destruct (bern_loop_draws size (with_mask s (Some (repeat false size))) g p K1 P1 B) as (o & R).
    cbn [store_mask fst snd]. rewrite R. cbn. eexists; split; reflexivity.
  - unfold draws, sel_draw, bind, here, gets. cbn [fst]. rewrite K.
    destruct (read_par_is _ g _ _ P) as (o & -> & F).
    unfold bern_n. cbn [snd fst]. rewrite B.
    destruct (rdraws (r_bern E p) size g) as [bs g2]. cbn. eexists; split; reflexivity.
  - apply rdraws_length.
Qed.

(** One draw per value with the soft probability of that value. *)
Lemma soft_draws progress size s g v k b :
  s_kind s = KSoft E -> selects_on s (Some v) -> par_is s "strength" k -> par_is s "boundary" b ->
  (forall x, In x v -> r_bern_ok E (vexpit E (vmul E k (vsub E (vlog10 E x) (vlog10 E b)))) = true) ->
  let r := rmapdraws (r_bern E) (map (fun x => vexpit E (vmul E k (vsub E (vlog10 E x) (vlog10 E b)))) v) g in
  draws progress size s g (fst r) (snd r) /\ length (fst r) = length v.
Proof.
  intros K S P1 P2 B. cbn zeta. split.
  - unfold draws, sel_draw, bind, here, gets. cbn [fst]. rewrite K.
    rewrite (selects_on_source _ _ S). cbn [lift].
    destruct (read_par_is _ g _ _ P1) as (o & -> & F). cbn.
    destruct (read_par_is _ g _ _ (F _ _ P2)) as (o2 & -> & _). cbn.
    unfold bern_vec. cbn [fst snd].
    rewrite (proj2 (forallb_forall _ _)).
    + destruct (rmapdraws _ _ g) as [bs g2]. cbn. eexists; split; reflexivity.
    + intros y I. apply in_map_iff in I. destruct I as (x & <- & I). now apply B.
  - now rewrite rmapdraws_length, map_length.
Qed.

(** Every library selector produces a mask of the right length. *)
Lemma draw_mask_length progress size s g s' g' m :
  (forall b f, s_kind s <> KUser b f) -> s_kind s <> KDummy E ->
  sel_draw progress size (s, g) = (Ok tt, (s', g')) -> s_mask s' = Some m ->
  match s_kind s with
  | KUnity _ | KBernoulli _ => length m = size
  | KGalactic _ => exists p, d_sp (s_data s) = Some p /\ length m = length (combine (sv_ra p) (sv_dec p))
  | KDistance _ => exists p, d_sp (s_data s) = Some p /\ length m = length (sv_dist p)
  | _ => exists v, selects_on s (Some v) /\ length m = length v
  end.
Proof.
  intros NU ND. unfold sel_draw, bind, here, gets. cbn [fst].
  assert (SRC : forall vs, values_source s = Ok vs -> selects_on s vs).
  { intros vs. unfold values_source, selects_on.
    destruct (s_fflux s); [intros H; injection H as <-; auto|].
    destruct (s_flum s); [intros H; injection H as <-; auto 8|].
    destruct (s_fobs s); [intros H; injection H as <-; auto 10|].
    destruct (s_fdist s); [intros H; injection H as <-; auto 12|]. discriminate. }
  destruct (s_kind s) eqn:K; try (exfalso; eapply NU; reflexivity); try easy.
  - cbn. intros H. injection H as <- <-. cbn. intros H. injection H as <-. apply repeat_length.
  - destruct progress.
    + cbn [store_mask fst snd].
      destruct (bern_loop size _) as [[bs|] st] eqn:R; [|discriminate].
      cbn. intros H. injection H as <- <-. cbn. intros H. injection H as <-.
      revert R. unfold bern_loop. generalize (with_mask s (Some (repeat false size)), g).
      clear. revert bs st. induction size as [|n IH]; intros bs st q.
      * cbn. intros H. now injection H as <- <-.
      * cbn [repeatM]. unfold bind at 1.
        destruct (bind _ _ q) as [[x|] q1]; [|discriminate].
        unfold bind. destruct (repeatM _ n q1) as [[xs|] q2] eqn:R2; [|discriminate].
        intros H. injection H as <- _. cbn. now rewrite (IH _ _ _ R2).
    + destruct (read_par_frame s g "probability") as (r & o & ->).
      destruct r as [p|]; [|discriminate]. unfold bern_n. cbn [fst snd].
      destruct (r_bern_ok E p); [|discriminate].
      pose proof (rdraws_length (r_bern E p) size g) as LN.
      destruct (rdraws (r_bern E p) size g) as [bs g2]. cbn in *.
      intros H. injection H as <- <-. cbn. intros H. injection H as <-. easy.
  - destruct (values_source s) as [vs|] eqn:VS; [|discriminate]. cbn [lift].
    destruct (read_par_frame s g "vmin") as (r & o & ->). destruct r; [|discriminate].
    destruct vs as [l|]; [|discriminate]. cbn [np_ge np_le lift].
    destruct (read_par_frame (with_par s o) g "vmax") as (r2 & o2 & ->). destruct r2; [|discriminate].
    rewrite bcast2_same by now rewrite !map_length. cbn.
    intros H. injection H as <- <-. cbn. intros H. injection H as <-.
    exists l. split; [auto|]. rewrite map_length, combine_length, !map_length. lia.
  - destruct (values_source s) as [vs|] eqn:VS; [|discriminate]. cbn [lift].
    destruct (read_par_frame s g "boundary") as (r & o & ->). destruct r; [|discriminate].
    destruct vs as [l|]; [|discriminate]. cbn.
    intros H. injection H as <- <-. cbn. intros H. injection H as <-.
    exists l. split; [auto|]. apply map_length.
  - destruct (values_source s) as [vs|] eqn:VS; [|discriminate]. cbn [lift].
    destruct (read_par_frame s g "boundary") as (r & o & ->). destruct r; [|discriminate].
    destruct vs as [l|]; [|discriminate]. cbn.
    intros H. injection H as <- <-. cbn. intros H. injection H as <-.
    exists l. split; [auto|]. apply map_length.
  - destruct (values_source s) as [vs|] eqn:VS; [|discriminate]. cbn [lift].
    destruct (read_par_frame s g "strength") as (r & o & ->). destruct r; [|discriminate].
    destruct vs as [l|]; [|discriminate]. cbn [of_opt].
    destruct (read_par_frame (with_par s o) g "boundary") as (r2 & o2 & ->). destruct r2; [|discriminate].
    unfold bern_vec. cbn [fst snd].
    destruct (forallb _ _); [|discriminate].
    match goal with |- context [rmapdraws ?f ?l ?g] =>
      pose proof (rmapdraws_length f l g) as LN; destruct (rmapdraws f l g) as [bs g2] end.
    cbn in *. intros H. injection H as <- <-. cbn. intros H. injection H as <-.
    exists l. split; [auto|]. now rewrite LN, map_length.
  - destruct (d_sp (s_data s)) as [p|]; [|discriminate]. cbn [of_opt lift].
    destruct (read_par_frame s g "b_limit") as (r & o & ->). destruct r; [|discriminate].
    destruct (read_par_frame (with_par s o) g "b_limit") as (r2 & o2 & ->). destruct r2; [|discriminate].
    rewrite bcast2_same by now rewrite !map_length. cbn.
    intros H. injection H as <- <-. cbn. intros H. injection H as <-.
    exists p. split; [auto|]. rewrite !map_length, !combine_length, !map_length, !combine_length. lia.
  - destruct (d_sp (s_data s)) as [p|]; [|discriminate]. cbn [of_opt lift].
    destruct (read_par_frame s g "min_distance") as (r & o & ->). destruct r; [|discriminate].
    destruct (read_par_frame (with_par s o) g "max_distance") as (r2 & o2 & ->). destruct r2; [|discriminate].
    rewrite bcast2_same by now rewrite !map_length. cbn.
    intros H. injection H as <- <-. cbn. intros H. injection H as <-.
    exists p. split; [auto|]. rewrite !map_length, !combine_length, !map_length. lia.
Qed.

End Proofs.
