(** Proofs about surveys: sizes, indices, fluxes, selections. *)
From Verif Require Import Base BaseFacts Keeps Env ParamModel SelModel SelSpec SelProofs SimVarModel DistModel DistSpec DistProofs
  AuxModel AuxSpec AuxProofs AuxProps AuxMore Tree PopModel SynthModel SynthSpec SynthFrame SynthInv.
Open Scope nat_scope.
Open Scope list_scope.

Lemma nth_error_nth_true m i : nth_error m i = Some true <-> nth i m false = true.
Proof.
  revert i. induction m as [|b m IH]; intros [|i]; cbn; try apply IH; try (split; discriminate).
  split; congruence.
Qed.

Lemma accepts_full m i : i < length m -> accepts m i <-> nth_error m i = Some true.
Proof.
  intros L. unfold accepts. rewrite nth_error_nth_true. destruct (Nat.eqb_spec (length m) 1); [|reflexivity].
  assert (i = 0) by lia. now subst.
Qed.

Lemma len1 {A} (l : list A) : length l = 1 -> exists x, l = [x].
Proof. destruct l as [|x [|]]; cbn; try discriminate. eauto. Qed.

Lemma nth_map_and (m1 m2 : list bool) i : length m1 = length m2 ->
  nth i (map (fun q => fst q && snd q) (combine m1 m2)) false = nth i m1 false && nth i m2 false.
Proof.
  revert m2 i. induction m1 as [|a m1 IH]; intros [|b m2] i; cbn; try discriminate.
  - now destruct i.
  - intros H. destruct i; [reflexivity|]. apply IH. lia.
Qed.
Lemma nth_map_b (f : bool -> bool) m i : nth i (map f m) false = if i <? length m then f (nth i m false) else false.
Proof.
  revert i. induction m as [|a m IH]; intros [|i]; cbn; try reflexivity.
  rewrite IH. change (S i <? S (length m)) with (i <? length m). reflexivity.
Qed.
Lemma nth_over (m : list bool) i : length m <= i -> nth i m false = false.
Proof. apply nth_overflow. Qed.

Lemma bcast2_inv {A B C} (f : A -> B -> C) a b c : bcast2 f a b = Ok c ->
  (length a = length b /\ c = map (fun q => f (fst q) (snd q)) (combine a b)) \/
  (length a <> length b /\ exists y, b = [y] /\ c = map (fun x => f x y) a) \/
  (length a <> length b /\ exists x, a = [x] /\ c = map (fun y => f x y) b).
Proof.
  unfold bcast2. destruct (Nat.eqb_spec (length a) (length b)).
  - intros H. injection H as <-. auto.
  - destruct a as [|x [|x2 a]]; destruct b as [|y [|y2 b]]; try discriminate; try (cbn in n; lia);
      intros H; injection H as <-; [right; left|right; right|right; right|right; left]; (split; [easy|]); eauto.
Qed.

Lemma and_accepts m1 m2 m i : np_logical_and m1 m2 = Ok m -> accepts m i <-> accepts m1 i /\ accepts m2 i.
Proof.
  intros H. apply bcast2_inv in H. destruct H as [(L & ->)|[(L & b & -> & ->)|(L & b & -> & ->)]].
  - unfold accepts. rewrite map_length, combine_length, <- L, Nat.min_id, nth_map_and by easy.
    rewrite andb_true_iff. reflexivity.
  - unfold accepts. cbn [length] in *. rewrite map_length. destruct (Nat.eqb_spec (length m1) 1); [lia|].
    cbn. rewrite nth_map_b. destruct (Nat.ltb_spec i (length m1)).
    + now rewrite andb_true_iff.
    + rewrite nth_over by easy. intuition discriminate.
  - unfold accepts. cbn [length] in *. rewrite map_length. destruct (Nat.eqb_spec (length m2) 1); [lia|].
    cbn. rewrite nth_map_b. destruct (Nat.ltb_spec i (length m2)).
    + now rewrite andb_true_iff.
    + rewrite (nth_over m2) by easy. intuition discriminate.
Qed.

Lemma accepts_all n i : i < n -> accepts (repeat true n) i.
Proof.
  intros L. apply accepts_full; [now rewrite repeat_length|]. rewrite nth_error_repeat.
  now destruct (Nat.ltb_spec i n); [|lia].
Qed.

Lemma sv_new_inv A (o l : list A) m d x : sv_new o l m d = Ok x ->
  x = SimVar o l m d /\ length o = mask_len m /\ length l = mask_len m.
Proof.
  unfold sv_new. destruct (Nat.eqb_spec (mask_len m) (length o)); cbn; [|discriminate].
  destruct (Nat.eqb_spec (length l) (length o)); cbn; [|discriminate]. intros H. injection H as <-. split; [easy|lia].
Qed.
Lemma rassert_inv b u : rassert b = Ok u -> b = true.
Proof. destruct b; [easy|discriminate]. Qed.
Lemma rbind_inv A B (r : res A) (k : A -> res B) b : rbind r k = Ok b -> exists a, r = Ok a /\ k a = Ok b.
Proof. destruct r; cbn; [eauto|discriminate]. Qed.
Lemma rmap_inv A B (f : A -> B) r b : rmap f r = Ok b -> exists a, r = Ok a /\ b = f a.
Proof. destruct r; cbn; intros H; [injection H as <-; eauto|discriminate]. Qed.

Section P.
Variable E : env.
Notation V := (V E).
Notation Rst := (Rst E).
Notation selector := (selector E).
Notation sampler := (sampler E).
Notation world := (world E).
Notation synth := (synth E).
Notation one := (vofnat E 1).
Notation zero := (vofnat E 0).
Notation population := (population E).

(** ** Construction of the population *)
Record built (a : popargs E) (p : population) : Prop := Built {
  bu_args : p_args p = a;
  bu_lum : p_lum p = SimVar (pa_lum a) (pa_lum a) (MB (pa_sel a)) DFloat /\ length (pa_lum a) = length (pa_sel a);
  bu_dist : p_dist p = SimVar (pa_dist a) (pa_dist a) (MB (pa_sel a)) DFloat /\ length (pa_dist a) = length (pa_sel a);
  bu_theta : p_theta p = SimVar (pa_theta a) (pa_theta a) (MB (pa_sel a)) DFloat /\ length (pa_theta a) = length (pa_sel a);
  bu_phi : p_phi p = SimVar (pa_phi a) (pa_phi a) (MB (pa_sel a)) DFloat /\ length (pa_phi a) = length (pa_sel a);
  bu_known : length (pa_known a) + length (pa_uidx a) = count (pa_sel a);
  bu_flux : p_flux p = SimVar (pa_fobs a) (pa_flux a) (MB (pa_sel a)) DFloat /\
            length (pa_fobs a) = length (pa_sel a) /\ length (pa_flux a) = length (pa_sel a);
  bu_prob : match pa_prob a with
            | None => p_prob p = None
            | Some q => p_prob p = Some (SimVar q q (MB (pa_sel a)) DFloat) /\ length q = length (pa_sel a)
            end;
  bu_counts : p_nobj p = length (pa_sel a) /\ p_ndet p = count (pa_sel a) /\
              p_nnon p = length (pa_sel a) - count (pa_sel a) /\ p_nodet p = Nat.eqb (count (pa_sel a)) 0;
  bu_aux : match pa_aux a with
           | None => p_aux p = []
           | Some x => length (p_aux p) = length x /\
                       forall i k v, nth_error x i = Some (k, v) -> ~ In k readonly /\ nth_error (p_aux p) i =
                         Some (k, SimVar (snd v) (fst v) (MB (pa_sel a)) DFloat) /\
                         length (snd v) = length (pa_sel a) /\ length (fst v) = length (pa_sel a)
           end;
  bu_spaces : match pa_spaces a with
              | None => True
              | Some x => forall k l, In (k, l) x -> length l = pa_nmodel a
              end }.

Lemma mem_In k l : mem k l = true <-> In k l.
Proof.
  unfold mem. rewrite existsb_exists. split.
  - intros (x & I & EQ). apply String.eqb_eq in EQ. now subst.
  - intros I. exists k. split; [easy|apply String.eqb_refl].
Qed.

Lemma pop_new_built a p : pop_new a = Ok p -> built a p.
Proof.
  unfold pop_new. intros H.
  apply rbind_inv in H. destruct H as (l & Hl & H). apply rbind_inv in H. destruct H as (d & Hd & H).
  apply rbind_inv in H. destruct H as (t & Ht & H). apply rbind_inv in H. destruct H as (ph & Hp & H).
  apply rbind_inv in H. destruct H as (u & Hu & H). apply rbind_inv in H. destruct H as (f & Hf & H).
  apply rbind_inv in H. destruct H as (pr & Hpr & H). apply rbind_inv in H. destruct H as (aux & Ha & H).
  apply rbind_inv in H. destruct H as (sp & Hs & H). injection H as <-.
  apply sv_new_inv in Hl, Hd, Ht, Hp, Hf. apply rassert_inv, Nat.eqb_eq in Hu. cbn in *.
  destruct Hl as (-> & Hl & _), Hd as (-> & Hd & _), Ht as (-> & Ht & _), Hp as (-> & Hp & _), Hf as (-> & Hf1 & Hf2).
  constructor; cbn [p_args p_lum p_dist p_theta p_phi p_flux p_prob p_nobj p_ndet p_nnon p_nodet p_aux]; auto.
  - destruct (pa_prob a) as [q|]; [|now injection Hpr].
    apply rmap_inv in Hpr. destruct Hpr as (x & Hx & ->). apply sv_new_inv in Hx. cbn in Hx. destruct Hx as (-> & L & _). auto.
  - destruct (pa_aux a) as [x|]; [|now injection Ha]. split; [now apply rmapM_length in Ha|].
    intros i k v N. assert (X := rmapM_nth _ _ i Ha). rewrite N in X.
    destruct X as (z & X & ->). cbn [fst snd] in X.
    apply rmap_inv in X. destruct X as (sv & X & ->). unfold aux_attr in X. apply rbind_inv in X.
    destruct X as (w & W & X). apply sv_new_inv in W. cbn in W. destruct W as (-> & L1 & L2).
    destruct (mem k readonly) eqn:MR; [discriminate|]. destruct (mem k special); [discriminate|]. destruct (mem k ["_protected_names"; "_auxiliary_quantities"]); [discriminate|].
    destruct (mem k internal); [discriminate|]. injection X as <-.
    split; [intros I; apply mem_In in I; congruence|]. auto.
  - destruct (pa_spaces a) as [x|]; [|easy]. intros k l0 I. apply In_nth_error in I. destruct I as (i & I).
    assert (X := rmapM_nth _ _ i Hs). rewrite I in X. destruct X as (z & X & _).
    cbn in X. apply rassert_inv, Nat.eqb_eq in X. exact X.
Qed.

(** ** Lengths *)
Lemma inplace_length A B (f : A -> B -> A) a b c : bcast2_inplace f a b = Ok c -> length c = length a.
Proof.
  unfold bcast2_inplace. destruct (Nat.eqb_spec (length a) (length b)).
  - intros H. injection H as <-. rewrite map_length, combine_length, e. apply Nat.min_id.
  - destruct b as [|y [|]]; try discriminate. intros H. injection H as <-. apply map_length.
Qed.
Lemma times_inv p q (y : synth) r y1 : times p q y = (Ok r, y1) ->
  y1 = y /\ exists l, q = Some l /\ bcast2_inplace (vmul E) p l = Ok r.
Proof.
  unfold times. intros H. apply lift_inv in H. destruct H as [H ->]. split; [easy|].
  apply rbind_inv in H. destruct H as (l & H1 & H). destruct q; [|discriminate]. injection H1 as <-. eauto.
Qed.
Lemma survey_selection_inv acc kv (y : synth) r y1 : survey_selection acc kv y = (Ok r, y1) ->
  y1 = y /\ exists s, nth_error (w_sels (y_w y)) (c_sel (snd kv)) = Some s /\
   ((is_unity (s_kind s) = true /\ r = acc) \/
    (is_unity (s_kind s) = false /\ exists q t p, c_prob (snd kv) = Some q /\
       bcast2_inplace (vmul E) (fst acc) q = Ok p /\ sel_add (snd acc) s = Ok t /\ r = (p, t))).
Proof.
  unfold survey_selection. intros H. apply bind_inv_ok in H. destruct H as (s & z & G & H).
  apply in_w_get_sel in G. destruct G as [-> G]. destruct (is_unity (s_kind s)) eqn:U.
  - unfold ret in H. injection H as <- <-. split; [easy|]. exists s. auto.
  - apply bind_inv_ok in H. destruct H as (p & z & T & H). apply times_inv in T. destruct T as (-> & q & Q & T).
    apply bind_inv_ok in H. destruct H as (t & z & T2 & H). apply lift_inv in T2. destruct T2 as [T2 ->].
    unfold ret in H. injection H as <- <-. split; [easy|]. exists s. split; [easy|]. right. split; [easy|]. exists q, t, p. auto.
Qed.
Lemma selection_length st : forall acc (y : synth) r y1, foldM (survey_selection (E := E)) acc st y = (Ok r, y1) ->
  length (fst r) = length (fst acc).
Proof.
  induction st as [|kv st IH]; intros acc y r y1 H; cbn in H.
  - unfold ret in H. now injection H as <- <-.
  - apply bind_inv_ok in H. destruct H as (a & z & H1 & H). apply IH in H. rewrite H.
    apply survey_selection_inv in H1. destruct H1 as (_ & s & _ & [(_ & ->)|(_ & q & t & p & _ & P & _ & ->)]); [easy|].
    cbn. now apply inplace_length in P.
Qed.
Lemma survey_lum_length prog rl n prob t (y : synth) lum p1 t1 st1 y1 :
  survey_lum prog rl n prob t y = (Ok (lum, p1, t1, st1), y1) -> length p1 = length prob.
Proof.
  unfold survey_lum. intros H. apply bind_inv_ok in H. destruct H as (y0 & z & G & H). unfold get in G. injection G as <- <-.
  destruct (y_der y) as [i|]; destruct (y_lum y) as [ld|]; try discriminate.
  - apply bind_inv_ok in H. destruct H as (x1 & z1 & _ & H). apply bind_inv_ok in H. destruct H as (x2 & z2 & _ & H).
    apply bind_inv_ok in H. destruct H as (x3 & z3 & _ & H). apply bind_inv_ok in H. destruct H as (x4 & z4 & _ & H).
    apply bind_inv_ok in H. destruct H as (x5 & z5 & _ & H). apply bind_inv_ok in H. destruct H as (x6 & z6 & _ & H).
    apply bind_inv_ok in H. destruct H as (x7 & z7 & _ & H). apply bind_inv_ok in H. destruct H as (x8 & z8 & _ & H).
    apply bind_inv_ok in H. destruct H as (x9 & z9 & _ & H). apply bind_inv_ok in H. destruct H as (x10 & z10 & _ & H).
    apply bind_inv_ok in H. destruct H as (x11 & z11 & _ & H). apply bind_inv_ok in H. destruct H as (x12 & z12 & _ & H).
    unfold ret in H. now injection H as _ <- _ _ _.
  - apply bind_inv_ok in H. destruct H as (x1 & z1 & _ & H). apply bind_inv_ok in H. destruct H as (x2 & z2 & _ & H).
    apply bind_inv_ok in H. destruct H as (x3 & z3 & _ & H). apply bind_inv_ok in H. destruct H as (x4 & z4 & _ & H).
    apply bind_inv_ok in H. destruct H as (x5 & z5 & _ & H). apply bind_inv_ok in H. destruct H as (x6 & z6 & _ & H).
    apply bind_inv_ok in H. destruct H as (x7 & z7 & _ & H). apply bind_inv_ok in H. destruct H as (x8 & z8 & _ & H).
    apply bind_inv_ok in H. destruct H as (x9 & z9 & _ & H). apply bind_inv_ok in H. destruct H as (x10 & z10 & _ & H).
    apply bind_inv_ok in H. destruct H as (x11 & z11 & _ & H). apply bind_inv_ok in H. destruct H as (x12 & z12 & _ & H).
    unfold ret in H. now injection H as _ <- _ _ _.
  - apply bind_inv_ok in H. destruct H as (x1 & z1 & _ & H). apply bind_inv_ok in H. destruct H as (x2 & z2 & _ & H).
    apply bind_inv_ok in H. destruct H as (x3 & z3 & _ & H). apply bind_inv_ok in H. destruct H as (x4 & z4 & _ & H).
    apply bind_inv_ok in H. destruct H as (x5 & z5 & X & H). apply times_inv in X. destruct X as (_ & l & _ & X).
    unfold ret in H. injection H as _ <- _ _ _. now apply inplace_length in X.
Qed.

Section Step.
Variables (prog : bool) (fuel rl : nat) (fs : option V) (l10 : bool) (ns : option nat) (norm : bool).
Variables (y y' : synth) (p : population) (t : trace E).
Hypothesis S : steps E prog fuel rl fs l10 ns norm y p y' t.

Lemma prob_length : length (tr_p2 E t) = tr_n E t.
Proof.
  assert (A := selection_length _ _ _ _ _ (sp_sel _ _ _ _ _ _ _ _ _ _ _ _ S)). cbn in A. rewrite A.
  destruct (sp_p0 _ _ _ _ _ _ _ _ _ _ _ _ S) as (q & _ & Q). apply inplace_length in Q. rewrite repeat_length in Q.
  rewrite <- Q. exact (survey_lum_length _ _ _ _ _ _ _ _ _ _ _ (sp_lum _ _ _ _ _ _ _ _ _ _ _ _ S)).
Qed.
Lemma steps_built : exists a, built a p /\ pa_sel a = tr_mask E t /\ pa_known a = tr_known E t /\
  pa_kidx a = np_where (tr_dmask E t) /\ pa_uidx a = np_where (mnot (tr_dmask E t)) /\
  pa_lum a = tr_lum E t /\ pa_dist a = sv_dist (tr_sp E t) /\ pa_flux a = tr_flux E t /\ pa_fobs a = tr_fobs E t /\
  pa_sigma a = tr_sigma E t /\ pa_prob a = Some (tr_p2 E t) /\ pa_truth a = tr_t2 E t /\ pa_aux a = Some (tr_aux E t) /\
  pa_theta a = tr_th E t /\ pa_phi a = tr_ph E t.
Proof.
  assert (H := sp_pop _ _ _ _ _ _ _ _ _ _ _ _ S). apply pop_new_built in H. eexists. split; [exact H|]. cbn. tauto.
Qed.
Lemma mask_length : length (tr_mask E t) = tr_n E t.
Proof.
  destruct steps_built as (a & B & Hs & _ & _ & _ & _ & _ & _ & _ & _ & Hp & _).
  assert (X := bu_prob _ _ B). rewrite Hp in X. destruct X as (_ & X). rewrite Hs in X. now rewrite prob_length in X.
Qed.
Lemma size_given n : ns = Some n -> tr_n E t = n.
Proof.
  intros ->. assert (H := sp_size _ _ _ _ _ _ _ _ _ _ _ _ S). unfold survey_size in H.
  apply bind_inv_ok in H. destruct H as ([] & z & H1 & H). unfold ret in H. now injection H.
Qed.
Lemma all_sized : sized (tr_n E t) p.
Proof.
  destruct steps_built as (a & B & Hs & Hk & Hki & Hui & Hl & Hd & Hf & Hfo & Hsg & Hp & Ht & Ha & Hth & Hph).
  destruct B as [B1 [B2 B2'] [B3 B3'] [B4 B4'] [B5 B5'] B6 [B7 [B7' B7'']] B8 (B9 & B10 & B11 & B12) B13 B14].
  rewrite Hs, mask_length in *. assert (C := count_le_length (tr_mask E t)). rewrite mask_length in C.
  constructor; try (rewrite ?B2, ?B3, ?B4, ?B5, ?B7; cbn; auto).
  - lia.
  - rewrite B1, Hs, np_where_length. exact B10.
  - now rewrite B1, Hs, mask_length.
  - rewrite Hp in B8. destruct B8 as [B8 B8']. eexists. split; [exact B8|]. exact B8'.
  - rewrite Ha in B13. destruct B13 as [BL BN]. intros k v I. apply In_nth_error in I. destruct I as (i & I).
    assert (LI : i < length (p_aux p)) by (apply nth_error_Some; congruence). rewrite BL in LI.
    apply nth_error_Some in LI. destruct (nth_error (tr_aux E t) i) as [[k' v']|] eqn:X; [|easy].
    destruct (BN i k' v' X) as (_ & N & L1 & L2). rewrite N in I. injection I as _ <-. cbn. auto.
Qed.

(** ** Known and unknown distances *)
Lemma mselect_ith A (l : list A) m : length l = length m -> forall i x,
  nth_error (mselect l m) i = Some x -> exists k, ith_selected m i k /\ nth_error l k = Some x.
Proof.
  unfold ith_selected. revert m. induction l as [|a l IH]; intros [|b m]; cbn; try discriminate.
  - intros _ i x H. now destruct i.
  - intros L i x H. injection L as L. destruct b.
    + destruct i as [|i]; cbn in H.
      * injection H as <-. exists 0. auto.
      * destruct (IH m L i x H) as (k & (K1 & K2) & K3). exists (Datatypes.S k). cbn. rewrite K2. auto.
    + destruct (IH m L i x H) as (k & (K1 & K2) & K3). exists (Datatypes.S k). cbn. rewrite K2. auto.
Qed.
Lemma ith_mselect A (l : list A) m : length l = length m -> forall i k x,
  ith_selected m i k -> nth_error l k = Some x -> nth_error (mselect l m) i = Some x.
Proof.
  unfold ith_selected. revert m. induction l as [|a l IH]; intros [|b m]; cbn; try discriminate.
  - intros _ i [|k] x _ H; discriminate.
  - intros L i k x [N C] H. injection L as L. destruct k as [|k]; cbn in *.
    + injection H as ->. injection N as ->. now subst.
    + destruct b; cbn in C.
      * destruct i as [|i]; [lia|]. cbn. apply (IH m L i k x); [split; [easy|lia]|easy].
      * apply (IH m L i k x); auto.
Qed.
Lemma where_ith m : forall i k, nth_error (np_where m) i = Some k <-> ith_selected m i k.
Proof.
  unfold ith_selected, np_where.
  assert (X : forall s i k, nth_error (where_from s m) i = Some k <->
     s <= k /\ nth_error m (k - s) = Some true /\ count (firstn (k - s) m) = i).
  { induction m as [|b m IH]; intros s i k; cbn.
    - destruct i; cbn; (split; [discriminate|]); intros (_ & H & _); destruct (k - s); discriminate.
    - destruct b.
      + destruct i as [|i]; cbn.
        * split.
          { intros H. injection H as <-. rewrite Nat.sub_diag. cbn. auto. }
          { intros (L & N & C). destruct (k - s) as [|q] eqn:Q; [f_equal; lia|]. cbn in C. discriminate. }
        * rewrite IH. split.
          { intros (L & N & C). replace (k - s) with (Datatypes.S (k - Datatypes.S s)) by lia. cbn. rewrite C. split; [lia|auto]. }
          { intros (L & N & C). destruct (k - s) as [|q] eqn:Q; [discriminate|]. cbn in *.
            replace (k - Datatypes.S s) with q by lia. split; [lia|]. auto. }
      + rewrite IH. split.
        { intros (L & N & C). replace (k - s) with (Datatypes.S (k - Datatypes.S s)) by lia. cbn. split; [lia|auto]. }
        { intros (L & N & C). destruct (k - s) as [|q] eqn:Q; [discriminate|]. cbn in *.
          replace (k - Datatypes.S s) with q by lia. split; [lia|]. auto. } }
  intros i k. rewrite X, Nat.sub_0_r. intuition lia.
Qed.
Lemma np_mask_inv A (l : list A) m r : np_mask l m = Ok r -> length l = length m /\ r = mselect l m.
Proof. unfold np_mask. destruct (Nat.eqb_spec (length l) (length m)); [|discriminate]. intros H. now injection H as <-. Qed.

Lemma known_unknown :
  let a := p_args p in
  StronglySorted lt (pa_kidx a) /\ StronglySorted lt (pa_uidx a) /\
  (forall i, i < p_ndet p <-> In i (pa_kidx a) \/ In i (pa_uidx a)) /\
  (forall i, In i (pa_kidx a) -> ~ In i (pa_uidx a)) /\
  length (pa_known a) = length (pa_kidx a) /\
  (forall j d, nth_error (pa_known a) j = Some d -> exists i k,
     nth_error (pa_kidx a) j = Some i /\ ith_selected (pa_sel a) i k /\ nth_error (sv_obs (p_dist p)) k = Some d).
Proof.
  destruct steps_built as (a & B & Hs & Hk & Hki & Hui & _ & Hd & _).
  cbn zeta. rewrite (bu_args _ _ B). rewrite Hki, Hui, Hk, Hs.
  destruct (np_mask_inv _ _ _ _ (sp_detected _ _ _ _ _ _ _ _ _ _ _ _ S)) as [L1 D1].
  destruct (np_mask_inv _ _ _ _ (sp_known _ _ _ _ _ _ _ _ _ _ _ _ S)) as [L2 D2].
  assert (LD : length (tr_dmask E t) = count (tr_mask E t)) by (rewrite <- L2, D1; now apply mselect_length).
  assert (ND : p_ndet p = count (tr_mask E t)) by (destruct (bu_counts _ _ B) as (_ & N & _); now rewrite Hs in N).
  split; [apply where_sorted|]. split; [apply where_sorted|]. split; [|split; [|split]].
  - intros i. rewrite ND, <- LD, !In_np_where, nth_error_mnot. rewrite <- nth_error_Some.
    destruct (nth_error (tr_dmask E t) i) as [[]|]; cbn; intuition congruence.
  - intros i. rewrite !In_np_where, nth_error_mnot. intros ->. discriminate.
  - rewrite D2, np_where_length. now apply mselect_length.
  - intros j d N. rewrite D2 in N. apply mselect_ith in N; [|easy]. destruct N as (i & I & N).
    rewrite D1 in N. apply mselect_ith in N; [|easy]. destruct N as (k & K & N).
    exists i, k. split; [now apply where_ith|]. split; [easy|].
    destruct (bu_dist _ _ B) as (-> & _). cbn. now rewrite Hd.
Qed.

Lemma detection_needs_known : 0 < p_ndet p -> pa_known (p_args p) <> [].
Proof.
  destruct steps_built as (a & B & Hs & Hk & _). destruct (bu_counts _ _ B) as (_ & N & _).
  rewrite N, Hs, (bu_args _ _ B), Hk. exact (sp_max _ _ _ _ _ _ _ _ _ _ _ _ S).
Qed.

(** ** Fluxes *)
Lemma latent_flux : forall i f, nth_error (sv_lat (p_flux p)) i = Some f ->
  exists l d, nth_error (sv_obs (p_lum p)) i = Some l /\ nth_error (sv_obs (p_dist p)) i = Some d /\
              f = sc_transform (sd_cls (y_sp y)) l d.
Proof.
  destruct steps_built as (a & B & Hs & _ & _ & _ & Hl & Hd & Hf & _).
  destruct (bu_lum _ _ B) as (-> & L1), (bu_dist _ _ B) as (-> & L2), (bu_flux _ _ B) as (-> & _ & L3). cbn.
  assert (H := sp_flux _ _ _ _ _ _ _ _ _ _ _ _ S). rewrite <- Hl, <- Hd, bcast2_same in H by congruence. injection H as H.
  rewrite Hf, <- H. intros i f N. rewrite nth_map_combine in N by congruence.
  destruct (nth_error (pa_lum a) i) as [l|]; [|discriminate]. destruct (nth_error (pa_dist a) i) as [d|]; [|discriminate].
  injection N as <-. eauto.
Qed.

Lemma flux_sel_kind s : nth_error (w_sels (y_w y)) (y_flux y) = Some s ->
  exists s1, nth_error (w_sels (y_w (tr_auxd E t))) (y_flux y) = Some s1 /\ sel_static E s1 = sel_static E s.
Proof.
  intros N.
  assert (F : yframe E y (tr_auxd E t)).
  { assert (F1 := survey_size_keeps _ ns norm y). rewrite (sp_size _ _ _ _ _ _ _ _ _ _ _ _ S) in F1. cbn in F1.
    assert (F2 := in_sp_keeps _ _ _ (draw_distance_keeps _ prog fuel (tr_n E t) norm) (tr_sized E t)).
    rewrite (sp_dist _ _ _ _ _ _ _ _ _ _ _ _ S) in F2. cbn in F2.
    assert (F3 := in_sp_keeps _ _ _ (draw_sky_keeps _ (tr_n E t)) (tr_dists E t)).
    rewrite (sp_sky _ _ _ _ _ _ _ _ _ _ _ _ S) in F3. cbn in F3.
    assert (F4 := survey_lum_keeps _ prog rl (tr_n E t) (tr_p0 E t) [(sd_name (y_sp y), truth (sd_par (y_sp y)))] (tr_sky E t)).
    rewrite (sp_lum _ _ _ _ _ _ _ _ _ _ _ _ S) in F4. cbn in F4.
    assert (F5 : yframe E (tr_lumd E t) (snd (foldM (survey_aux prog rl (tr_n E t) (tr_lum E t)) (tr_t1 E t, tr_st1 E t) (y_aux y) (tr_lumd E t)))).
    { apply (keeps_fold (yframe_refl E) (yframe_trans E)). intros. apply survey_aux_keeps. }
    rewrite (sp_aux _ _ _ _ _ _ _ _ _ _ _ _ S) in F5. cbn in F5.
    eapply yframe_trans; [exact F1|]. eapply yframe_trans; [exact F2|]. eapply yframe_trans; [exact F3|].
    eapply yframe_trans; [exact F4|exact F5]. }
  destruct F as [[_ F] _]. assert (X : nth_error (map (sel_static E) (w_sels (y_w (tr_auxd E t)))) (y_flux y) = Some (sel_static E s)).
  { rewrite F. now apply map_nth_error. }
  rewrite nth_error_map in X. destruct (nth_error (w_sels (y_w (tr_auxd E t))) (y_flux y)) as [s1|]; [|discriminate].
  exists s1. split; [reflexivity|]. cbn [option_map] in X. congruence.
Qed.

Lemma in_g_inv A (m : M Rst A) (z : synth) r z1 : in_g m z = (Ok r, z1) -> exists g g1, m g = (Ok r, g1).
Proof. unfold in_g. destruct (m (w_g (y_w z))) as [r0 g0] eqn:X. intros H. injection H as -> <-. eauto. Qed.

Lemma static_yframe : yframe E y (tr_auxd E t).
Proof.
  assert (F1 := survey_size_keeps _ ns norm y). rewrite (sp_size _ _ _ _ _ _ _ _ _ _ _ _ S) in F1. cbn in F1.
  assert (F2 := in_sp_keeps _ _ _ (draw_distance_keeps _ prog fuel (tr_n E t) norm) (tr_sized E t)).
  rewrite (sp_dist _ _ _ _ _ _ _ _ _ _ _ _ S) in F2. cbn in F2.
  assert (F3 := in_sp_keeps _ _ _ (draw_sky_keeps _ (tr_n E t)) (tr_dists E t)).
  rewrite (sp_sky _ _ _ _ _ _ _ _ _ _ _ _ S) in F3. cbn in F3.
  assert (F4 := survey_lum_keeps _ prog rl (tr_n E t) (tr_p0 E t) [(sd_name (y_sp y), truth (sd_par (y_sp y)))] (tr_sky E t)).
  rewrite (sp_lum _ _ _ _ _ _ _ _ _ _ _ _ S) in F4. cbn in F4.
  assert (F5 : yframe E (tr_lumd E t) (snd (foldM (survey_aux prog rl (tr_n E t) (tr_lum E t)) (tr_t1 E t, tr_st1 E t) (y_aux y) (tr_lumd E t)))).
  { apply (keeps_fold (yframe_refl E) (yframe_trans E)). intros. apply survey_aux_keeps. }
  rewrite (sp_aux _ _ _ _ _ _ _ _ _ _ _ _ S) in F5. cbn in F5.
  eapply yframe_trans; [exact F1|]. eapply yframe_trans; [exact F2|]. eapply yframe_trans; [exact F3|].
  eapply yframe_trans; [exact F4|exact F5].
Qed.

Lemma observed_flux s : nth_error (w_sels (y_w y)) (y_flux y) = Some s ->
  match is_unity (s_kind s), fs with
  | false, Some sg => pa_sigma (p_args p) = sg /\
      exists es g g', rdraws (r_norm E zero sg) (p_nobj p) g = (es, g') /\
        forall i, nth_error (sv_obs (p_flux p)) i =
          match nth_error (sv_lat (p_flux p)) i, nth_error es i with
          | Some f, Some e => Some (noisy E l10 f e)
          | _, _ => None
          end
  | _, _ => pa_sigma (p_args p) = vsub E zero one /\ sv_obs (p_flux p) = sv_lat (p_flux p)
  end.
Proof.
  intros N. destruct (flux_sel_kind _ N) as (s1 & N1 & ST).
  assert (K : s_kind s1 = s_kind s) by (unfold sel_static in ST; congruence).
  destruct steps_built as (a & B & Hs & _ & _ & _ & _ & _ & Hf & Hfo & Hsg & _).
  assert (SZ := all_sized). assert (ML := mask_length).
  rewrite (sz_nobj SZ), (bu_args _ _ B). destruct (bu_flux _ _ B) as (-> & L1 & L2). cbn.
  assert (H := sp_fobs _ _ _ _ _ _ _ _ _ _ _ _ S). unfold survey_flux in H.
  apply bind_inv_ok in H. destruct H as (z & z1 & G & H). unfold get in G. injection G as <- <-.
  apply bind_inv_ok in H. destruct H as (s2 & z1 & G & H).
  apply in_w_get_sel in G. destruct G as [-> G].
  assert (FX : y_flux (tr_auxd E t) = y_flux y).
  { destruct static_yframe as [_ Q]. unfold conf_static in Q. congruence. }
  rewrite FX, N1 in G. injection G as <-. rewrite K in H.
  destruct (is_unity (s_kind s)).
  - unfold ret in H. injection H as F1 F2 _. rewrite Hsg, Hfo, Hf, F1, F2. auto.
  - destruct fs as [sg|].
    + destruct (vlt E sg zero); [discriminate|].
      apply bind_inv_ok in H. destruct H as (es & z1 & G1 & H).
      apply in_g_inv in G1. destruct G1 as (g & g1 & G1). cbv beta in G1.
      destruct (rdraws (r_norm E zero sg) (tr_n E t) g) as [l g'] eqn:RD. injection G1 as -> <-.
      apply bind_inv_ok in H. destruct H as (logs & z2 & G2 & H). apply lift_inv in G2. destruct G2 as [G2 ->].
      apply bind_inv_ok in H. destruct H as (u & z2 & G3 & H). apply lift_inv in G3. destruct G3 as [G3 ->].
      unfold ret in H. injection H as F1 F2 _.
      split; [congruence|]. exists es, g, g'. split; [easy|]. intros i. rewrite Hfo, Hf.
      assert (LE : length es = tr_n E t) by (assert (Q := rdraws_length (r_norm E zero sg) (tr_n E t) g); now rewrite RD in Q).
      assert (LF : length (tr_flux E t) = tr_n E t) by (rewrite <- Hf, L2, Hs; exact ML).
      rewrite <- F1. rewrite bcast2_same in G2 by (rewrite map_length; congruence). injection G2 as <-.
      rewrite nth_error_map, nth_map_combine by (rewrite map_length; congruence). rewrite nth_error_map.
      destruct (nth_error (tr_flux E t) i) as [f|]; [|reflexivity]. cbn. destruct (nth_error es i) as [e|]; [|reflexivity].
      cbn. unfold noisy. now destruct l10.
    + unfold ret in H. injection H as F1 F2 _. rewrite Hsg, Hfo, Hf, F1, F2. auto.
Qed.
End Step.
End P.
