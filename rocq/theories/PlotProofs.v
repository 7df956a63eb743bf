(** What plots show. *)
From Verif Require Import Base BaseFacts Env SimVarModel SimVarSpec SimVarProofs PopModel PopSpec PopProofs PlotModel PlotSpec.
Open Scope list_scope.

Section P.
Context (E : env).
Notation V := (V E).
Notation draws := (@draws E _).

Lemma draws_put (m : mark E) : draws (put m) (Ok tt) [m].
Proof. intros s. reflexivity. Qed.
Lemma draws_ret A (a : A) : PlotSpec.draws (ret a) (Ok a) (@nil (mark E)).
Proof. intros s. unfold ret. now rewrite app_nil_r. Qed.
Lemma draws_seq A B (m : M (list (mark E)) A) (k : A -> M (list (mark E)) B) a r l1 l2 : PlotSpec.draws m (Ok a) l1 -> PlotSpec.draws (k a) r l2 -> PlotSpec.draws (bind m k) r (l1 ++ l2).
Proof. intros H K s. unfold bind. rewrite H, K. now rewrite app_assoc. Qed.
Lemma draws_err A B (m : M (list (mark E)) A) (k : A -> M (list (mark E)) B) e l : PlotSpec.draws m (Err e) l -> PlotSpec.draws (bind m k) (Err e) l.
Proof. intros H s. unfold bind. now rewrite H. Qed.
Lemma draws_lift A B (x : res A) (k : A -> M (list (mark E)) B) a r l : x = Ok a -> PlotSpec.draws (k a) r l -> PlotSpec.draws (bind (lift x) k) r l.
Proof. intros -> K s. unfold bind, lift. apply K. Qed.
Lemma draws_bad A B (x : res A) (k : A -> M (list (mark E)) B) e : x = Err e -> PlotSpec.draws (bind (lift x) k) (Err e) nil.
Proof. intros -> s. unfold bind, lift. now rewrite app_nil_r. Qed.
Lemma draws_scatter lb (x y : simvar V) : length (sv_obs x) = length (sv_obs y) -> draws (scatter lb x y) (Ok tt) [Scatter lb (sv_obs x) (sv_obs y)].
Proof. intros H. unfold scatter. rewrite (proj2 (Nat.eqb_eq _ _) H). apply draws_put. Qed.

Section Pop.
Variables (a : popargs E) (p : population E).
Hypothesis H : pop_new a = Ok p.
Notation m := (pa_sel a).
Notation o b f := (keep b (f a) (pa_sel a)).

Lemma args : p_args p = a. Proof. exact (proj1 (new_faithful _ _ _ H)). Qed.
Lemma vars : (shows E (p_lum p) (pa_lum a) (pa_lum a) m /\ shows E (p_dist p) (pa_dist a) (pa_dist a) m /\
  shows E (p_theta p) (pa_theta a) (pa_theta a) m /\ shows E (p_phi p) (pa_phi a) (pa_phi a) m /\ shows E (p_flux p) (pa_fobs a) (pa_flux a) m) /\ aligned a.
Proof. destruct (new_faithful _ _ _ H) as (_ & A & B & C & D & F & _). split; [auto|]. exact (proj1 (new_consistent _ _ _ H)). Qed.
Lemma shows_valid (x : simvar V) ob l : shows E x ob l m -> length ob = length m -> length l = length m -> valid x m.
Proof. intros (<- & <- & S) L1 L2. repeat split; assumption. Qed.
Lemma len b (l k : list V) : length l = length m -> length k = length m -> length (keep b l m) = length (keep b k m).
Proof. intros L1 L2. rewrite !(keep_psize _ b) by assumption. reflexivity. Qed.
Lemma sel_of (x : simvar V) ob l : shows E x ob l m -> length ob = length m -> length l = length m ->
  exists y, sv_selected x = Ok y /\ sv_obs y = keep true ob m /\ mask_len (sv_sel y) = length (sv_obs y) /\ length (sv_lat y) = length (sv_obs y).
Proof.
  intros S L1 L2. eexists. split; [exact (selected_eq _ _ _ (shows_valid _ _ _ S L1 L2))|]. destruct S as (<- & <- & S). cbn [sv_obs sv_lat sv_sel]. rewrite mask_len_ones.
  rewrite !keep_length by assumption. auto.
Qed.
Lemma nonsel_of (x : simvar V) ob l : shows E x ob l m -> length ob = length m -> length l = length m ->
  exists y, sv_non_selected x = Ok y /\ sv_obs y = keep false ob m /\ mask_len (sv_sel y) = length (sv_obs y) /\ length (sv_lat y) = length (sv_obs y).
Proof.
  intros S L1 L2. eexists. split; [exact (non_selected_eq _ _ _ (shows_valid _ _ _ S L1 L2))|]. destruct S as (<- & <- & S). cbn [sv_obs sv_lat sv_sel]. rewrite mask_len_zeros.
  rewrite !keep_length_not by assumption. auto.
Qed.
Lemma mask_of (x : simvar V) ob l : shows E x ob l m -> length ob = length m -> length l = length m ->
  exists y, by_mask x m = Ok y /\ sv_obs y = keep true ob m /\ mask_len (sv_sel y) = length (sv_obs y) /\ length (sv_lat y) = length (sv_obs y).
Proof.
  intros S L1 L2. assert (VA := shows_valid _ _ _ S L1 L2). unfold by_mask.
  rewrite (getitem_eq _ x (IMask (MB m)) (np_where m) m (mselect (sv_obs x) m) (mselect (sv_lat x) m) (mselect m m) VA).
  - cbn [rbind]. eexists. split; [reflexivity|]. destruct S as (<- & <- & S). cbn [sv_obs sv_lat sv_sel mask_len]. rewrite !mselect_keep. split; [reflexivity|]. rewrite !keep_length by (assumption || reflexivity). auto.
  - discriminate.
  - cbn. now rewrite Nat.eqb_refl.
  - apply take_where. apply VA.
  - apply take_where. apply VA.
  - now apply take_where.
Qed.

Ltac get S := destruct vars as ((VL & VD & VT & VP & VF) & AL); destruct AL as (A1 & A2 & A3 & A4 & A5 & A6 & _).

Lemma min_ok (x : simvar V) : sv_obs x <> nil -> exists b, np_min x = Ok b.
Proof. unfold np_min. destruct (sv_obs x); [contradiction|eauto]. Qed.
Lemma min_nil (x : simvar V) : sv_obs x = nil -> np_min x = Err ValueError.
Proof. unfold np_min. now intros ->. Qed.

(** *** Scatter plots *)
Lemma count_keep (l : list V) : length l = length m -> (keep true l m = nil <-> count m = 0).
Proof. intros L. rewrite <- (keep_length _ l m L). destruct (keep true l m); cbn; split; easy. Qed.
Lemma lowest_cases : m <> nil -> exists b, (match lowest p with Err ValueError => np_min (p_flux p) | r => r end) = Ok b /\ (count m <> 0 -> lowest p = Ok b).
Proof.
  get tt. intros N. assert (NF : sv_obs (p_flux p) <> nil). { destruct VF as (-> & _). destruct (pa_fobs a); [destruct m; easy|discriminate]. }
  destruct (min_ok _ NF) as [b B]. unfold lowest. rewrite B. cbn [rbind]. destruct (sel_of _ _ _ VF A5 A6) as (y & -> & O & _). cbn [rbind].
  destruct (Nat.eq_dec (count m) 0) as [Z|Z].
  - rewrite (min_nil y) by (rewrite O; now apply count_keep). cbn. exists b. now split.
  - destruct (min_ok y) as [c C]; [rewrite O; intros X; apply Z; now apply (count_keep _ A5)|]. rewrite C. cbn. eauto.
Qed.
Lemma true_fluxes : m <> nil -> exists b, draws (display_true_fluxes p) (Ok tt) [Scatter "True flux" (pa_dist a) (pa_fobs a); YBottom b].
Proof.
  get tt. intros N. destruct (lowest_cases N) as (b & B & _). exists b. unfold display_true_fluxes.
  apply (draws_seq _ _ _ _ tt _ [Scatter "True flux" (pa_dist a) (pa_fobs a)] [YBottom b]).
  - destruct VD as (Q & _), VF as (R & _). rewrite <- Q, <- R. apply draws_scatter. rewrite Q, R. now rewrite A2, A5.
  - eapply draws_lift; [exact B|]. apply draws_put.
Qed.
Lemma true_fluxes_empty : m = nil -> draws (display_true_fluxes p) (Err ValueError) [Scatter "True flux" [] []].
Proof.
  get tt. intros N. unfold display_true_fluxes. rewrite N in *. apply (draws_seq _ _ _ _ tt _ [Scatter "True flux" [] []] []).
  - destruct VD as (Q & _), VF as (R & _). destruct (pa_dist a); [|discriminate]. destruct (pa_fobs a); [|discriminate]. rewrite <- R at 2. rewrite <- Q at 1. apply draws_scatter. now rewrite Q, R.
  - apply draws_bad. assert (Z : np_min (p_flux p) = Err ValueError). { apply min_nil. destruct VF as (-> & _). now destruct (pa_fobs a). } unfold lowest. rewrite Z. reflexivity.
Qed.
Lemma obs_fluxes : count m <> 0 -> exists b, lowest p = Ok b /\ draws (display_obs_fluxes p) (Ok tt) [Scatter "Detected flux" (o true (@pa_dist E)) (o true (@pa_fobs E)); YBottom b; XRight (pa_rmax a)].
Proof.
  get tt. intros N. assert (NM : m <> nil) by (intros X; now rewrite X in N). destruct (lowest_cases NM) as (b & _ & B). specialize (B N). exists b. split; [exact B|].
  unfold display_obs_fluxes. assert (ND : p_nodet p = false). { destruct (new_counts _ _ _ H) as (_ & D & _ & I). destruct (p_nodet p); [|reflexivity]. exfalso. apply N. rewrite <- D. now apply I. }
  rewrite ND. destruct (sel_of _ _ _ VD A2 A2) as (d & D1 & D2 & _). destruct (sel_of _ _ _ VF A5 A6) as (f & F1 & F2 & _).
  eapply draws_lift; [exact D1|]. eapply draws_lift; [exact F1|]. apply (draws_seq _ _ _ _ tt _ [Scatter "Detected flux" (o true (@pa_dist E)) (o true (@pa_fobs E))] [YBottom b; XRight (pa_rmax a)]).
  - rewrite <- D2, <- F2. apply draws_scatter. rewrite D2, F2. now apply len.
  - eapply draws_lift; [exact B|]. rewrite args. apply (draws_seq _ _ _ _ tt _ [YBottom b] [XRight (pa_rmax a)]); apply draws_put.
Qed.
Lemma nodet_iff : p_nodet p = true <-> count m = 0.
Proof. destruct (new_counts _ _ _ H) as (_ & D & _ & I). now rewrite <- D. Qed.
Lemma obs_fluxes_none : count m = 0 -> draws (display_obs_fluxes p) (Ok tt) [].
Proof. intros N. unfold display_obs_fluxes. rewrite (proj2 nodet_iff N). apply draws_ret. Qed.

Lemma draws_arrows : forall u v x : list V, length v = length u -> length x = length u ->
  draws (arrows u v x) (Ok tt) (map (fun q => Arrow (snd q) (fst (fst q)) (vofnat E 0) (vsub E (snd (fst q)) (fst (fst q)))) (combine (combine u v) x)).
Proof.
  induction u as [|a0 u IH]; intros [|b0 v] [|x0 x] L1 L2; try discriminate; [apply draws_ret|]. cbn [arrows combine map fst snd].
  eapply (draws_seq _ _ _ _ tt _ [_]); [apply draws_put|]. apply IH; cbn in *; lia.
Qed.
Lemma combine_same (u : list V) : combine u u = map (fun v => (v, v)) u.
Proof. induction u; cbn; congruence. Qed.
Lemma fluxes (w : bool) : m <> nil -> exists b, draws (display_fluxes w p) (Ok tt)
  ([Scatter "True flux" (pa_dist a) (pa_fobs a); YBottom b] ++
   (if Nat.eqb (count m) 0 then [] else
    [Scatter "Detected flux" (o true (@pa_dist E)) (o true (@pa_fobs E)); YBottom b; XRight (pa_rmax a)] ++
    if w then map (fun q => Arrow (fst q) (snd q) (vofnat E 0) (vsub E (snd q) (snd q))) (combine (o true (@pa_dist E)) (o true (@pa_fobs E))) else [])).
Proof.
  get tt. intros N. destruct (lowest_cases N) as (b & B & B2). exists b. unfold display_fluxes. eapply draws_seq.
  { unfold display_true_fluxes. apply (draws_seq _ _ _ _ tt _ [Scatter "True flux" (pa_dist a) (pa_fobs a)] [YBottom b]).
    - destruct VD as (Q & _), VF as (R & _). rewrite <- Q, <- R. apply draws_scatter. rewrite Q, R. now rewrite A2, A5.
    - eapply draws_lift; [exact B|]. apply draws_put. }
  destruct (Nat.eqb_spec (count m) 0) as [Z|Z].
  - rewrite (proj2 nodet_iff Z). rewrite andb_false_r. apply (draws_seq _ _ _ _ tt _ [] []); apply draws_ret.
  - assert (ND : p_nodet p = false). { destruct (p_nodet p) eqn:Q; [|reflexivity]. exfalso. apply Z. now apply nodet_iff. }
    rewrite ND. eapply draws_seq.
    + destruct (obs_fluxes Z) as (b' & B' & D). rewrite (B2 Z) in B'. injection B' as <-. exact D.
    + rewrite andb_true_r. destruct w; [|apply draws_ret]. rewrite args.
      destruct (mask_of _ _ _ VF A5 A6) as (u & U1 & U2 & _). destruct (sel_of _ _ _ VF A5 A6) as (v & V1 & V2 & _). destruct (sel_of _ _ _ VD A2 A2) as (d & D1 & D2 & _).
      eapply draws_lift; [exact U1|]. eapply draws_lift; [exact V1|]. eapply draws_lift; [exact D1|]. rewrite U2, V2, D2.
      assert (LL : length (o true (@pa_dist E)) = length (o true (@pa_fobs E))) by (now apply len).
      assert (X := draws_arrows (o true (@pa_fobs E)) (o true (@pa_fobs E)) (o true (@pa_dist E)) eq_refl LL).
      replace (map (fun q => Arrow (fst q) (snd q) (vofnat E 0) (vsub E (snd q) (snd q))) (combine (o true (@pa_dist E)) (o true (@pa_fobs E)))) with
        (map (fun q => Arrow (snd q) (fst (fst q)) (vofnat E 0) (vsub E (snd (fst q)) (fst (fst q)))) (combine (combine (o true (@pa_fobs E)) (o true (@pa_fobs E))) (o true (@pa_dist E)))); [exact X|].
      clear - LL. revert LL. generalize (o true (@pa_dist E)) (o true (@pa_fobs E)). intros l. induction l as [|x l IH]; intros [|y k] L; try discriminate; [reflexivity|]. cbn. f_equal. apply IH. cbn in L. lia.
Qed.
Lemma luminosities : draws (display_luminosities p) (Ok tt) [Scatter "" (o true (@pa_dist E)) (o true (@pa_lum E)); Scatter "" (o false (@pa_dist E)) (o false (@pa_lum E))].
Proof.
  get tt. destruct (sel_of _ _ _ VD A2 A2) as (d & D1 & D2 & _). destruct (sel_of _ _ _ VL A1 A1) as (l & L1 & L2 & _).
  destruct (nonsel_of _ _ _ VD A2 A2) as (d' & D1' & D2' & _). destruct (nonsel_of _ _ _ VL A1 A1) as (l' & L1' & L2' & _).
  unfold display_luminosities. eapply draws_lift; [exact D1|]. eapply draws_lift; [exact L1|].
  apply (draws_seq _ _ _ _ tt _ [_] [_]).
  - rewrite <- D2, <- L2. apply draws_scatter. rewrite D2, L2. now apply len.
  - eapply draws_lift; [exact D1'|]. eapply draws_lift; [exact L1'|]. rewrite <- D2', <- L2'. apply draws_scatter. rewrite D2', L2'. now apply len.
Qed.
Lemma distances : draws (display_distances p) (Ok tt) [Hist (pa_dist a) (pa_rmax a) 40; Hist (o true (@pa_dist E)) (pa_rmax a) 40].
Proof.
  get tt. destruct (sel_of _ _ _ VD A2 A2) as (d & D1 & D2 & _). unfold display_distances. rewrite args. destruct VD as (VO & _).
  apply (draws_seq _ _ _ _ tt _ [_] [_]); [rewrite <- VO; apply draws_put|]. eapply draws_lift; [exact D1|]. rewrite D2. apply draws_put.
Qed.

(** *** Spheres *)
Variables vsin vcos : V -> V.
Definition wf (x : simvar V) n : Prop := mask_len (sv_sel x) = n /\ length (sv_obs x) = n /\ length (sv_lat x) = n.
Lemma u1 (f : V -> V) x n : wf x n -> exists y, ufunc1 DFloat f x = Ok y /\ wf y n /\ sv_obs y = map f (sv_obs x).
Proof. intros (A & B & C). unfold ufunc1. rewrite sv_new_ok by (rewrite !map_length; congruence). eexists. split; [reflexivity|]. split; [|reflexivity]. repeat split; cbn; rewrite ?map_length; assumption. Qed.
Lemma u2 x y n : wf x n -> wf y n -> exists z, mul2 x y = Ok z /\ wf z n /\ sv_obs z = map (fun q => vmul E (fst q) (snd q)) (combine (sv_obs x) (sv_obs y)).
Proof.
  intros (A & B & C) (A' & B' & C'). unfold mul2, ufunc2. cbn [obs_arg lat_arg ev2]. rewrite (bcast2_same _ (sv_obs x)) by congruence. rewrite (bcast2_same _ (sv_lat x)) by congruence. cbn [rbind].
  rewrite sv_new_ok by (rewrite ?map_length, !combine_length; lia). eexists. split; [reflexivity|]. split; [|reflexivity]. repeat split; cbn; rewrite ?map_length, ?combine_length; lia.
Qed.
Lemma each_x f g (r t q : list V) : map (fun w => vmul E (fst w) (snd w)) (combine (map (fun w => vmul E (fst w) (snd w)) (combine r (map f t))) (map g q)) =
  each (fun r t q => vmul E (vmul E r (f t)) (g q)) r t q.
Proof. unfold each. revert t q. induction r as [|x r IH]; intros [|y t] [|z q]; cbn; try reflexivity. now rewrite IH. Qed.
Lemma each_z f (r t q : list V) : length q = length r -> map (fun w => vmul E (fst w) (snd w)) (combine r (map f t)) = each (fun r t _ => vmul E r (f t)) r t q.
Proof. unfold each. revert t q. induction r as [|x r IH]; intros [|y t] [|z q] L; cbn; try reflexivity; try discriminate. rewrite (IH t q); [reflexivity|]. cbn in L. lia. Qed.
Lemma xyz_ok r t q n : wf r n -> wf t n -> wf q n -> exists x y z, xyz vsin vcos r t q = Ok (x, y, z) /\
  sv_obs x = each (cart_x vsin vcos) (sv_obs r) (sv_obs t) (sv_obs q) /\ sv_obs y = each (cart_y vsin vcos) (sv_obs r) (sv_obs t) (sv_obs q) /\
  sv_obs z = each (cart_z vcos) (sv_obs r) (sv_obs t) (sv_obs q).
Proof.
  intros R T Q. unfold xyz. destruct (u1 vsin t n T) as (st & -> & ST & ST'). destruct (u1 vcos t n T) as (ct & -> & CT & CT'). destruct (u1 vsin q n Q) as (sq & -> & SQ & SQ'). destruct (u1 vcos q n Q) as (cq & -> & CQ & CQ').
  cbn [rbind]. destruct (u2 r st n R ST) as (rs & -> & RS & RS'). cbn [rbind]. destruct (u2 rs cq n RS CQ) as (x & -> & X & X'). destruct (u2 rs sq n RS SQ) as (y & -> & Y & Y'). destruct (u2 r ct n R CT) as (z & -> & Z & Z'). cbn [rbind].
  exists x, y, z. split; [reflexivity|]. rewrite X', Y', Z', RS', CQ', SQ', ST', CT'. split; [apply each_x|]. split; [apply each_x|]. apply each_z. destruct R as (_ & -> & _). apply Q.
Qed.
Lemma sphere_ok cmap tr (fl d t q : simvar V) n : wf d n -> wf t n -> wf q n -> length (sv_obs fl) = n ->
  let D := match tr with Some g => map g (sv_obs d) | None => sv_obs d end in
  PlotSpec.draws (display_sphere vsin vcos cmap tr fl d t q) (Ok (negb (Nat.eqb n 0)))
    (if Nat.eqb n 0 then [] else [Points cmap (each (cart_x vsin vcos) D (sv_obs t) (sv_obs q)) (each (cart_y vsin vcos) D (sv_obs t) (sv_obs q)) (each (cart_z vcos) D (sv_obs t) (sv_obs q)) (sv_obs fl)]).
Proof.
  intros WD WT WQ L D. unfold display_sphere. destruct (sv_obs fl) as [|x r] eqn:F; cbn in L; [subst n; apply draws_ret|]. assert (NZ : Nat.eqb n 0 = false) by (subst n; reflexivity). rewrite NZ. cbn [negb].
  assert (X : exists d', match tr with Some g => ufunc1 DFloat g d | None => Ok d end = Ok d' /\ wf d' n /\ sv_obs d' = D).
  { destruct tr as [g|]; [exact (u1 g d n WD)|]. exists d. auto. }
  destruct X as (d' & X & W' & OD). eapply draws_lift; [exact X|]. destruct (xyz_ok d' t q n W' WT WQ) as (x1 & y1 & z1 & XZ & X1 & Y1 & Z1). eapply draws_lift; [exact XZ|].
  cbn [fst snd]. rewrite X1, Y1, Z1, OD. apply (draws_seq _ _ _ _ tt _ [_] []); [apply draws_put|apply draws_ret].
Qed.
Ltac wfs := split; [congruence|split; congruence].
Lemma obs_sphere cmap tr : PlotSpec.draws (display_obs_fluxes_sphere vsin vcos cmap tr p) (Ok (negb (Nat.eqb (count m) 0))) (sphere_of vsin vcos cmap tr true a).
Proof.
  get tt. unfold display_obs_fluxes_sphere. rewrite args. destruct (mask_of _ _ _ VT A3 A3) as (t & T1 & T2 & T3 & T4). destruct (mask_of _ _ _ VP A4 A4) as (q & Q1 & Q2 & Q3 & Q4).
  destruct (sel_of _ _ _ VF A5 A6) as (f & F1 & F2 & F3 & F4). destruct (sel_of _ _ _ VD A2 A2) as (d & D1 & D2 & D3 & D4).
  eapply draws_lift; [exact T1|]. eapply draws_lift; [exact Q1|]. eapply draws_lift; [exact F1|]. eapply draws_lift; [exact D1|].
  assert (K : forall l : list V, length l = length m -> length (keep true l m) = count m) by (intros; now apply keep_length).
  unfold sphere_of, of_objects. rewrite (K _ A5), <- T2, <- Q2, <- F2, <- D2. apply sphere_ok; [| | |rewrite F2; now apply K]; repeat split; rewrite ?T3, ?T4, ?Q3, ?Q4, ?D3, ?D4, ?T2, ?Q2, ?D2; now apply K.
Qed.
Lemma hidden_sphere cmap tr : PlotSpec.draws (display_hidden_fluxes_sphere vsin vcos cmap tr p) (Ok (negb (Nat.eqb (count (mnot m)) 0))) (sphere_of vsin vcos cmap tr false a).
Proof.
  get tt. unfold display_hidden_fluxes_sphere. destruct (nonsel_of _ _ _ VT A3 A3) as (t & T1 & T2 & T3 & T4). destruct (nonsel_of _ _ _ VP A4 A4) as (q & Q1 & Q2 & Q3 & Q4).
  destruct (nonsel_of _ _ _ VF A5 A6) as (f & F1 & F2 & F3 & F4). destruct (nonsel_of _ _ _ VD A2 A2) as (d & D1 & D2 & D3 & D4).
  eapply draws_lift; [exact T1|]. eapply draws_lift; [exact Q1|]. eapply draws_lift; [exact F1|]. eapply draws_lift; [exact D1|].
  assert (K : forall l : list V, length l = length m -> length (keep false l m) = count (mnot m)) by (intros; rewrite (keep_psize _ false) by assumption; reflexivity).
  unfold sphere_of, of_objects. rewrite (K _ A5), <- T2, <- Q2, <- F2, <- D2. apply sphere_ok; [| | |rewrite F2; now apply K]; repeat split; rewrite ?T3, ?T4, ?Q3, ?Q4, ?D3, ?D4, ?T2, ?Q2, ?D2; now apply K.
Qed.
Lemma both_spheres tr : PlotSpec.draws (display_flux_sphere vsin vcos tr p) (Ok (negb (Nat.eqb (count (mnot m)) 0)))
  (sphere_of vsin vcos "Reds" tr true a ++ sphere_of vsin vcos "Blues" tr false a).
Proof. unfold display_flux_sphere. eapply draws_seq; [apply obs_sphere|apply hidden_sphere]. Qed.

(** *** Text *)
Lemma text : draws (display p) (Ok tt) ([Head (pa_name a) (count m) (length m)] ++ match pa_lfpar a with Some d => [Table (pa_lfform a) d] | None => [] end ++ [Table (Some (pa_spform a)) (pa_sppar a)]).
Proof.
  get tt. unfold display. rewrite args. destruct VF as (-> & _). rewrite A5. eapply draws_seq; [apply draws_put|]. eapply draws_seq; [|apply draws_put]. destruct (pa_lfpar a); [apply draws_put|apply draws_ret].
Qed.

(** *** Limits *)
Lemma fold_min_le (OR : ordered E) : forall (l : list V) x, let b := fold_left (fun m b => if vle E m b then m else b) l x in vle E b x = true /\ forall y, In y l -> vle E b y = true.
Proof.
  destruct OR as [RF TR TO LT]. induction l as [|z l IH]; intros x; cbn; [split; [apply RF|intros y []]|].
  destruct (vle E x z) eqn:Q; destruct (IH (if vle E x z then x else z)) as [A B]; rewrite Q in A, B.
  - split; [exact A|]. intros y [<-|I]; [now apply (TR _ x)|now apply B].
  - assert (ZX : vle E z x = true) by (destruct (TO x z); congruence). split; [now apply (TR _ z)|]. intros y [<-|I]; [exact A|now apply B].
Qed.
Lemma np_min_le (OR : ordered E) (x : simvar V) b : np_min x = Ok b -> forall y, In y (sv_obs x) -> vle E b y = true.
Proof. unfold np_min. destruct (sv_obs x) as [|z l]; [discriminate|]. intros Q. injection Q as <-. destruct (fold_min_le OR l z) as [A B]. intros y [<-|I]; auto. Qed.
Lemma lowest_le (OR : ordered E) b : (match lowest p with Err ValueError => np_min (p_flux p) | r => r end) = Ok b -> forall y, In y (pa_fobs a) -> vle E b y = true.
Proof.
  get tt. intros Q y I. destruct VF as (O & _). rewrite <- O in I. unfold lowest in Q. destruct (np_min (p_flux p)) as [c|e] eqn:M; cbn [rbind] in Q.
  - assert (C : vle E c y = true) by (exact (np_min_le OR _ _ M y I)).
    destruct (sv_selected (p_flux p)) as [s|e]; cbn [rbind] in Q; [|destruct e; try discriminate; injection Q as <-; exact C].
    destruct (np_min s) as [d|e]; cbn [rbind] in Q; [|destruct e; try discriminate; injection Q as <-; exact C]. injection Q as <-. unfold min2. destruct OR as [RF TR TO LT]. rewrite LT.
    destruct (vle E c d) eqn:CD; cbn; [exact C|]. apply (TR _ c); [|exact C]. destruct (TO c d); congruence.
  - destruct e; try discriminate.
Qed.
End Pop.
End P.
