(** A draw calls the methods of every sampler it evaluates. *)
From Verif Require Import Base BaseFacts Env ParamModel SelModel DistModel DistSpec DistProofs AuxModel AuxSpec AuxProofs AuxRunSpec.
Open Scope list_scope.

Section P.
Variable E : env.
Notation V := (V E).
Notation sampler := (sampler E).
Notation world := (world E).

Lemma reads_values a o' ks vals : same_reads E (k_params (kind_of a)) (a_par (a_dy a)) o' ->
  values E (k_params (kind_of a)) (a_par (a_dy a)) ks vals ->
  Forall2 (fun k v => reading E (k_params (kind_of a)) o' k = Ok v) ks vals.
Proof. intros S F. eapply Forall2_impl; [|exact F]. cbn. intros k v H. now rewrite <- S. Qed.

(** Secondaries of [a] exist, are sampled, and are not [i]. *)
Definition ready (w : world) (i : nat) (a : sampler) : Prop :=
  forall k j, In (k, j) (a_sec (a_ln a)) -> j <> i /\ exists b, at_ w j b /\ a_sampled (a_dy b) = true.

Lemma sec_values_sees w h i l : (forall j, j <> i -> nth_error h j = nth_error (w_auxs w) j) ->
  (forall k j, In (k, j) l -> j <> i /\ exists b, at_ w j b /\ a_sampled (a_dy b) = true) ->
  Forall2 (fun (kj : string * nat) (kv : string * (option (list V) * option (list V))) =>
             fst kv = fst kj /\ exists b, at_ w (snd kj) b /\ a_sampled (a_dy b) = true /\ snd kv = (a_true (a_dy b), a_obs (a_dy b)))
          l (sec_values h l).
Proof.
  intros H R. induction l as [|[k j] l IH]; cbn [sec_values]; [constructor|]. constructor.
  - split; [reflexivity|]. destruct (R k j) as (N & b & B & S); [cbn; auto|]. exists b. split; [exact B|]. split; [exact S|].
    cbn [snd]. rewrite H by exact N. unfold at_ in B. now rewrite B.
  - apply IH. intros k' j' I. apply (R k'). cbn. auto.
Qed.

Lemma lset_others (w w' : world) i a : (forall j, j <> i -> nth_error (w_auxs w') j = nth_error (w_auxs w) j) ->
  forall j, j <> i -> nth_error (lset (w_auxs w') i a) j = nth_error (w_auxs w) j.
Proof. intros H j N. rewrite nth_lset_neq by auto. auto. Qed.

(** One method: read the parameters, look, run. *)
Definition rest (w w' : world) (i : nat) : Prop := forall j, j <> i -> nth_error (w_auxs w') j = nth_error (w_auxs w) j.
Definition alike (a a' : sampler) : Prop :=
  a_st a' = a_st a /\ a_ln a' = a_ln a /\ a_lum (a_dy a') = a_lum (a_dy a) /\
  same_reads E (k_params (kind_of a)) (a_par (a_dy a)) (a_par (a_dy a')).
Lemma alike_refl a : alike a a. Proof. split; [easy|]. split; [easy|]. split; [easy|]. apply same_refl. Qed.
Lemma alike_trans a b c : alike a b -> alike b c -> alike a c.
Proof.
  intros (A1 & A2 & A3 & A4) (B1 & B2 & B3 & B4). split; [congruence|]. split; [congruence|]. split; [congruence|].
  assert (K : kind_of b = kind_of a) by (unfold kind_of; now rewrite A1). rewrite K in B4. eapply same_trans; eauto.
Qed.
Lemma rest_refl w i : rest w w i. Proof. now intros j _. Qed.
Lemma rest_trans w1 w2 w3 i : rest w1 w2 i -> rest w2 w3 i -> rest w1 w3 i.
Proof. intros A B j N. rewrite B by exact N. auto. Qed.
Lemma rest_lset w i a : rest w (w_set_auxs (lset (w_auxs w) i a) w) i.
Proof. intros j N. cbn [w_auxs w_set_auxs]. apply nth_lset_neq. auto. Qed.

Lemma true_runs i size w w' a : at_ w i a -> ready w i a -> run_true i size w = (Ok tt, w') ->
  exists a' tvals tview x, at_ w' i a' /\ alike a a' /\ rest w w' i /\
    values E (k_params (kind_of a)) (a_par (a_dy a)) (k_treads (kind_of a)) tvals /\ sees w a tview /\
    k_true (kind_of a) tvals tview size (w_g w, w_n w) = (Ok x, (w_g w', w_n w')) /\ assigned E x (a_true (a_dy a')).
Proof.
  intros A RD H. unfold run_true in H. rewrite (bind_ok _ _ _ (get_aux_at _ _ _ _ A)) in H.
  apply bind_inv_ok in H. destruct H as (u & w1 & H1 & H). unfold modify in H1. injection H1 as _ <-.
  apply bind_inv_ok in H. destruct H as (vals & w2 & H2 & H). apply aux_reads_inv in H2. destruct H2 as (a0 & o & A0 & P & ->).
  assert (a0 = a) by (eapply at_fun; [exact A0|exact A]). subst a0.
  destruct (preads_ok _ _ _ _ _ _ P) as [VA SR].
  set (w0 := w_add_log i w) in *. set (w2 := w_set_auxs (lset (w_auxs w0) i (upd_dy (dy_par o) a)) w0) in *.
  assert (A2 : at_ w2 i (upd_dy (dy_par o) a)) by (now apply at_set).
  rewrite (bind_ok _ _ _ (get_aux_at _ _ _ _ A2)) in H.
  apply bind_inv_ok in H. destruct H as (x & w4 & H4 & H).
  match type of H4 with (let (_, _) := ?t in _) = _ => destruct t as [r g] eqn:K end. injection H4 as -> <-.
  assert (SE : sees w a (view_of (w_auxs w2) (upd_dy (dy_par o) a))).
  { split; [reflexivity|]. cbn [view_of vw_sec]. apply sec_values_sees with (i := i); [|exact RD].
    intros j N. cbn [w2 w_auxs w_set_auxs]. now rewrite nth_lset_neq by auto. }
  assert (R2 : rest w w2 i) by (intros j N; cbn [w2 w_auxs w_set_auxs]; now rewrite nth_lset_neq by auto).
  destruct x as [l|].
  - apply upd_aux_inv in H. destruct H as (a3 & A3 & ->).
    assert (a3 = upd_dy (dy_par o) a) by (eapply at_fun; [exact A3|exact A2]). subst a3.
    eexists _, vals, _, (Some l). split; [apply at_set; exact A3|]. split; [split; [reflexivity|]; split; [reflexivity|]; split; [reflexivity|exact SR]|].
    split; [eapply rest_trans; [exact R2|]; intros j N; cbn [w_auxs w_set_auxs w_set_gens]; now rewrite nth_lset_neq by auto|].
    split; [exact VA|]. split; [exact SE|]. split; [|reflexivity]. change (w_g w2) with (w_g w) in K. change (w_n w2) with (w_n w) in K.
    rewrite K. f_equal. now destruct g.
  - injection H as <-. eexists _, vals, _, None. split; [exact A2|]. split; [split; [reflexivity|]; split; [reflexivity|]; split; [reflexivity|exact SR]|].
    split; [exact R2|]. split; [exact VA|]. split; [exact SE|]. split; [|exact I]. change (w_g w2) with (w_g w) in K. change (w_n w2) with (w_n w) in K.
    rewrite K. f_equal. now destruct g.
Qed.

Lemma obs_runs i size w w' a : at_ w i a -> ready w i a -> run_obs i size w = (Ok tt, w') ->
  exists a' ovals oview y, at_ w' i a' /\ alike a a' /\ rest w w' i /\ a_true (a_dy a') = a_true (a_dy a) /\
    values E (k_params (kind_of a)) (a_par (a_dy a)) (k_oreads (kind_of a)) ovals /\ sees w a oview /\ vw_true oview = a_true (a_dy a) /\
    k_obs (kind_of a) ovals oview size (w_g w, w_n w) = (Ok y, (w_g w', w_n w')) /\ assigned E y (a_obs (a_dy a')).
Proof.
  intros A RD H. unfold run_obs in H. rewrite (bind_ok _ _ _ (get_aux_at _ _ _ _ A)) in H.
  apply bind_inv_ok in H. destruct H as (vals & w2 & H2 & H). apply aux_reads_inv in H2. destruct H2 as (a0 & o & A0 & P & ->).
  assert (a0 = a) by (eapply at_fun; [exact A0|exact A]). subst a0.
  destruct (preads_ok _ _ _ _ _ _ P) as [VA SR].
  set (w2 := w_set_auxs (lset (w_auxs w) i (upd_dy (dy_par o) a)) w) in *.
  assert (A2 : at_ w2 i (upd_dy (dy_par o) a)) by (now apply at_set).
  rewrite (bind_ok _ _ _ (get_aux_at _ _ _ _ A2)) in H.
  apply bind_inv_ok in H. destruct H as (x & w4 & H4 & H).
  match type of H4 with (let (_, _) := ?t in _) = _ => destruct t as [r g] eqn:K end. injection H4 as -> <-.
  assert (SE : sees w a (view_of (w_auxs w2) (upd_dy (dy_par o) a))).
  { split; [reflexivity|]. cbn [view_of vw_sec]. apply sec_values_sees with (i := i); [|exact RD].
    intros j N. cbn [w2 w_auxs w_set_auxs]. now rewrite nth_lset_neq by auto. }
  assert (R2 : rest w w2 i) by (intros j N; cbn [w2 w_auxs w_set_auxs]; now rewrite nth_lset_neq by auto).
  destruct x as [l|].
  - apply upd_aux_inv in H. destruct H as (a3 & A3 & ->).
    assert (a3 = upd_dy (dy_par o) a) by (eapply at_fun; [exact A3|exact A2]). subst a3.
    eexists _, vals, _, (Some l). split; [apply at_set; exact A3|]. split; [split; [reflexivity|]; split; [reflexivity|]; split; [reflexivity|exact SR]|].
    split; [eapply rest_trans; [exact R2|]; intros j N; cbn [w_auxs w_set_auxs w_set_gens]; now rewrite nth_lset_neq by auto|]. split; [reflexivity|].
    split; [exact VA|]. split; [exact SE|]. split; [reflexivity|]. split; [|reflexivity]. change (w_g w2) with (w_g w) in K. change (w_n w2) with (w_n w) in K.
    rewrite K. f_equal. now destruct g.
  - injection H as <-. eexists _, vals, _, None. split; [exact A2|]. split; [split; [reflexivity|]; split; [reflexivity|]; split; [reflexivity|exact SR]|].
    split; [exact R2|]. split; [reflexivity|]. split; [exact VA|]. split; [exact SE|]. split; [reflexivity|]. split; [|exact I]. change (w_g w2) with (w_g w) in K. change (w_n w2) with (w_n w) in K.
    rewrite K. f_equal. now destruct g.
Qed.

Lemma prob_runs i w w' a : at_ w i a -> ready w i a -> run_prob i w = (Ok tt, w') ->
  exists a' pvals pview, at_ w' i a' /\ alike a a' /\ rest w w' i /\ a_true (a_dy a') = a_true (a_dy a) /\ a_obs (a_dy a') = a_obs (a_dy a) /\
    values E (k_params (kind_of a)) (a_par (a_dy a)) (k_preads (kind_of a)) pvals /\ sees w a pview /\ vw_true pview = a_true (a_dy a) /\
    vw_obs pview = a_obs (a_dy a) /\ k_prob (kind_of a) pvals pview = Ok (a_prob (a_dy a')).
Proof.
  intros A RD H. unfold run_prob in H. rewrite (bind_ok _ _ _ (get_aux_at _ _ _ _ A)) in H.
  apply bind_inv_ok in H. destruct H as (vals & w2 & H2 & H). apply aux_reads_inv in H2. destruct H2 as (a0 & o & A0 & P & ->).
  assert (a0 = a) by (eapply at_fun; [exact A0|exact A]). subst a0.
  destruct (preads_ok _ _ _ _ _ _ P) as [VA SR].
  set (w2 := w_set_auxs (lset (w_auxs w) i (upd_dy (dy_par o) a)) w) in *.
  assert (A2 : at_ w2 i (upd_dy (dy_par o) a)) by (now apply at_set).
  rewrite (bind_ok _ _ _ (get_aux_at _ _ _ _ A2)) in H.
  apply bind_inv_ok in H. destruct H as (x & w4 & H4 & H). unfold get in H4. injection H4 as <- <-.
  apply bind_inv_ok in H. destruct H as (x1 & w4 & H4 & H). unfold lift in H4. injection H4 as K <-.
  assert (SE : sees w a (view_of (w_auxs w2) (upd_dy (dy_par o) a))).
  { split; [reflexivity|]. cbn [view_of vw_sec]. apply sec_values_sees with (i := i); [|exact RD].
    intros j N. cbn [w2 w_auxs w_set_auxs]. now rewrite nth_lset_neq by auto. }
  assert (R2 : rest w w2 i) by (intros j N; cbn [w2 w_auxs w_set_auxs]; now rewrite nth_lset_neq by auto).
  apply upd_aux_inv in H. destruct H as (a3 & A3 & ->).
  assert (a3 = upd_dy (dy_par o) a) by (eapply at_fun; [exact A3|exact A2]). subst a3.
  eexists _, vals, _. split; [apply at_set; exact A3|]. split; [split; [reflexivity|]; split; [reflexivity|]; split; [reflexivity|exact SR]|].
  split; [eapply rest_trans; [exact R2|]; intros j N; cbn [w_auxs w_set_auxs w_set_gens]; now rewrite nth_lset_neq by auto|]. split; [reflexivity|]. split; [reflexivity|].
  split; [exact VA|]. split; [exact SE|]. split; [reflexivity|]. split; [reflexivity|]. exact K.
Qed.

Lemma alike_kind a a' : alike a a' -> kind_of a' = kind_of a.
Proof. intros (H & _). unfold kind_of. now rewrite H. Qed.
Lemma alike_reads a a' ks vals : alike a a' -> values E (k_params (kind_of a)) (a_par (a_dy a)) ks vals -> Forall2 (reads_as a') ks vals.
Proof.
  intros A F. assert (K := alike_kind _ _ A). destruct A as (_ & _ & _ & S). eapply Forall2_impl; [|exact F]. cbn. unfold reads_as. intros k v H. rewrite K, <- S. exact H.
Qed.
(** Looking later shows the same. *)
Definition steady (w w' : world) (a : sampler) : Prop := forall k j b, In (k, j) (a_sec (a_ln a)) -> at_ w j b -> a_sampled (a_dy b) = true ->
  exists b', at_ w' j b' /\ a_sampled (a_dy b') = true /\ a_true (a_dy b') = a_true (a_dy b) /\ a_obs (a_dy b') = a_obs (a_dy b).
Lemma sees_steady w w' a a' v : a_ln a' = a_ln a -> a_lum (a_dy a') = a_lum (a_dy a) -> steady w w' a -> sees w a v -> sees w' a' v.
Proof.
  intros L M S (V1 & V2). split; [congruence|]. rewrite L. unfold steady in S. clear L M V1. revert V2 S. generalize (a_sec (a_ln a)) as l. generalize (vw_sec v) as r.
  intros r l F. induction F as [|[k j] [k' x] l r (Q & b & B & SB & X) F IH]; intros S; constructor.
  - split; [exact Q|]. cbn [snd] in *. destruct (S k j b) as (b' & B' & S' & T & O); [cbn; auto|exact B|exact SB|]. exists b'. split; [exact B'|]. split; [exact S'|]. now rewrite T, O.
  - apply IH. intros k0 j0 b0 I. apply (S k0). cbn. auto.
Qed.
Lemma rest_steady w w' i a : ready w i a -> rest w w' i -> steady w w' a.
Proof. intros R Q k j b I B S. destruct (R k j I) as (N & _). exists b. unfold at_. rewrite Q by exact N. auto. Qed.
Lemma rest_ready w w' i a a' : a_ln a' = a_ln a -> ready w i a -> rest w w' i -> ready w' i a'.
Proof. intros L R Q k j I. rewrite L in I. destruct (R k j I) as (N & b & B & S). split; [exact N|]. exists b. unfold at_. rewrite Q by exact N. auto. Qed.

Lemma finish_runs prog i size w w' a : at_ w i a -> ready w i a -> aux_finish prog i size w = (Ok tt, w') ->
  exists a', at_ w' i a' /\ alike a a' /\ made_by_methods size w' a'.
Proof.
  intros A RD H. unfold aux_finish in H. apply bind_inv_ok in H. destruct H as (u & w1 & H1 & H). destruct u.
  destruct (true_runs _ _ _ _ _ A RD H1) as (a1 & tv & tview & x & A1 & K1 & R1 & TV & TS & TR & TA). clear H1.
  assert (RD1 : ready w1 i a1) by (eapply rest_ready; [apply K1|exact RD|exact R1]).
  rewrite (bind_ok _ _ _ (get_aux_at _ _ _ _ A1)) in H.
  apply bind_inv_ok in H. destruct H as (u & w2 & H2 & H). destruct u.
  assert (X : exists a2, at_ w2 i a2 /\ alike a1 a2 /\ rest w1 w2 i /\ a_true (a_dy a2) = a_true (a_dy a1) /\
     if a_observed (a_st a1) then exists ovals oview g2 y,
        values E (k_params (kind_of a1)) (a_par (a_dy a1)) (k_oreads (kind_of a1)) ovals /\ sees w1 a1 oview /\ vw_true oview = a_true (a_dy a1) /\
        k_obs (kind_of a1) ovals oview size (w_g w1, w_n w1) = (Ok y, g2) /\ assigned E y (a_obs (a_dy a2))
     else a_obs (a_dy a2) = a_true (a_dy a2)).
  { destruct (a_observed (a_st a1)).
    - destruct (obs_runs _ _ _ _ _ A1 RD1 H2) as (a2 & ov & oview & y & A2 & K2 & R2 & T2 & OV & OS & OT & OR & OA).
      exists a2. split; [exact A2|]. split; [exact K2|]. split; [exact R2|]. split; [exact T2|]. exists ov, oview, (w_g w2, w_n w2), y. auto.
    - apply upd_aux_inv in H2. destruct H2 as (b & B & ->). assert (b = a1) by (eapply at_fun; eauto). subst b.
      eexists. split; [now apply at_set|]. split; [split; [reflexivity|]; split; [reflexivity|]; split; [reflexivity|]; apply same_refl|]. split; [apply rest_lset|]. split; reflexivity. }
  destruct X as (a2 & A2 & K2 & R2 & T2 & OB). clear H2.
  rewrite (bind_ok _ _ _ (get_aux_at _ _ _ _ A2)) in H.
  apply bind_inv_ok in H. destruct H as (u & w3 & H3 & H). apply upd_sel_inv in H3. destruct H3 as (s & _ & ->).
  apply bind_inv_ok in H. destruct H as (u1 & w4 & H4 & H). unfold lift in H4. injection H4 as _ <-.
  apply bind_inv_ok in H. destruct H as (u2 & w4 & H4 & H). unfold lift in H4. injection H4 as _ <-.
  match type of H with bind _ _ ?w = _ => set (w3 := w) in * end.
  assert (A3 : at_ w3 i a2) by exact A2.
  apply bind_inv_ok in H. destruct H as (u3 & w4 & H4 & H). apply upd_aux_inv in H4. destruct H4 as (b & B & ->). assert (b = a2) by (eapply at_fun; eauto). subst b.
  set (a4 := upd_dy (dy_sampled true) a2) in *. set (w4 := w_set_auxs (lset (w_auxs w3) i a4) w3) in *.
  assert (A4 : at_ w4 i a4) by now apply at_set.
  apply bind_inv_ok in H. destruct H as (u4 & w5 & H5 & H). apply on_sel_inv in H5. destruct H5 as (y & y' & g' & _ & _ & ->).
  match type of H with run_prob _ ?w = _ => set (w5 := w) in * end.
  assert (A5 : at_ w5 i a4) by exact A4.
  assert (R5 : rest w2 w5 i) by (intros j N; cbn [w5 w4 w3 w_auxs w_set_auxs w_set_gens w_set_sels]; now rewrite nth_lset_neq by auto).
  assert (K4 : alike a2 a4) by (split; [reflexivity|]; split; [reflexivity|]; split; [reflexivity|]; apply same_refl).
  assert (RD5 : ready w5 i a4).
  { eapply rest_ready; [|exact RD1|eapply rest_trans; [exact R2|exact R5]]. transitivity (a_ln a2); [reflexivity|apply K2]. }
  destruct (prob_runs _ _ _ _ A5 RD5 H) as (a6 & pv & pview & A6 & K6 & R6 & T6 & O6 & PV & PS & PT & PO & PR).
  assert (K46 : alike a2 a6) by (eapply alike_trans; [exact K4|exact K6]).
  assert (K16 : alike a1 a6) by (eapply alike_trans; [exact K2|exact K46]).
  assert (K06 : alike a a6) by (eapply alike_trans; [exact K1|exact K16]).
  exists a6. split; [exact A6|]. split; [exact K06|].
  assert (R15 : rest w1 w' i) by (eapply rest_trans; [exact R2|]; eapply rest_trans; [exact R5|exact R6]).
  assert (R05 : rest w w' i) by (eapply rest_trans; [exact R1|exact R15]).
  change (a_true (a_dy a4)) with (a_true (a_dy a2)) in *. change (a_obs (a_dy a4)) with (a_obs (a_dy a2)) in *.
  exists tv, tview, (w_g w, w_n w), (w_g w1, w_n w1), x. rewrite (alike_kind _ _ K06).
  split; [eapply alike_reads; [exact K06|exact TV]|].
  split; [eapply sees_steady; [apply K06|apply K06|eapply rest_steady; [exact RD|exact R05]|exact TS]|].
  split; [exact TR|]. split; [now rewrite T6, T2|]. split.
  - rewrite (proj1 K16). destruct (a_observed (a_st a1)).
    + destruct OB as (ov & oview & g2 & z & OV & OS & OT & OR & OA). exists ov, oview, g2, z. rewrite <- (alike_kind _ _ K1).
      split; [eapply alike_reads; [exact K16|exact OV]|].
      split; [eapply sees_steady; [apply K16|apply K16|eapply rest_steady; [exact RD1|exact R15]|exact OS]|].
      split; [rewrite T6, T2; exact OT|]. split; [exact OR|]. now rewrite O6.
    + now rewrite T6, O6.
  - exists pv, pview. replace (kind_of a) with (kind_of a4) by (rewrite <- (alike_kind _ _ K1), <- (alike_kind _ _ K2); reflexivity).
    split; [eapply alike_reads; [exact K6|exact PV]|].
    split; [eapply sees_steady; [apply K6|apply K6|eapply rest_steady; [exact RD5|exact R6]|exact PS]|].
    split; [rewrite T6; exact PT|]. split; [rewrite O6; exact PO|exact PR].
Qed.

(** Later evaluations of other samplers change none of this. *)
Lemma made_frame size w w' a a' : same_values a a' -> steady w w' a -> made_by_methods size w a -> made_by_methods size w' a'.
Proof.
  intros (V1 & V2 & V3 & V4 & V5 & V6 & V7 & V8) S (tv & tview & g0 & g1 & x & H1 & H2 & H3 & H4 & H5 & pv & pview & P1 & P2 & P3 & P4 & P5).
  assert (K : kind_of a' = kind_of a) by (unfold kind_of; now rewrite V1).
  assert (RE : forall ks l, Forall2 (reads_as a) ks l -> Forall2 (reads_as a') ks l).
  { intros ks l F. eapply Forall2_impl; [|exact F]. unfold reads_as. intros k v. now rewrite K, V3. }
  assert (SE : forall v, sees w a v -> sees w' a' v) by (intros v; apply sees_steady; auto).
  exists tv, tview, g0, g1, x. rewrite K, <- V5, <- V6, <- V7, <- V1. split; [auto|]. split; [auto|]. split; [auto|]. split; [auto|]. split.
  - destruct (a_observed (a_st a)); [|exact H5]. destruct H5 as (ov & oview & g2 & y & O1 & O2 & O3 & O4 & O5). exists ov, oview, g2, y. auto.
  - exists pv, pview. auto 10.
Qed.

Lemma drew_steady prog n w t w' a : drew prog n w t w' -> steady w w' a.
Proof.
  intros D k j b _ B S. destruct (dr_frame D (j := j) (a := b)) as (b' & B' & V); [|exact B|].
  - intros I. apply (dr_new D I). exists b. auto.
  - exists b'. destruct V as (_ & _ & _ & V4 & V5 & V6 & _). split; [exact B'|]. split; [congruence|]. split; congruence.
Qed.
Lemma drew_made prog n (w : world) t w' j a : drew prog n w t w' -> at_ w j a -> ~ In j t -> made_by_methods n w a -> exists a', at_ w' j a' /\ made_by_methods n w' a'.
Proof.
  intros D A N M. destruct (dr_frame D (j := j) (a := a) N A) as (a' & A' & V). exists a'. split; [exact A'|].
  eapply made_frame; [exact V|eapply drew_steady; exact D|exact M].
Qed.

Theorem draw_made prog fuel : forall i size (w w' : world) (r : nat -> nat),
  (forall i j, depends w i j -> r j < r i) -> aux_draw prog fuel i size w = (Ok tt, w') ->
  forall j, ~ sampled w j -> sampled w' j -> exists a, at_ w' j a /\ made_by_methods size w' a.
Proof.
  induction fuel as [|fuel IH]; intros i size w w' r R H; cbn [aux_draw] in H; [discriminate|].
  apply bind_inv_ok in H. destruct H as (a & w1 & H1 & H). apply get_aux_inv in H1. destruct H1 as [-> A].
  destruct (a_sampled (a_dy a)) eqn:S; [injection H as <-; tauto|].
  assert (NS : ~ sampled w i).
  { intros (b & B & SB). assert (b = a) by (eapply at_fun; eauto). subst. congruence. }
  apply bind_inv_ok in H. destruct H as (u & w1 & H1 & H). destruct u.
  apply pre_inv in H1. destruct H1 as (sels & -> & LS & K).
  apply bind_inv_ok in H. destruct H as (u & w1 & H1 & H). destruct u.
  set (w0 := w_set_sels sels w) in *.
  assert (X : forall l wa wb, same_wiring w wa -> (forall k, sampled w k -> sampled wa k) ->
    (forall kv, In kv l -> depends w i (snd kv)) ->
    iterM (fun kv : string * nat =>
          let! b := get_aux (snd kv) in
          if a_issec (a_ln b) then
            match a_sp (a_dy a) with
            | None => raise AttributeError
            | Some sp => set_sp (snd kv) sp ;; aux_draw prog fuel (snd kv) size
            end
          else raise RuntimeError) l wa = (Ok tt, wb) ->
    exists t, drew prog size wa t wb /\ (forall kv, In kv l -> sampled wb (snd kv)) /\
      (forall j, In j t -> exists kv, In kv l /\ pending w (snd kv) j) /\
      forall j, ~ sampled wa j -> sampled wb j -> exists a, at_ wb j a /\ made_by_methods size wb a).
  { clear H1 H w1. induction l as [|kv l IHl]; intros wa wb W MS DL H; cbn [iterM] in H.
    - injection H as <-. exists []. split; [apply drew_nil|]. split; [easy|]. split; [easy|]. tauto.
    - apply bind_inv_ok in H. destruct H as (u & wc & H1 & H). destruct u.
      apply bind_inv_ok in H1. destruct H1 as (b & w1 & H1 & H2). apply get_aux_inv in H1.
      destruct H1 as [-> B]. destruct (a_issec (a_ln b)); [|discriminate].
      destruct (a_sp (a_dy a)) as [sp|]; [|discriminate].
      apply bind_inv_ok in H2. destruct H2 as (u & w1 & H1 & H2). destruct u.
      assert (D1 := drew_set_sp E prog size _ _ _ _ H1).
      assert (R1 : forall x y, depends w1 x y -> r y < r x).
      { intros x y D. apply R. eapply wiring_depends; [|exact D]. apply wiring_sym. eapply wiring_trans; [exact W|apply (dr_wiring D1)]. }
      assert (M1 := IH _ _ _ _ r R1 H2).
      destruct (draw_drew _ _ _ _ _ _ _ r R1 H2) as (t1 & D2 & SC & P1 & _).
      assert (D3 := drew_app _ _ _ _ _ _ _ _ D1 D2). cbn in D3.
      apply IHl in H.
      + destruct H as (t2 & D4 & SL & P2 & M2). exists (t1 ++ t2). split; [eapply drew_app; eauto|]. split; [|split].
        * intros kv' [<-|I]; [|auto]. apply (dr_sampled D4). auto.
        * intros j I. apply in_app_iff in I. destruct I as [I|I].
          -- exists kv. split; [cbn; auto|]. apply P1 in I. eapply pending_mono; [| |exact I].
             ++ eapply wiring_trans; [exact W|apply (dr_wiring D1)].
             ++ intros k Sk. apply (dr_sampled D1). auto.
          -- destruct (P2 j I) as (kv' & I' & P). exists kv'. cbn. auto.
        * intros j N SJ. destruct (sampled_dec _ wc j) as [SC'|NC].
          -- destruct (M1 j) as (c & C & MC); [|exact SC'|].
             ++ intros Q. apply (dr_sampled D1) in Q. destruct Q as [Q|[]]. contradiction.
             ++ eapply drew_made; [exact D4|exact C| |exact MC]. intros I. apply (dr_new D4 I). exact SC'.
          -- now apply M2.
      + eapply wiring_trans; [exact W|apply (dr_wiring D3)].
      + intros k Sk. apply (dr_sampled D3). auto.
      + intros kv' I. apply DL. cbn. auto. }
  destruct (X (a_sec (a_ln a)) w0 w1) as (t & D & SL & P & M); [reflexivity|easy| |exact H1|].
  { intros [k j] I. exists a, k. auto. }
  assert (RI : forall k j, In (k, j) (a_sec (a_ln a)) -> j <> i).
  { intros k j I ->. assert (r i < r i) by (apply R; exists a, k; auto). lia. }
  assert (NI : ~ In i t).
  { intros I. destruct (P i I) as ([k j] & IK & PI). cbn in PI.
    assert (r j < r i) by (apply R; exists a, k; auto).
    apply pending_reaches in PI. apply (reaches_rank _ _ _ _ _ R) in PI. lia. }
  destruct (dr_frame D (j := i) (a := a) NI A) as (a1 & A1 & V1).
  assert (RD : ready w1 i a1).
  { intros k j I. rewrite <- (proj1 (proj2 V1)) in I. split; [exact (RI k j I)|]. exact (SL _ I). }
  destruct (finish_runs _ _ _ _ _ _ A1 RD H) as (a2 & A2 & K2 & M2).
  destruct (finish_ok _ _ _ _ _ _ _ A1 H) as (L & _).
  intros j N SJ. destruct (Nat.eq_dec j i) as [->|NJ]; [eauto|].
  assert (RS : rest w1 w' i) by (intros x NX; rewrite (lo_aux _ _ _ _ _ L); [reflexivity|easy]).
  assert (SJ1 : sampled w1 j) by (destruct SJ as (b & B & SB); exists b; unfold at_ in *; rewrite RS in B by exact NJ; auto).
  destruct (M j N SJ1) as (b & B & MB). exists b. split; [unfold at_; rewrite RS by exact NJ; exact B|].
  eapply made_frame; [apply same_values_refl| |exact MB].
  intros k x c I C SCx. destruct (Nat.eq_dec x i) as [->|NX].
  - exfalso. assert (~ sampled w1 i).
    { intros Q. apply (dr_sampled D) in Q. destruct Q as [Q|Q]; [apply NS; exact Q|contradiction]. }
    apply H0. exists c. auto.
  - exists c. unfold at_. rewrite RS by exact NX. auto.
Qed.
End P.
