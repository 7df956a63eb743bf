From Verif Require Import Base BaseFacts Env ParamModel DistModel DistSpec.
Open Scope string_scope.

Local Opaque grid.
Section P.
Variable E : env.
Notation V := (V E).
Notation Rst := (Rst E).
Notation zero := (vofnat E 0).
Notation one := (vofnat E 1).
Notation reading := (reading E).
Notation same_reads := (same_reads E).
Implicit Types c : pclass V.
Implicit Types o : pobj V.

(** ** Parameters *)
Lemma pread_eq c k o d : dget c k = Some d -> pread E c k o = param_get d k o.
Proof. intros H. unfold pread. now rewrite H. Qed.

(** The value a stored entry reads as. *)
Definition entry_value (d : pdecl V) (e : option (option V)) : res V :=
  match e with
  | Some (Some v) => Ok v
  | _ => of_opt AssertionError (pd_default d)
  end.

Lemma param_get_value d k o : fst (param_get d k o) = entry_value d (dget (po_store o) k).
Proof.
  unfold param_get, touch_norm, entry_value.
  destruct (pd_norm d); cbn [po_store po_norm];
  destruct (dget (po_store o) k) as [[v|]|]; try reflexivity; destruct (pd_default d); reflexivity.
Qed.

Lemma reading_eq c k o : reading c o k =
  match dget c k with None => Err AttributeError | Some d => entry_value d (dget (po_store o) k) end.
Proof. unfold reading, pread. destruct (dget c k); [apply param_get_value|reflexivity]. Qed.

Lemma param_get_store d k o k2 : k2 <> k ->
  dget (po_store (snd (param_get d k o))) k2 = dget (po_store o) k2.
Proof.
  intros N. unfold param_get, touch_norm.
  destruct (pd_norm d); cbn [po_store po_norm];
  destruct (dget (po_store o) k) as [[v|]|]; try reflexivity; destruct (pd_default d); cbn;
  now apply dget_dset_neq.
Qed.

Lemma param_get_entry d k o :
  entry_value d (dget (po_store (snd (param_get d k o))) k) = entry_value d (dget (po_store o) k).
Proof.
  unfold param_get, touch_norm.
  destruct (pd_norm d); cbn [po_store po_norm];
  destruct (dget (po_store o) k) as [[v|]|] eqn:Hk; cbn [snd po_store]; try (now rewrite Hk);
  destruct (pd_default d) as [v|] eqn:Hd; cbn [snd po_store]; rewrite dget_dset_eq; cbn; now rewrite Hd.
Qed.

Lemma param_get_norm d k o :
  po_norm (snd (param_get d k o)) = if pd_norm d then Some k else po_norm o.
Proof.
  unfold param_get, touch_norm.
  destruct (pd_norm d); cbn [po_store po_norm];
  destruct (dget (po_store o) k) as [[v|]|]; try reflexivity; destruct (pd_default d); reflexivity.
Qed.

Lemma same_refl c o : same_reads c o o.
Proof. intros k. reflexivity. Qed.
Lemma same_trans c o1 o2 o3 : same_reads c o1 o2 -> same_reads c o2 o3 -> same_reads c o1 o3.
Proof. intros H1 H2 k. now rewrite H1. Qed.
Lemma same_sym c o1 o2 : same_reads c o1 o2 -> same_reads c o2 o1.
Proof. intros H k. now rewrite H. Qed.

Lemma pread_same c k o : same_reads c o (snd (pread E c k o)).
Proof.
  intros k2. rewrite !reading_eq. unfold pread.
  destruct (dget c k) as [d|] eqn:Dk; [|reflexivity].
  destruct (dget c k2) as [d2|] eqn:D2; [|reflexivity].
  destruct (String.eqb_spec k2 k) as [->|N].
  - assert (d2 = d) by congruence. subst. now rewrite param_get_entry.
  - now rewrite param_get_store.
Qed.

Lemma pread_norm c k o : po_norm (snd (pread E c k o)) =
  match dget c k with Some d => if pd_norm d then Some k else po_norm o | None => po_norm o end.
Proof. unfold pread. destruct (dget c k); [apply param_get_norm|reflexivity]. Qed.

Lemma wf_pread c k o : wf_par E c o -> wf_par E c (snd (pread E c k o)).
Proof.
  intros (U & N & R). split; [exact U|]. split; [|exact R]. intros k2 H. rewrite pread_norm in H.
  destruct (dget c k) as [d|] eqn:Dk; [|auto].
  destruct (pd_norm d) eqn:Nd; [|auto]. injection H as <-. eauto.
Qed.

Lemma wf_new c : (forall d, dget c "r_max" = Some d -> pd_norm d = false) -> (forall k1 k2 d1 d2, dget c k1 = Some d1 -> dget c k2 = Some d2 ->
     pd_norm d1 = true -> pd_norm d2 = true -> k1 = k2) -> wf_par E c (pobj_new V).
Proof. intros R H. split; [exact H|]. split; [|exact R]. cbn. discriminate. Qed.

Lemma wf_param_set c k d v o : dget c k = Some d -> wf_par E c o ->
  wf_par E c (snd (param_set (fun a b => vle E b a) (vle E) d k v o)).
Proof.
  intros D (U & N & R). split; [exact U|]. split; [|exact R]. intros k2. unfold param_set, touch_norm.
  destruct (pd_norm d) eqn:Nd; destruct (pd_free d);
    try match goal with |- context [rbind ?a ?b] => destruct (rbind a b) end;
    cbn; intros H; try (injection H as <-); eauto.
Qed.

(** Reading several parameters. *)
Lemma preads_ok c ks o vals o' : preads E c ks o = (Ok vals, o') ->
  values E c o ks vals /\ same_reads c o o'.
Proof.
  unfold preads, values. revert o vals. induction ks as [|k ks IH]; intros o vals H.
  - cbn in H. injection H as <- <-. split; [constructor|apply same_refl].
  - cbn [mapM] in H. apply bind_inv_ok in H. destruct H as (v & o1 & H1 & H2).
    apply bind_inv_ok in H2. destruct H2 as (vs & o2 & H2 & H3).
    injection H3 as <- <-. destruct (IH _ _ H2) as [F S].
    assert (S1 : same_reads c o o1) by (change o1 with (snd (Ok v, o1)); rewrite <- H1; apply pread_same).
    split.
    + constructor; [unfold reading; now rewrite H1|].
      eapply Forall2_impl; [|exact F]. cbn. intros a b Hab. now rewrite S1.
    + eapply same_trans; eauto.
Qed.

Lemma preads_succeeds c ks o vals : values E c o ks vals ->
  exists o', preads E c ks o = (Ok vals, o').
Proof.
  unfold preads, values. intros F. revert o F. induction vals as [|v vals IH] in ks |- *; intros o F;
    inversion F as [|k ? ks' ? Hk Fs]; subst.
  - eexists. reflexivity.
  - cbn [mapM]. unfold reading in Hk. destruct (pread E c k o) as [r o1] eqn:P. cbn in Hk. subst r.
    rewrite (bind_ok _ _ _ P).
    assert (S1 : same_reads c o o1) by (change o1 with (snd (Ok v, o1)); rewrite <- P; apply pread_same).
    destruct (IH ks' o1) as (o2 & H2).
    { eapply Forall2_impl; [|exact Fs]. cbn. intros a b Hab. now rewrite <- S1. }
    rewrite (bind_ok _ _ _ H2). eexists. reflexivity.
Qed.

Lemma wf_preads c ks o : wf_par E c o -> wf_par E c (snd (preads E c ks o)).
Proof.
  unfold preads. revert o. induction ks as [|k ks IH]; intros o W; [exact W|].
  cbn [mapM]. unfold bind. pose proof (wf_pread c k o W) as W1.
  destruct (pread E c k o) as [[v|e] o1]; [|exact W1]. cbn in W1. specialize (IH o1 W1).
  destruct (mapM (pread E c) ks o1) as [[vs|e] o2]; exact IH.
Qed.

(** The current normalisation after reading: set if one was read, else unchanged. *)
Definition is_norm c k : Prop := exists d, dget c k = Some d /\ pd_norm d = true.

Lemma preads_norm c ks o : wf_par E c o ->
  (forall kn, po_norm o = Some kn -> po_norm (snd (preads E c ks o)) = Some kn) /\
  ((forall k, In k ks -> ~ is_norm c k) -> po_norm (snd (preads E c ks o)) = po_norm o).
Proof.
  unfold preads. revert o. induction ks as [|k ks IH]; intros o W; [split; auto|].
  cbn [mapM]. unfold bind. pose proof (wf_pread c k o W) as W1. pose proof (pread_norm c k o) as N1.
  destruct (pread E c k o) as [r o1]. cbn [snd] in *.
  assert (K : (forall kn, po_norm o = Some kn -> po_norm o1 = Some kn) /\
              (~ is_norm c k -> po_norm o1 = po_norm o)).
  { rewrite N1. destruct (dget c k) as [d|] eqn:D; [|split; auto]. destruct (pd_norm d) eqn:Nd; [|split; auto].
    split.
    - intros kn Hn. destruct W as (U & Nn & _). destruct (Nn kn Hn) as (d2 & D2 & Nd2).
      f_equal. eapply U; eauto.
    - intros NN. exfalso. apply NN. now exists d. }
  destruct K as [K1 K2].
  destruct r as [v|e]; cbn [snd].
  - specialize (IH o1 W1). destruct IH as [I1 I2].
    destruct (mapM (pread E c) ks o1) as [[vs|e] o2]; unfold ret; cbn [snd] in *; (split;
      [intros kn Hn; auto | intros H; rewrite I2; [apply K2, H; now left|intros; apply H; now right]]).
  - split; [auto|]. intros H. apply K2, H. now left.
Qed.

Lemma preads_norm_read c ks o k : wf_par E c o -> In k ks -> is_norm c k ->
  forall vals o', preads E c ks o = (Ok vals, o') -> po_norm o' = Some k.
Proof.
  unfold preads. revert o. induction ks as [|k1 ks IH]; intros o W I N vals o' H; [easy|].
  cbn [mapM] in H. apply bind_inv_ok in H. destruct H as (v & o1 & H1 & H2).
  apply bind_inv_ok in H2. destruct H2 as (vs & o2 & H2 & H3). injection H3 as <- <-.
  assert (W1 : wf_par E c o1) by (change o1 with (snd (Ok v, o1)); rewrite <- H1; now apply wf_pread).
  destruct I as [->|I]; [|eapply IH; eauto].
  assert (N1 : po_norm o1 = Some k).
  { change o1 with (snd (Ok v, o1)); rewrite <- H1, pread_norm. destruct N as (d & -> & ->). easy. }
  pose proof (proj1 (preads_norm c ks o1 W1) k N1) as N2. unfold preads in N2. now rewrite H2 in N2.
Qed.

(** Writing the normalisation. *)
Lemma norm_set_reading c o kn v k : po_norm o = Some kn ->
  reading c (norm_set v o) k =
  match dget c k with
  | None => Err AttributeError
  | Some d => if String.eqb k kn then entry_value d (Some v) else entry_value d (dget (po_store o) k)
  end.
Proof.
  intros N. rewrite reading_eq. unfold norm_set. rewrite N. cbn [po_store].
  destruct (dget c k) as [d|]; [|easy]. rewrite dget_dset.
  destruct (String.eqb k kn); reflexivity.
Qed.

Lemma norm_set_norm o v : po_norm (norm_set v o) = po_norm o.
Proof. unfold norm_set. destruct (po_norm o) eqn:H; [reflexivity|exact H]. Qed.

Lemma wf_norm_set c o v : wf_par E c o -> wf_par E c (norm_set v o).
Proof. intros (U & N & R). split; [exact U|]. split; [|exact R]. intros k. rewrite norm_set_norm. apply N. Qed.

Lemma unit_reading_norm_set c o kn : wf_par E c o -> po_norm o = Some kn ->
  forall k, reading c (norm_set (Some one) o) k = unit_reading E c o k.
Proof.
  intros (U & N & R) Hn k. rewrite (norm_set_reading _ _ _ _ _ Hn). unfold unit_reading.
  destruct (dget c k) as [d|] eqn:D; [|easy].
  destruct (N kn Hn) as (dn & Dn & Nn).
  destruct (String.eqb_spec k kn) as [->|NE].
  - assert (d = dn) by congruence. subst. now rewrite Nn.
  - destruct (pd_norm d) eqn:Nd; [exfalso; eauto|]. now rewrite reading_eq, D.
Qed.

(** Set to one, read, restore: nothing has changed. *)
Lemma restore_same c o o3 kn v : wf_par E c o -> po_norm o = Some kn ->
  dget (po_store o) kn = Some v ->
  same_reads c (norm_set (Some one) o) o3 -> po_norm o3 = Some kn ->
  same_reads c o (norm_set v o3).
Proof.
  intros W Hn Hv S H3 k. rewrite (norm_set_reading _ _ _ _ _ H3), reading_eq.
  destruct (dget c k) as [d|] eqn:D; [|easy].
  destruct (String.eqb_spec k kn) as [->|NE]; [now rewrite Hv|].
  specialize (S k). rewrite (norm_set_reading _ _ _ _ _ Hn), reading_eq, D in S.
  destruct (String.eqb_spec k kn); [easy|exact S].
Qed.

(** ** The parts of [draw_distance] *)
Definition frame (d d' : sdist E) : Prop :=
  sd_cls d' = sd_cls d /\ sd_name d' = sd_name d /\ sd_theta d' = sd_theta d /\ sd_phi d' = sd_phi d.

Lemma rd_rmax_inv d g r d' g' : @rd_rmax E (d, g) = (r, (d', g')) ->
  exists o', pread E (sc_params (sd_cls d)) "r_max" (sd_par d) = (r, o') /\ d' = with_spar d o' /\ g' = g.
Proof.
  unfold rd_rmax, cls, bind, gets, in_par. cbn [fst snd].
  destruct (pread E _ "r_max" (sd_par d)) as [r0 o0]. intros H. injection H as <- <- <-. eauto.
Qed.
Lemma rd_dens_inv d g r d' g' : @rd_dens E (d, g) = (r, (d', g')) ->
  exists o', preads E (sc_params (sd_cls d)) (sc_reads (sd_cls d)) (sd_par d) = (r, o') /\
             d' = with_spar d o' /\ g' = g.
Proof.
  unfold rd_dens, cls, bind, gets, in_par. cbn [fst snd].
  destruct (preads E _ _ (sd_par d)) as [r0 o0]. intros H. injection H as <- <- <-. eauto.
Qed.

Lemma norm_to_one_inv old d g r d' g' : @norm_to_one E old (d, g) = (Ok r, (d', g')) ->
  g' = g /\
  ((po_norm (sd_par d) = None /\ r = old /\ d' = d) \/
   (exists kn v, po_norm (sd_par d) = Some kn /\ dget (po_store (sd_par d)) kn = Some v /\
      r = Some v /\ d' = with_spar d (norm_set (Some one) (sd_par d)))).
Proof.
  unfold norm_to_one, bind, gets, lift, in_par, modify, ret. cbn [fst snd].
  destruct (po_norm (sd_par d)) as [kn|] eqn:N.
  - unfold norm_get. rewrite N. destruct (dget (po_store (sd_par d)) kn) as [v|] eqn:D; cbn.
    + intros H. injection H as <- <- <-. split; [easy|]. right. exists kn, v. repeat split; auto.
    + discriminate.
  - intros H. injection H as <- <- <-. split; [easy|]. left. auto.
Qed.

Lemma norm_restore_inv old d g u d' g' : @norm_restore E old (d, g) = (Ok u, (d', g')) ->
  g' = g /\
  ((po_norm (sd_par d) = None /\ d' = d) \/
   (exists kn v, po_norm (sd_par d) = Some kn /\ old = Some v /\ d' = with_spar d (norm_set v (sd_par d)))).
Proof.
  unfold norm_restore, bind, gets, in_par, modify, ret, raise. cbn [fst snd].
  destruct (po_norm (sd_par d)) as [kn|] eqn:N.
  - destruct old as [v|]; [|discriminate].
    intros H. injection H as <- <- <-. split; [easy|]. right. eauto.
  - intros H. injection H as <- <- <-. split; [easy|]. left. auto.
Qed.

Lemma values_same c o o' ks vals : same_reads c o o' -> values E c o ks vals -> values E c o' ks vals.
Proof. intros S F. eapply Forall2_impl; [|exact F]. cbn. intros a b H. now rewrite <- S. Qed.

Lemma values_unit_same c o o' ks vals : same_reads c o o' ->
  unit_values E c o ks vals -> unit_values E c o' ks vals.
Proof.
  intros S F. eapply Forall2_impl; [|exact F]. cbn. unfold unit_reading. intros a b H.
  destruct (dget c a) as [d|]; [|easy]. destruct (pd_norm d); [easy|]. now rewrite <- S.
Qed.

(** Evaluate the density with the normalisation set to one, and restore it. *)
Lemma unit_phase c ks o0 o1 v1 : wf_par E c o0 ->
  (* o1 : state after norm_to_one *)
  (po_norm o0 = None /\ o1 = o0 /\ (v1 = None \/ forall k, In k ks -> ~ is_norm c k) \/
   exists kn v, po_norm o0 = Some kn /\ dget (po_store o0) kn = Some v /\
                v1 = Some v /\ o1 = norm_set (Some one) o0) ->
  forall o2 o3 vals, same_reads c o1 o2 -> po_norm o2 = po_norm o1 -> wf_par E c o2 ->
  preads E c ks o2 = (Ok vals, o3) ->
  forall o4,
  (po_norm o3 = None /\ o4 = o3 \/ exists kn v, po_norm o3 = Some kn /\ v1 = Some v /\ o4 = norm_set v o3) ->
  unit_values E c o0 ks vals /\ same_reads c o0 o4 /\ wf_par E c o4.
Proof.
  intros W H1 o2 o3 vals S12 N12 W2 P o4 H4.
  destruct (preads_ok _ _ _ _ _ P) as [F S23].
  assert (W3 : wf_par E c o3) by (change o3 with (snd (Ok vals, o3)); rewrite <- P; now apply wf_preads).
  pose proof (preads_norm c ks o2 W2) as [K1 K2]. rewrite P in K1, K2. cbn [snd] in K1, K2.
  destruct H1 as [(N0 & -> & V1)|(kn & v & N0 & Hv & -> & ->)].
  - assert (NR : po_norm o3 = None /\ o4 = o3).
    { destruct V1 as [->|NN].
      - destruct H4 as [H4|(kn & v & _ & ? & _)]; [exact H4|discriminate].
      - assert (po_norm o3 = None) by (rewrite K2 by exact NN; congruence).
        destruct H4 as [H4|(kn & v & ? & _)]; [exact H4|congruence]. }
    destruct NR as [N3 ->].
    split; [|split; [eapply same_trans; eauto|exact W3]].
    assert (NR : forall k, In k ks -> ~ is_norm c k).
    { intros k I N. pose proof (preads_norm_read c ks o2 k W2 I N vals o3 P). congruence. }
    clear - F NR S12. unfold unit_values. unfold values in F.
    induction F as [|k w ks' ws Hk F IH]; constructor.
    + unfold unit_reading. destruct (dget c k) as [d|] eqn:D.
      * destruct (pd_norm d) eqn:Nd.
        -- exfalso. apply (NR k (or_introl eq_refl)). exists d. auto.
        -- now rewrite S12.
      * rewrite reading_eq, D in Hk. discriminate.
    + apply IH; intros. apply NR. now right.
  - rewrite norm_set_norm in N12. rewrite N0 in N12.
    pose proof (K1 kn N12) as N3.
    destruct H4 as [[N3' _]|(kn' & v' & N3' & E1 & ->)]; [congruence|].
    injection E1 as <-.
    split; [|split].
    + eapply Forall2_impl; [|exact F]. cbn. intros k w Hk.
      rewrite <- (unit_reading_norm_set c o0 kn W N0), S12. exact Hk.
    + eapply restore_same; eauto. eapply same_trans; eauto.
    + now apply wf_norm_set.
Qed.

Lemma rmax_norm c o : wf_par E c o -> po_norm (snd (pread E c "r_max" o)) = po_norm o.
Proof.
  intros (_ & _ & R). rewrite pread_norm. destruct (dget c "r_max") as [d|] eqn:D; [|easy].
  now rewrite (R d eq_refl).
Qed.

Lemma rmax_unit c o : wf_par E c o -> forall v, reading c (norm_set v o) "r_max" = reading c o "r_max".
Proof.
  intros (_ & N & R) v. destruct (po_norm o) as [kn|] eqn:Hn; [|unfold norm_set; now rewrite Hn].
  rewrite (norm_set_reading _ _ _ _ _ Hn), reading_eq.
  destruct (dget c "r_max") as [d|] eqn:D; [|easy].
  destruct (N kn eq_refl) as (dn & Dn & Nn).
  destruct (String.eqb_spec "r_max" kn) as [<-|]; [|easy].
  exfalso. specialize (R d eq_refl). congruence.
Qed.

Lemma sd_with_spar d o : sd_par (with_spar d o) = o. Proof. reflexivity. Qed.
Lemma cls_with_spar d o : sd_cls (with_spar d o) = sd_cls d. Proof. reflexivity. Qed.

Lemma unit_values_det c o ks v1 v2 : unit_values E c o ks v1 -> unit_values E c o ks v2 -> v1 = v2.
Proof.
  intros F. revert v2. induction F as [|k w ks ws H F IH]; intros v2 G; inversion G; subst; [easy|].
  f_equal; [congruence|auto].
Qed.

Lemma snd_eq {A B} (p : A * B) a b : p = (a, b) -> snd p = b.
Proof. now intros ->. Qed.

Lemma values_det c o ks v1 v2 : values E c o ks v1 -> values E c o ks v2 -> v1 = v2.
Proof.
  intros F. revert v2. induction F as [|k w ks ws H F IH]; intros v2 G; inversion G; subst; [easy|].
  f_equal; [congruence|auto].
Qed.

(** Phase A of [draw_distance]: the integral. *)
Lemma phase_A d g i old d1 g1 :
  wf_par E (sc_params (sd_cls d)) (sd_par d) ->
  (let! old := @norm_to_one E None in
   let! rm := @rd_rmax E in
   let! vals := @rd_dens E in
   let! i := lift (quad E (sc_dens (sd_cls d) vals) zero rm) in
   @norm_restore E old ;; ret (old, Some i)) (d, g) = (Ok (old, i), (d1, g1)) ->
  exists o1 i0 rm uvals, g1 = g /\ d1 = with_spar d o1 /\ i = Some i0 /\
    same_reads (sc_params (sd_cls d)) (sd_par d) o1 /\ wf_par E (sc_params (sd_cls d)) o1 /\
    reading (sc_params (sd_cls d)) (sd_par d) "r_max" = Ok rm /\
    unit_values E (sc_params (sd_cls d)) (sd_par d) (sc_reads (sd_cls d)) uvals /\
    quad E (sc_dens (sd_cls d) uvals) zero rm = Ok i0.
Proof.
  intros W HA. set (pc := sc_params (sd_cls d)) in *.
  apply bind_inv_ok in HA. destruct HA as (v1 & (da & ga) & HA1 & HA).
  apply norm_to_one_inv in HA1. destruct HA1 as [-> HA1].
  apply bind_inv_ok in HA. destruct HA as (rm & (db & gb) & HA2 & HA).
  apply rd_rmax_inv in HA2. destruct HA2 as (ob & HA2 & -> & ->).
  apply bind_inv_ok in HA. destruct HA as (vals & (dc & gc) & HA3 & HA).
  apply rd_dens_inv in HA3. destruct HA3 as (oc & HA3 & -> & ->).
  apply bind_inv_ok in HA. destruct HA as (i0 & (dd & gd) & HA4 & HA).
  unfold lift in HA4. injection HA4 as HQ <- <-.
  apply bind_inv_ok in HA. destruct HA as (u & (de & ge) & HA5 & HA).
  apply norm_restore_inv in HA5. destruct HA5 as [-> HA5].
  cbn in HA. injection HA as <- <- <- <-.
  assert (X : exists oa, da = with_spar d oa /\
     (po_norm (sd_par d) = None /\ oa = sd_par d /\ (v1 = None \/ forall k, In k (sc_reads (sd_cls d)) -> ~ is_norm pc k) \/
      exists kn v, po_norm (sd_par d) = Some kn /\ dget (po_store (sd_par d)) kn = Some v /\
                v1 = Some v /\ oa = norm_set (Some one) (sd_par d)) /\ wf_par E pc oa /\
     reading pc oa "r_max" = reading pc (sd_par d) "r_max").
  { destruct HA1 as [(N & -> & ->)|(kn & v & N & Hv & -> & ->)].
    - exists (sd_par d). repeat split; auto; try apply W. now destruct d.
    - eexists. split; [reflexivity|]. split; [right; eauto 6|]. split; [now apply wf_norm_set|].
      now apply rmax_unit. }
  destruct X as (oa & -> & HX & WA & RA). clear HA1.
  rewrite !cls_with_spar, !sd_with_spar in *. fold pc in HA2, HA3.
  assert (X : exists o4, de = with_spar d o4 /\
    (po_norm oc = None /\ o4 = oc \/ exists kn v, po_norm oc = Some kn /\ v1 = Some v /\ o4 = norm_set v oc)).
  { destruct HA5 as [[N ->]|(kn & v & N & -> & ->)].
    - exists oc. split; auto.
    - eexists. split; [reflexivity|]. right. eauto. }
  destruct X as (o4 & -> & H4). clear HA5.
  assert (NB : po_norm ob = po_norm oa) by (rewrite <- (snd_eq _ _ _ HA2); now apply rmax_norm).
  assert (SB : same_reads pc oa ob) by (rewrite <- (snd_eq _ _ _ HA2); apply pread_same).
  assert (WB : wf_par E pc ob) by (rewrite <- (snd_eq _ _ _ HA2); now apply wf_pread).
  destruct (unit_phase pc (sc_reads (sd_cls d)) (sd_par d) oa v1 W HX ob oc vals SB NB WB HA3 o4 H4)
    as (U1 & U2 & U3).
  exists o4, i0, rm, vals. repeat split; auto; try apply U3.
  rewrite <- RA. unfold reading. now rewrite HA2.
Qed.

Lemma draw_distance_ok progress fuel size normalize d g d' g' :
  wf_par E (sc_params (sd_cls d)) (sd_par d) ->
  @draw_distance E progress fuel size normalize (d, g) = (Ok tt, (d', g')) ->
  exists rs ps o',
    drawn (sd_cls d) (sd_par d) progress fuel size normalize g g' rs ps /\
    d' = with_prob (with_dist (with_spar d o') rs) ps /\
    same_reads (sc_params (sd_cls d)) (sd_par d) o' /\
    wf_par E (sc_params (sd_cls d)) o'.
Proof.
  intros W H. unfold draw_distance in H.
  apply bind_inv_ok in H. destruct H as (c0 & s0 & H0 & H).
  unfold cls, gets in H0. injection H0 as <- <-. cbn [fst] in H.
  apply bind_inv_ok in H. destruct H as ((old & integral) & (d1 & g1) & HA & H).
  set (pc := sc_params (sd_cls d)) in *.
  assert (A : exists o1, g1 = g /\ d1 = with_spar d o1 /\ same_reads pc (sd_par d) o1 /\ wf_par E pc o1 /\
     (if normalize then exists i rm uvals, integral = Some i /\ reading pc (sd_par d) "r_max" = Ok rm /\
            unit_values E pc (sd_par d) (sc_reads (sd_cls d)) uvals /\
            quad E (sc_dens (sd_cls d) uvals) zero rm = Ok i
      else integral = None)).
  { destruct normalize.
    - apply phase_A in HA; [|exact W]. destruct HA as (o1 & i0 & rm & uv & -> & -> & -> & S & W1 & R & U & Q).
      exists o1. repeat split; auto; try apply W1. exists i0, rm, uv. auto.
    - cbn in HA. injection HA as <- <- <- <-. exists (sd_par d). repeat split; auto; try apply W. now destruct d. }
  destruct A as (o1 & -> & -> & S1 & W1 & HI). clear HA.
  apply bind_inv_ok in H. destruct H as (rm & (d2 & g2) & H2 & H).
  apply rd_rmax_inv in H2. destruct H2 as (o2 & H2 & -> & ->).
  apply bind_inv_ok in H. destruct H as (vals & (d3 & g3) & H3 & H).
  apply rd_dens_inv in H3. destruct H3 as (o3 & H3 & -> & ->).
  rewrite ?cls_with_spar, ?sd_with_spar in *. fold pc in H2, H3.
  apply bind_inv_ok in H. destruct H as (ys & (d4 & g4) & H4 & H).
  unfold lift in H4. injection H4 as HY <- <-.
  apply bind_inv_ok in H. destruct H as (ymax & (d5 & g5) & H5 & H).
  unfold lift in H5. injection H5 as HM <- <-.
  apply bind_inv_ok in H. destruct H as (rs & (d6 & g6) & H6 & H).
  unfold in_rng in H6. cbn [fst snd] in H6.
  destruct (accept_many E fuel _ ymax rm size g) as [ra ga] eqn:HR. injection H6 as -> <- <-.
  apply bind_inv_ok in H. destruct H as (u7 & (d7 & g7) & H7 & H).
  unfold modify in H7. cbn [fst snd] in H7. injection H7 as <- <- <-.
  apply bind_inv_ok in H. destruct H as (old2 & (d8 & g8) & H8 & H).
  apply norm_to_one_inv in H8. destruct H8 as [-> H8].
  apply bind_inv_ok in H. destruct H as (uvals & (d9 & g9) & H9 & H).
  apply rd_dens_inv in H9. destruct H9 as (o9 & H9 & -> & ->).
  apply bind_inv_ok in H. destruct H as (ps & (d10 & g10) & H10 & H).
  unfold lift in H10. injection H10 as HP <- <-.
  apply bind_inv_ok in H. destruct H as (u11 & (d11 & g11) & H11 & H).
  unfold modify in H11. cbn [fst snd] in H11. injection H11 as <- <- <-.
  apply norm_restore_inv in H. destruct H as [-> H].
  assert (S2 : same_reads pc o1 o2) by (rewrite <- (snd_eq _ _ _ H2); apply pread_same).
  assert (W2 : wf_par E pc o2) by (rewrite <- (snd_eq _ _ _ H2); now apply wf_pread).
  destruct (preads_ok _ _ _ _ _ H3) as [F3 S3].
  assert (W3 : wf_par E pc o3) by (rewrite <- (snd_eq _ _ _ H3); now apply wf_preads).
  assert (S03 : same_reads pc (sd_par d) o3) by (eapply same_trans; [|eapply same_trans]; eauto).
  assert (X : exists o8, d8 = with_dist (with_spar d o8) rs /\ wf_par E pc o8 /\
     (po_norm o3 = None /\ o8 = o3 /\ (old2 = None \/ forall k, In k (sc_reads (sd_cls d)) -> ~ is_norm pc k) \/
      exists kn v, po_norm o3 = Some kn /\ dget (po_store o3) kn = Some v /\
                old2 = Some v /\ o8 = norm_set (Some one) o3)).
  { destruct H8 as [(N & -> & ->)|(kn & v & N & Hv & -> & ->)].
    - exists o3. split; [reflexivity|]. split; [exact W3|]. left. split; [exact N|]. split; [easy|]. right.
      intros k I Nk. pose proof (preads_norm_read pc _ o2 k W2 I Nk _ _ H3).
      cbn in N. congruence.
    - eexists. split; [reflexivity|]. split; [now apply wf_norm_set|]. right. eauto 6. }
  destruct X as (o8 & -> & W8 & H8'). clear H8.
  change (sd_cls (with_dist (with_spar d o8) rs)) with (sd_cls d) in H9.
  change (sd_par (with_dist (with_spar d o8) rs)) with o8 in H9. fold pc in H9.
  assert (X : exists o4, d' = with_prob (with_dist (with_spar d o4) rs) ps /\
    (po_norm o9 = None /\ o4 = o9 \/ exists kn v, po_norm o9 = Some kn /\ old2 = Some v /\ o4 = norm_set v o9)).
  { destruct H as [[N ->]|(kn & v & N & -> & ->)].
    - exists o9. split; auto.
    - eexists. split; [reflexivity|]. right. eauto. }
  destruct X as (o4 & -> & H4).
  destruct (unit_phase pc (sc_reads (sd_cls d)) o3 o8 old2 W3 H8' o8 o9 uvals (same_refl _ _) eq_refl W8 H9 o4 H4)
    as (U1 & U2 & U3).
  exists rs, ps, o4.
  split; [|split; [reflexivity|split; [eapply same_trans; eauto|exact U3]]].
  assert (RM : reading pc (sd_par d) "r_max" = Ok rm).
  { rewrite S1. unfold reading. now rewrite H2. }
  assert (UV : unit_values E pc (sd_par d) (sc_reads (sd_cls d)) uvals).
  { eapply values_unit_same; [|exact U1]. now apply same_sym. }
  exists rm, vals, uvals, integral, ys, ymax.
  split; [exact RM|]. split.
  { eapply values_same; [|exact F3]. apply same_sym. exact (same_trans _ _ _ _ S1 S2). }
  split; [exact UV|]. split; [|auto].
  destruct normalize; [|exact HI].
  destruct HI as (i & rm' & uv' & -> & R' & U' & Q'). exists i. split; [reflexivity|].
  assert (rm' = rm) by (fold pc in RM; congruence). subst rm'.
  now rewrite (unit_values_det _ _ _ _ _ UV U').
Qed.

(** ** The rejection sampler *)
Lemma accept_ok fuel f ymax rmax g r g' : accept E fuel f ymax rmax g = (Ok r, g') ->
  exists g0 y g1 d, r_unif E zero ymax g0 = (y, g1) /\ r_unif E zero rmax g1 = (r, g') /\
    f r = Ok d /\ vlt E y d = true.
Proof.
  revert g. induction fuel as [|n IH]; intros g H; [discriminate|]. cbn [accept] in H.
  destruct (r_unif E zero ymax g) as [y g1] eqn:U1. destruct (r_unif E zero rmax g1) as [r1 g2] eqn:U2.
  destruct (f r1) as [d|e] eqn:F; [|discriminate].
  destruct (vlt E y d) eqn:L; [|eauto].
  injection H as <- <-. exists g, y, g1, d. auto.
Qed.

Lemma accept_fuel n f ymax rmax g r g' : accept E n f ymax rmax g = (Ok r, g') ->
  forall m, n <= m -> accept E m f ymax rmax g = (Ok r, g').
Proof.
  revert g. induction n as [|n IH]; intros g H m L; [discriminate|].
  destruct m as [|m]; [lia|]. cbn [accept] in *.
  destruct (r_unif E zero ymax g) as [y g1]. destruct (r_unif E zero rmax g1) as [r1 g2].
  destruct (f r1) as [d|e]; [|discriminate].
  destruct (vlt E y d); [exact H|]. apply IH; [exact H|lia].
Qed.

Lemma accept_within k f ymax rmax g : accepts_within E k f ymax rmax g ->
  exists r g', accept E k f ymax rmax g = (Ok r, g').
Proof.
  revert g. induction k as [|k IH]; intros g H; [easy|]. cbn in H |- *. unfold proposal in H.
  destruct (r_unif E zero ymax g) as [y g1]. destruct (r_unif E zero rmax g1) as [r1 g2].
  destruct H as (d & F & H). rewrite F. destruct (vlt E y d) eqn:L; [eauto|].
  destruct H as [H|H]; [discriminate|]. now apply IH.
Qed.

Lemma accept_many_ok fuel f ymax rmax size g rs g' :
  accept_many E fuel f ymax rmax size g = (Ok rs, g') ->
  length rs = size /\
  forall r, In r rs -> exists g0 g1, accept E fuel f ymax rmax g0 = (Ok r, g1).
Proof.
  unfold accept_many. revert g rs. induction size as [|n IH]; intros g rs H; cbn [repeatM] in H.
  - injection H as <- <-. split; [easy|]. intros r [].
  - apply bind_inv_ok in H. destruct H as (x & g1 & H1 & H).
    apply bind_inv_ok in H. destruct H as (xs & g2 & H2 & H). injection H as <- <-.
    destruct (IH _ _ H2) as [L I]. split; [cbn; lia|].
    intros r [<-|Hr]; [eauto|eauto].
Qed.

Lemma accept_many_fuel n f ymax rmax size g rs g' :
  accept_many E n f ymax rmax size g = (Ok rs, g') ->
  forall m, n <= m -> accept_many E m f ymax rmax size g = (Ok rs, g').
Proof.
  unfold accept_many. revert g rs. induction size as [|k IH]; intros g rs H m L; cbn [repeatM] in *; [easy|].
  apply bind_inv_ok in H. destruct H as (x & g1 & H1 & H).
  apply bind_inv_ok in H. destruct H as (xs & g2 & H2 & H). injection H as <- <-.
  rewrite (bind_ok _ _ _ (accept_fuel _ _ _ _ _ _ _ H1 m L)).
  rewrite (bind_ok _ _ _ (IH _ _ H2 m L)). reflexivity.
Qed.

Lemma accept_many_returns f ymax rmax :
  (forall g, exists k, accepts_within E k f ymax rmax g) ->
  forall size g, exists fuel rs g', accept_many E fuel f ymax rmax size g = (Ok rs, g').
Proof.
  intros H. induction size as [|n IH]; intros g.
  - exists 0, nil, g. reflexivity.
  - destruct (H g) as (k & A). destruct (accept_within _ _ _ _ _ A) as (r & g1 & H1).
    destruct (IH g1) as (m & rs & g2 & H2).
    exists (max k m), (r :: rs), g2. unfold accept_many in *. cbn [repeatM].
    rewrite (bind_ok _ _ _ (accept_fuel _ _ _ _ _ _ _ H1 (max k m) (Nat.le_max_l _ _))).
    pose proof (accept_many_fuel m f ymax rmax n g1 rs g2 H2 (max k m) (Nat.le_max_r _ _)) as H3.
    unfold accept_many in H3. rewrite (bind_ok _ _ _ H3). reflexivity.
Qed.

(** A sampler under a curve that is nowhere positive never accepts. *)
Lemma accept_diverges fuel f ymax rmax g :
  le_lt_trans E -> unif_nonneg E -> vle E zero ymax = true -> nowhere_pos E f ->
  (forall r, exists d, f r = Ok d) ->
  fst (accept E fuel f ymax rmax g) = Err OutOfFuel.
Proof.
  intros T U Y N F. revert g. induction fuel as [|n IH]; intros g; [reflexivity|]. cbn [accept].
  destruct (r_unif E zero ymax g) as [y g1] eqn:U1. destruct (r_unif E zero rmax g1) as [r g2] eqn:U2.
  destruct (F r) as (d & Fr). rewrite Fr.
  destruct (vlt E y d) eqn:L; [|apply IH].
  exfalso. specialize (U ymax g Y). rewrite U1 in U. cbn in U.
  specialize (N r d Fr). rewrite (T _ _ _ U L) in N. discriminate.
Qed.

Lemma np_max_nonneg l m : max_nonneg E -> (forall x, In x l -> vle E zero x = true) ->
  np_max E l = Ok m -> vle E zero m = true.
Proof.
  intros MX. destruct l as [|x l]; [discriminate|]. cbn [np_max]. intros H HM. injection HM as <-.
  assert (vle E zero x = true) as Hx by (apply H; now left).
  assert (forall y, In y l -> vle E zero y = true) as Hl by (intros; apply H; now right).
  clear H. revert x Hx. induction l as [|y l IH]; intros x Hx; [easy|]. cbn [fold_left].
  apply IH; [intros; apply Hl; now right|]. apply MX; [easy|]. apply Hl. now left.
Qed.

Lemma rmapM_In A B (f : A -> res B) l r y : rmapM f l = Ok r -> In y r -> exists x, In x l /\ f x = Ok y.
Proof.
  intros H I. apply In_nth_error in I. destruct I as (i & I). pose proof (rmapM_nth _ _ i H) as N.
  destruct (nth_error l i) as [x|] eqn:X.
  - destruct N as (y' & F & N). assert (y' = y) by congruence. subst. exists x. split; [|easy].
    eapply nth_error_In; eauto.
  - congruence.
Qed.

(** C35 *)
Lemma drawn_in_range progress fuel size normalize (c : spcls E) (o : pobj V) g g' rs ps rm vals uvals :
  le_lt_trans E -> unif_range E -> unif_nonneg E -> max_nonneg E -> div_nonneg E -> div_pos E ->
  drawn c o progress fuel size normalize g g' rs ps ->
  reading (sc_params c) o "r_max" = Ok rm -> vlt E zero rm = true ->
  values E (sc_params c) o (sc_reads c) vals ->
  unit_values E (sc_params c) o (sc_reads c) uvals ->
  nonneg_fun E rm (sc_dens c vals) ->
  (normalize = true -> forall i, quad E (sc_dens c uvals) zero rm = Ok i -> vlt E zero i = true) ->
  length rs = size /\ forall r, In r rs ->
      vle E zero r = true /\ vlt E r rm = true /\ exists x, sc_dens c vals r = Ok x /\ vlt E zero x = true.
Proof.
  intros T UR UN MX DN DP D RM P VA UV NN NI.
  destruct D as (rm' & vals' & uvals' & integral & ys & ymax & R' & V' & U' & HI & HY & HM & HA & HP).
  assert (rm' = rm) by congruence. subst rm'.
  assert (vals' = vals) by (eapply values_det; eauto). subst vals'.
  assert (uvals' = uvals) by (eapply unit_values_det; eauto). subst uvals'.
  assert (NF : nonneg_fun E rm (dens_norm c integral vals)).
  { intros r x EV. unfold dens_norm. destruct normalize.
    - destruct HI as (i & -> & Q). destruct (sc_dens c vals r) as [y|] eqn:Y; [|discriminate].
      cbn. intros Hx. injection Hx as <-. apply DN; [eapply NN; eauto|eauto].
    - subst integral. now apply NN. }
  assert (YM : vle E zero ymax = true).
  { eapply np_max_nonneg; eauto. intros y I. destruct (rmapM_In _ _ _ _ _ _ HY I) as (x & GX & Fx).
    eapply NF; [left; exact GX|exact Fx]. }
  destruct (accept_many_ok _ _ _ _ _ _ _ _ HA) as [L I]. split; [exact L|].
  intros r Hr. destruct (I r Hr) as (g0 & g1 & A).
  destruct (accept_ok _ _ _ _ _ _ _ A) as (ga & y & gb & x & U1 & U2 & F & LT).
  pose proof (UR rm gb P) as RR. rewrite U2 in RR. cbn in RR. destruct RR as [R1 R2].
  split; [exact R1|]. split; [exact R2|].
  pose proof (UN ymax ga YM) as YY. rewrite U1 in YY. cbn in YY.
  assert (PX : vlt E zero x = true) by (eapply T; eauto).
  destruct progress; [|eauto].
  unfold dens_norm in F. destruct integral as [i|]; [|eauto].
  destruct (sc_dens c vals r) as [z|] eqn:Z; [|discriminate]. cbn in F. injection F as <-.
  exists z. split; [easy|]. apply (DP z i); [eapply NN; [right; split; [exact R1|exact R2]|exact Z]|exact PX].
Qed.

Lemma distances_in_range progress fuel size normalize d g d' g' rm vals uvals :
  le_lt_trans E -> unif_range E -> unif_nonneg E -> max_nonneg E -> div_nonneg E -> div_pos E ->
  wf_par E (sc_params (sd_cls d)) (sd_par d) ->
  draw_distance progress fuel size normalize (d, g) = (Ok tt, (d', g')) ->
  reading (sc_params (sd_cls d)) (sd_par d) "r_max" = Ok rm -> vlt E zero rm = true ->
  values E (sc_params (sd_cls d)) (sd_par d) (sc_reads (sd_cls d)) vals ->
  unit_values E (sc_params (sd_cls d)) (sd_par d) (sc_reads (sd_cls d)) uvals ->
  nonneg_fun E rm (sc_dens (sd_cls d) vals) ->
  (normalize = true -> forall i, quad E (sc_dens (sd_cls d) uvals) zero rm = Ok i -> vlt E zero i = true) ->
  exists rs, sd_dist d' = Some rs /\ length rs = size /\
    forall r, In r rs ->
      vle E zero r = true /\ vlt E r rm = true /\
      exists x, sc_dens (sd_cls d) vals r = Ok x /\ vlt E zero x = true.
Proof.
  intros T UR UN MX DN DP W H RM P VA UV NN NI.
  destruct (draw_distance_ok _ _ _ _ _ _ _ _ W H) as (rs & ps & o' & D & -> & _).
  exists rs. split; [reflexivity|]. eapply drawn_in_range; eauto.
Qed.

(** C36 *)
Lemma progress_irrelevant fuel size st :
  draw_distance true fuel size false st = draw_distance (E := E) false fuel size false st.
Proof. reflexivity. Qed.

(** C37, divergence *)
Lemma zero_density_never_returns progress fuel size normalize d g d' g' rm vals uvals :
  le_lt_trans E -> unif_range E -> unif_nonneg E -> max_nonneg E -> div_nonneg E -> div_pos E ->
  wf_par E (sc_params (sd_cls d)) (sd_par d) ->
  reading (sc_params (sd_cls d)) (sd_par d) "r_max" = Ok rm -> vlt E zero rm = true ->
  values E (sc_params (sd_cls d)) (sd_par d) (sc_reads (sd_cls d)) vals ->
  unit_values E (sc_params (sd_cls d)) (sd_par d) (sc_reads (sd_cls d)) uvals ->
  nonneg_fun E rm (sc_dens (sd_cls d) vals) -> zero_upto E rm (sc_dens (sd_cls d) vals) ->
  (normalize = true -> forall i, quad E (sc_dens (sd_cls d) uvals) zero rm = Ok i -> vlt E zero i = true) ->
  0 < size ->
  draw_distance progress fuel size normalize (d, g) <> (Ok tt, (d', g')).
Proof.
  intros T UR UN MX DN DP W RM P VA UV NN NP NI SZ H.
  destruct (distances_in_range _ _ _ _ _ _ _ _ _ _ _ T UR UN MX DN DP W H RM P VA UV NN NI)
    as (rs & _ & L & I).
  destruct rs as [|r rs]; [cbn in L; lia|].
  destruct (I r (or_introl eq_refl)) as (R1 & R2 & x & F & PX).
  rewrite (NP r x R1 R2 F) in PX. discriminate.
Qed.

(** Forward execution of the reading phases. *)
Lemma preads_stores c ks o vals o' : preads E c ks o = (Ok vals, o') ->
  forall k, In k ks -> exists v, dget (po_store o') k = Some (Some v).
Proof.
  unfold preads. revert o vals. induction ks as [|k ks IH]; intros o vals H k2 I; [easy|].
  cbn [mapM] in H. apply bind_inv_ok in H. destruct H as (v & o1 & H1 & H2).
  apply bind_inv_ok in H2. destruct H2 as (vs & o2 & H2 & H3). injection H3 as <- <-.
  destruct I as [<-|I]; [|eauto].
  assert (K : dget (po_store o1) k = Some (Some v)).
  { unfold pread in H1. destruct (dget c k) as [d|]; [|discriminate].
    unfold param_get, touch_norm in H1.
    destruct (pd_norm d); cbn [po_store po_norm] in H1;
    (destruct (dget (po_store o) k) as [[w|]|] eqn:K;
     [injection H1 as <- <-; exact K| |];
     (destruct (pd_default d) as [w|]; [|discriminate]; injection H1 as <- <-; apply dget_dset_eq)). }
  clear - K H2. revert o1 vs K H2. induction ks as [|k2 ks IH]; intros o1 vs K H2; cbn [mapM] in H2.
  - injection H2 as _ <-. eauto.
  - apply bind_inv_ok in H2. destruct H2 as (v2 & o3 & H3 & H4).
    apply bind_inv_ok in H4. destruct H4 as (vs2 & o4 & H4 & H5). injection H5 as _ <-.
    eapply IH; [|exact H4].
    destruct (String.eqb_spec k k2) as [->|N].
    + unfold pread in H3. destruct (dget c k2) as [d|]; [|discriminate].
      unfold param_get, touch_norm in H3.
      destruct (pd_norm d); cbn [po_store po_norm] in H3; rewrite K in H3; injection H3 as <- <-; exact K.
    + rewrite <- (snd_eq _ _ _ H3). unfold pread. destruct (dget c k2); [|easy].
      now rewrite param_get_store.
Qed.

Lemma rd_rmax_fwd d g rm : reading (sc_params (sd_cls d)) (sd_par d) "r_max" = Ok rm ->
  exists o', @rd_rmax E (d, g) = (Ok rm, (with_spar d o', g)) /\
    pread E (sc_params (sd_cls d)) "r_max" (sd_par d) = (Ok rm, o').
Proof.
  unfold reading, rd_rmax, cls, bind, gets, in_par. cbn [fst snd].
  destruct (pread E _ "r_max" (sd_par d)) as [r o']. cbn. intros ->. eauto.
Qed.
Lemma rd_dens_fwd d g vals : values E (sc_params (sd_cls d)) (sd_par d) (sc_reads (sd_cls d)) vals ->
  exists o', @rd_dens E (d, g) = (Ok vals, (with_spar d o', g)) /\
    preads E (sc_params (sd_cls d)) (sc_reads (sd_cls d)) (sd_par d) = (Ok vals, o').
Proof.
  intros F. destruct (preads_succeeds _ _ _ _ F) as (o' & H). exists o'. split; [|exact H].
  unfold rd_dens, cls, bind, gets, in_par. cbn [fst snd]. now rewrite H.
Qed.

Lemma norm_to_one_fwd old d g kn v : po_norm (sd_par d) = Some kn -> dget (po_store (sd_par d)) kn = Some v ->
  @norm_to_one E old (d, g) = (Ok (Some v), (with_spar d (norm_set (Some one) (sd_par d)), g)).
Proof.
  intros N H. unfold norm_to_one, bind, gets, lift, in_par, modify, ret, norm_get. cbn [fst snd].
  rewrite N, H. reflexivity.
Qed.
Lemma norm_to_one_none old d g : po_norm (sd_par d) = None -> @norm_to_one E old (d, g) = (Ok old, (d, g)).
Proof. intros N. unfold norm_to_one, bind, gets, ret. cbn [fst snd]. now rewrite N. Qed.
Lemma norm_restore_fwd v d g kn : po_norm (sd_par d) = Some kn ->
  @norm_restore E (Some v) (d, g) = (Ok tt, (with_spar d (norm_set v (sd_par d)), g)).
Proof. intros N. unfold norm_restore, bind, gets, in_par, modify. cbn [fst snd]. now rewrite N. Qed.
Lemma norm_restore_none old d g : po_norm (sd_par d) = None -> @norm_restore E old (d, g) = (Ok tt, (d, g)).
Proof. intros N. unfold norm_restore, bind, gets, ret. cbn [fst snd]. rewrite N. now destruct old. Qed.

Lemma unit_reads_fwd c o0 ks uvals : wf_par E c o0 -> unit_values E c o0 ks uvals ->
  norm_stored E c o0 ->
  forall kn, po_norm o0 = Some kn -> values E c (norm_set (Some one) o0) ks uvals.
Proof.
  intros W U NS kn N. eapply Forall2_impl; [|exact U]. cbn. intros k w H.
  now rewrite (unit_reading_norm_set c o0 kn W N).
Qed.

Lemma unit_values_none c o0 ks uvals : (forall k d, dget c k = Some d -> pd_norm d = false) ->
  unit_values E c o0 ks uvals -> values E c o0 ks uvals.
Proof.
  intros NN U. eapply Forall2_impl; [|exact U]. cbn. intros k w H. unfold unit_reading in H.
  destruct (dget c k) as [d|] eqn:D; [|discriminate]. now rewrite (NN k d D) in H.
Qed.

Lemma no_norm_state c o : wf_par E c o -> (forall k d, dget c k = Some d -> pd_norm d = false) ->
  po_norm o = None.
Proof.
  intros (_ & N & _) NN. destruct (po_norm o) as [k|]; [|easy].
  destruct (N k eq_refl) as (d & D & Nd). rewrite (NN k d D) in Nd. discriminate.
Qed.

Lemma preads_keeps_norm_stored c ks o vals o' : wf_par E c o -> norm_stored E c o ->
  preads E c ks o = (Ok vals, o') -> forall kn, po_norm o = Some kn -> po_norm o' = Some kn.
Proof.
  intros W NS P kn N. pose proof (proj1 (preads_norm c ks o W) kn N) as K. now rewrite P in K.
Qed.

(** Phase A succeeds. *)
Lemma phase_A_fwd d g rm uvals i :
  wf_par E (sc_params (sd_cls d)) (sd_par d) -> norm_stored E (sc_params (sd_cls d)) (sd_par d) ->
  reading (sc_params (sd_cls d)) (sd_par d) "r_max" = Ok rm ->
  unit_values E (sc_params (sd_cls d)) (sd_par d) (sc_reads (sd_cls d)) uvals ->
  quad E (sc_dens (sd_cls d) uvals) zero rm = Ok i ->
  exists old o1,
  (let! old := norm_to_one (E := E) None in
   let! rm := rd_rmax (E := E) in
   let! vals := rd_dens (E := E) in
   let! i := lift (quad E (sc_dens (sd_cls d) vals) zero rm) in
   norm_restore old ;; ret (old, Some i)) (d, g) = (Ok (old, Some i), (with_spar d o1, g)).
Proof.
  intros W NS RM UV Q. set (pc := sc_params (sd_cls d)) in *.
  destruct NS as [(kn & v & N & Hv)|NN].
  - rewrite (bind_ok _ _ _ (norm_to_one_fwd None d g kn v N Hv)).
    set (oa := norm_set (Some one) (sd_par d)).
    assert (RA : reading (sc_params (sd_cls (with_spar d oa))) (sd_par (with_spar d oa)) "r_max" = Ok rm).
    { cbn [with_spar sd_cls sd_par]. fold pc. unfold oa. now rewrite rmax_unit. }
    destruct (rd_rmax_fwd (with_spar d oa) g rm RA) as (ob & E1 & P1).
    rewrite (bind_ok _ _ _ E1). cbn [with_spar sd_cls sd_par] in P1. fold pc in P1.
    assert (VB : values E (sc_params (sd_cls (with_spar (with_spar d oa) ob))) (sd_par (with_spar (with_spar d oa) ob))
                   (sc_reads (sd_cls (with_spar (with_spar d oa) ob))) uvals).
    { cbn [with_spar sd_cls sd_par]. fold pc. eapply values_same; [rewrite <- (snd_eq _ _ _ P1); apply pread_same|].
      eapply unit_reads_fwd; eauto. left. eauto. }
    destruct (rd_dens_fwd _ g uvals VB) as (oc & E2 & P2).
    rewrite (bind_ok _ _ _ E2). cbn [with_spar sd_cls sd_par] in P2. fold pc in P2.
    unfold lift at 1. rewrite Q. unfold bind at 1.
    assert (WB : wf_par E pc ob).
    { rewrite <- (snd_eq _ _ _ P1). apply wf_pread. now apply wf_norm_set. }
    assert (NB : po_norm ob = Some kn).
    { rewrite <- (snd_eq _ _ _ P1). rewrite rmax_norm by now apply wf_norm_set.
      unfold oa. now rewrite norm_set_norm. }
    assert (NC : po_norm oc = Some kn).
    { pose proof (proj1 (preads_norm pc (sc_reads (sd_cls d)) ob WB) kn NB) as K. now rewrite P2 in K. }
    match goal with |- context [norm_restore (Some v) ;; ?k] =>
      rewrite (bind_ok (norm_restore (Some v)) (fun _ => k) _ (norm_restore_fwd v (with_spar (with_spar (with_spar d oa) ob) oc) g kn NC)) end.
    do 2 eexists. reflexivity.
  - pose proof (no_norm_state pc (sd_par d) W NN) as N.
    rewrite (bind_ok _ _ _ (norm_to_one_none None d g N)).
    destruct (rd_rmax_fwd d g rm RM) as (ob & E1 & P1). fold pc in P1.
    rewrite (bind_ok _ _ _ E1).
    assert (VB : values E (sc_params (sd_cls (with_spar d ob))) (sd_par (with_spar d ob))
                   (sc_reads (sd_cls (with_spar d ob))) uvals).
    { cbn [with_spar sd_cls sd_par]. fold pc. eapply values_same; [rewrite <- (snd_eq _ _ _ P1); apply pread_same|].
      now apply unit_values_none. }
    destruct (rd_dens_fwd _ g uvals VB) as (oc & E2 & P2).
    rewrite (bind_ok _ _ _ E2). cbn [with_spar sd_cls sd_par] in P2. fold pc in P2.
    unfold lift at 1. rewrite Q. unfold bind at 1.
    assert (NC : po_norm oc = None).
    { apply (no_norm_state pc); [|exact NN].
      rewrite <- (snd_eq _ _ _ P2). apply wf_preads. rewrite <- (snd_eq _ _ _ P1). now apply wf_pread. }
    match goal with |- context [norm_restore None ;; ?k] =>
      rewrite (bind_ok (norm_restore None) (fun _ => k) _ (norm_restore_none None (with_spar (with_spar d ob) oc) g NC)) end.
    do 2 eexists. reflexivity.
Qed.

(** The probability phase succeeds. *)
Lemma phase_C_fwd old integral rs d g (o2 : pobj V) vals uvals ps :
  let pc := sc_params (sd_cls d) in
  wf_par E pc o2 -> norm_used (sd_cls d) ->
  preads E pc (sc_reads (sd_cls d)) o2 = (Ok vals, sd_par d) ->
  unit_values E pc (sd_par d) (sc_reads (sd_cls d)) uvals ->
  rmapM (dens_norm (sd_cls d) integral uvals) rs = Ok ps ->
  exists d',
  (let! old2 := @norm_to_one E old in
   let! vals2 := @rd_dens E in
   let! ps := lift (rmapM (dens_norm (sd_cls d) integral vals2) rs) in
   modify (fun st => (with_prob (fst st) ps, snd st)) ;;
   @norm_restore E old2) (d, g) = (Ok tt, (d', g)).
Proof.
  intros pc W2 NU PR UV PS.
  assert (W : wf_par E pc (sd_par d)) by (rewrite <- (snd_eq _ _ _ PR); now apply wf_preads).
  destruct (po_norm (sd_par d)) as [kn|] eqn:N.
  - destruct W as (Wa & Wb & Wc). destruct (Wb kn N) as (dk & Dk & Nk).
    destruct (preads_stores _ _ _ _ _ PR kn (NU kn dk Dk Nk)) as (v & Hv).
    assert (W : wf_par E pc (sd_par d)) by (split; auto).
    rewrite (bind_ok _ _ _ (norm_to_one_fwd old d g kn (Some v) N Hv)).
    set (oa := norm_set (Some one) (sd_par d)).
    assert (VB : values E (sc_params (sd_cls (with_spar d oa))) (sd_par (with_spar d oa))
                   (sc_reads (sd_cls (with_spar d oa))) uvals).
    { cbn [with_spar sd_cls sd_par]. fold pc. eapply unit_reads_fwd; eauto. left; eauto. }
    destruct (rd_dens_fwd _ g uvals VB) as (oc & E2 & P2).
    rewrite (bind_ok _ _ _ E2). cbn [with_spar sd_cls sd_par] in P2. fold pc in P2.
    unfold lift. rewrite PS. unfold bind at 1. unfold modify. unfold bind at 1. cbn [fst snd].
    assert (NC : po_norm oc = Some kn).
    { assert (WA : wf_par E pc oa) by now apply wf_norm_set.
      assert (NA : po_norm oa = Some kn) by (unfold oa; now rewrite norm_set_norm).
      pose proof (proj1 (preads_norm pc (sc_reads (sd_cls d)) oa WA) kn NA) as K. now rewrite P2 in K. }
    rewrite (norm_restore_fwd (Some v) (with_prob (with_spar (with_spar d oa) oc) ps) g kn NC). eauto.
  - rewrite (bind_ok _ _ _ (norm_to_one_none old d g N)).
    assert (NN : forall k dk, dget pc k = Some dk -> pd_norm dk = false).
    { intros k dk Dk. destruct (pd_norm dk) eqn:Nk; [|easy]. exfalso.
      pose proof (preads_norm_read pc (sc_reads (sd_cls d)) o2 k W2 (NU k dk Dk Nk)
                    (ex_intro _ dk (conj Dk Nk)) _ _ PR). congruence. }
    destruct (rd_dens_fwd d g uvals (unit_values_none _ _ _ _ NN UV)) as (oc & E2 & P2). fold pc in P2.
    rewrite (bind_ok _ _ _ E2).
    unfold lift. rewrite PS. unfold bind at 1. unfold modify. unfold bind at 1. cbn [fst snd].
    assert (NC : po_norm oc = None).
    { apply (no_norm_state pc); [|exact NN]. rewrite <- (snd_eq _ _ _ P2). now apply wf_preads. }
    rewrite (norm_restore_none old (with_prob (with_spar d oc) ps) g NC). eauto.
Qed.

Lemma rmapM_total A B (f : A -> res B) l : (forall x, exists y, f x = Ok y) -> exists r, rmapM f l = Ok r.
Proof.
  intros F. induction l as [|x l (r & IH)]; [eexists; reflexivity|]. cbn [rmapM].
  destruct (F x) as (y & ->). cbn [rbind]. rewrite IH. cbn [rbind]. eauto.
Qed.

Lemma dens_norm_total (c : spcls E) i vals : (forall r, exists x, sc_dens c vals r = Ok x) ->
  forall r, exists x, dens_norm c i vals r = Ok x.
Proof. intros F r. destruct (F r) as (x & Hx). unfold dens_norm. destruct i; rewrite Hx; cbn; eauto. Qed.

(** C37: the sampler returns whenever every stream of proposals eventually proposes
    a point under the curve. *)
Lemma draw_distance_returns (progress : bool) size (normalize : bool) (d : sdist E) g rm vals uvals (integral : option V) ys ymax :
  wf_par E (sc_params (sd_cls d)) (sd_par d) -> norm_used (sd_cls d) ->
  (normalize = true -> norm_stored E (sc_params (sd_cls d)) (sd_par d)) ->
  reading (sc_params (sd_cls d)) (sd_par d) "r_max" = Ok rm ->
  values E (sc_params (sd_cls d)) (sd_par d) (sc_reads (sd_cls d)) vals ->
  unit_values E (sc_params (sd_cls d)) (sd_par d) (sc_reads (sd_cls d)) uvals ->
  (forall r, exists x, sc_dens (sd_cls d) uvals r = Ok x) ->
  (if normalize then exists i, integral = Some i /\ quad E (sc_dens (sd_cls d) uvals) zero rm = Ok i
   else integral = None) ->
  rmapM (dens_norm (sd_cls d) integral vals) (grid E rm) = Ok ys -> np_max E ys = Ok ymax ->
  (forall g0, exists k, accepts_within E k (if progress then dens_norm (sd_cls d) integral vals
                                            else sc_dens (sd_cls d) vals) ymax rm g0) ->
  exists fuel d' g', @draw_distance E progress fuel size normalize (d, g) = (Ok tt, (d', g')).
Proof.
  intros W NU NS RM VA UV TO HI HY HM HA. set (pc := sc_params (sd_cls d)) in *.
  destruct (accept_many_returns _ _ _ HA size g) as (fuel & rs & g' & HR).
  exists fuel.
  assert (X : exists d' , @draw_distance E progress fuel size normalize (d, g) = (Ok tt, (d', g'))); [|destruct X; eauto].
  unfold draw_distance. unfold cls at 1, gets at 1. unfold bind at 1. cbn [fst].
  assert (A : exists old o1,
    (if normalize then
       let! old := @norm_to_one E None in
       let! rm := @rd_rmax E in
       let! vals := @rd_dens E in
       let! i := lift (quad E (sc_dens (sd_cls d) vals) zero rm) in
       @norm_restore E old ;;
       ret (old, Some i)
     else ret (None, None)) (d, g) = (Ok (old, integral), (with_spar d o1, g)) /\
    same_reads pc (sd_par d) o1 /\ wf_par E pc o1).
  { destruct normalize.
    - destruct HI as (i & -> & Q).
      destruct (phase_A_fwd d g rm uvals i W (NS eq_refl) RM UV Q) as (old & o1 & HX).
      exists old, o1. split; [exact HX|].
      apply phase_A in HX; [|exact W]. destruct HX as (o1' & _ & _ & _ & _ & EQ & _ & S & W1 & _).
      assert (o1' = o1) by (apply (f_equal (@sd_par E)) in EQ; cbn in EQ; congruence). subst. auto.
    - subst integral. exists None, (sd_par d). split; [|split; [apply same_refl|exact W]]. now destruct d. }
  destruct A as (old & o1 & A & S1 & W1). rewrite (bind_ok _ _ _ A). clear A.
  assert (R1 : reading (sc_params (sd_cls (with_spar d o1))) (sd_par (with_spar d o1)) "r_max" = Ok rm).
  { cbn [with_spar sd_cls sd_par]. fold pc. now rewrite <- S1. }
  destruct (rd_rmax_fwd _ g rm R1) as (o2 & E2 & P2). rewrite (bind_ok _ _ _ E2).
  cbn [with_spar sd_cls sd_par] in P2. fold pc in P2.
  assert (S2 : same_reads pc o1 o2) by (rewrite <- (snd_eq _ _ _ P2); apply pread_same).
  assert (W2 : wf_par E pc o2) by (rewrite <- (snd_eq _ _ _ P2); now apply wf_pread).
  assert (V2 : values E (sc_params (sd_cls (with_spar (with_spar d o1) o2))) (sd_par (with_spar (with_spar d o1) o2))
                   (sc_reads (sd_cls (with_spar (with_spar d o1) o2))) vals).
  { cbn [with_spar sd_cls sd_par]. fold pc. eapply values_same; [|exact VA]. exact (same_trans _ _ _ _ S1 S2). }
  destruct (rd_dens_fwd _ g vals V2) as (o3 & E3 & P3). rewrite (bind_ok _ _ _ E3).
  cbn [with_spar sd_cls sd_par] in P3. fold pc in P3.
  unfold lift at 1. rewrite HY. unfold bind at 1.
  unfold lift at 1. rewrite HM. unfold bind at 1.
  unfold in_rng. unfold bind at 1. cbn [fst snd].
  rewrite HR.
  unfold modify at 1. unfold bind at 1. cbn [fst snd].
  destruct (rmapM_total _ _ (dens_norm (sd_cls d) integral uvals) rs
              (dens_norm_total _ _ _ TO)) as (ps & HP).
  destruct (preads_ok _ _ _ _ _ P3) as [_ S3].
  destruct (phase_C_fwd old integral rs (with_dist (with_spar (with_spar (with_spar d o1) o2) o3) rs) g' o2 vals uvals ps)
    as (d' & HC).
  - exact W2.
  - exact NU.
  - exact P3.
  - cbn [with_dist with_spar sd_cls sd_par]. fold pc.
    eapply values_unit_same; [|exact UV]. exact (same_trans _ _ _ _ S1 (same_trans _ _ _ _ S2 S3)).
  - exact HP.
  - exists d'. exact HC.
Qed.

(** C38 *)
Lemma normalised_probability progress fuel size d g d' g' :
  wf_par E (sc_params (sd_cls d)) (sd_par d) ->
  @draw_distance E progress fuel size true (d, g) = (Ok tt, (d', g')) ->
  exists rm uvals i rs ps,
    reading (sc_params (sd_cls d)) (sd_par d) "r_max" = Ok rm /\
    unit_values E (sc_params (sd_cls d)) (sd_par d) (sc_reads (sd_cls d)) uvals /\
    quad E (sc_dens (sd_cls d) uvals) zero rm = Ok i /\
    sd_dist d' = Some rs /\ sd_prob d' = Some ps /\
    Forall2 (fun r p => exists x, sc_dens (sd_cls d) uvals r = Ok x /\ p = vdiv E x i) rs ps.
Proof.
  intros W H. destruct (draw_distance_ok _ _ _ _ _ _ _ _ W H) as (rs & ps & o' & D & -> & _).
  destruct D as (rm & vals & uvals & integral & ys & ymax & R & Va & U & (i & -> & Q) & _ & _ & _ & HP).
  exists rm, uvals, i, rs, ps. repeat split; auto.
  clear - HP. revert ps HP. induction rs as [|r rs IH]; intros ps HP; cbn [rmapM] in HP.
  - injection HP as <-. constructor.
  - unfold dens_norm at 1 in HP. destruct (sc_dens (sd_cls d) uvals r) as [x|] eqn:X; [|discriminate].
    cbn [rmap rbind] in HP. destruct (rmapM _ rs) as [ys|] eqn:Y; [|discriminate]. cbn in HP.
    injection HP as <-. constructor; eauto.
Qed.
End P.
