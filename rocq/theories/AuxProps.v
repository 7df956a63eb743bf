(** Collecting the properties of samplers, and the dependency graph. *)
From Verif Require Import Base BaseFacts Env ParamModel SelModel DistModel AuxModel AuxSpec AuxProofs.
Open Scope string_scope.
Open Scope list_scope.

Section P.
Variable E : env.
Notation V := (V E).
Notation sampler := (sampler E).
Notation world := (world E).
Notation storage := (storage E).
Implicit Types w : world.
Implicit Types a b : sampler.
Implicit Types s o : storage.

Lemma st_empty_nil s : (forall k, In k (dkeys s) -> k <> "") -> st_empty s = true -> s = [].
Proof.
  destruct s as [|[k c] s]; [easy|]. intros H. cbn. destruct (String.eqb_spec k ""); [|easy].
  intros _. exfalso. apply (H k); [now left|easy].
Qed.

Lemma dget_st_add s o k : NoDup (dkeys o) -> (forall x, In x (dkeys s) -> x <> "") -> (forall x, In x (dkeys o) -> x <> "") ->
  dget (st_add s o) k = match dget o k with Some c => Some c | None => dget s k end.
Proof.
  intros N HS HO. unfold st_add.
  destruct (st_empty s) eqn:ES.
  { apply st_empty_nil in ES; [|easy]. subst. cbn. now destruct (dget o k). }
  destruct (st_empty o) eqn:EO.
  { apply st_empty_nil in EO; [|easy]. subst. reflexivity. }
  rewrite dget_dupdate by easy. reflexivity.
Qed.
Lemma NoDup_dupdate s o : NoDup (dkeys s) -> NoDup (dkeys (dupdate s o)).
Proof.
  unfold dupdate. revert s. induction o as [|[k c] o IH]; intros s N; cbn; [easy|].
  apply IH. now apply NoDup_dset.
Qed.
Lemma NoDup_st_add s o : NoDup (dkeys s) -> NoDup (dkeys o) -> NoDup (dkeys (st_add s o)).
Proof.
  intros A B. unfold st_add. destruct (st_empty s); [easy|]. destruct (st_empty o); [easy|]. now apply NoDup_dupdate.
Qed.

(** [s] holds entries of the samplers in [S], one per name. *)
Record holds w (S : nat -> Prop) s : Prop := Holds {
  ho_nodup : NoDup (dkeys s);
  ho_from : forall k c, dget s k = Some c -> exists j b, S j /\ at_ w j b /\ name_of b = k /\ c = container_of b;
  ho_all : forall j b, S j -> at_ w j b -> exists c, dget s (name_of b) = Some c }.

Lemma holds_keys w S s k : holds w S s -> (forall j b, S j -> at_ w j b -> name_of b <> "") -> In k (dkeys s) -> k <> "".
Proof.
  intros H N I. apply dget_Some_In_keys in I. destruct I as (c & C).
  destruct (ho_from _ _ _ H _ _ C) as (j & b & SJ & B & <- & _). eauto.
Qed.

Lemma holds_add w S T s o : holds w S s -> holds w T o ->
  (forall j b, S j \/ T j -> at_ w j b -> name_of b <> "") ->
  holds w (fun j => S j \/ T j) (st_add s o).
Proof.
  intros HS HT N.
  assert (KS : forall x, In x (dkeys s) -> x <> "") by (intros x; eapply holds_keys; eauto).
  assert (KT : forall x, In x (dkeys o) -> x <> "") by (intros x; eapply holds_keys; eauto).
  assert (NO := ho_nodup _ _ _ HT). constructor.
  - apply NoDup_st_add; [apply HS|apply HT].
  - intros k c. rewrite dget_st_add by easy. destruct (dget o k) eqn:O.
    + intros H. injection H as ->. destruct (ho_from _ _ _ HT _ _ O) as (j & b & H & ? & ? & ?). eauto 8.
    + intros H. destruct (ho_from _ _ _ HS _ _ H) as (j & b & H' & ? & ? & ?). eauto 8.
  - intros j b [H|H] B; rewrite dget_st_add by easy.
    + destruct (dget o (name_of b)); [eauto|]. eapply ho_all; eauto.
    + destruct (ho_all _ _ _ HT _ _ H B) as (c & ->). eauto.
Qed.

Lemma holds_equiv w S T s : (forall j, S j <-> T j) -> holds w S s -> holds w T s.
Proof.
  intros H [A B C]. constructor; [easy| |].
  - intros k c K. destruct (B k c K) as (j & b & SJ & R). exists j, b. split; [now apply H|easy].
  - intros j b TJ. apply C. now apply H.
Qed.

Lemma holds_own w S s i a : holds w S s -> at_ w i a ->
  holds w (fun j => j = i \/ S j) (dset s (name_of a) (container_of a)).
Proof.
  intros [A B C] I. constructor.
  - now apply NoDup_dset.
  - intros k c. rewrite dget_dset. destruct (String.eqb_spec k (name_of a)) as [->|N].
    + intros H. injection H as <-. eauto 8.
    + intros H. destruct (B k c H) as (j & b & SJ & ?). eauto 8.
  - intros j b [->|SJ] J.
    + assert (b = a) by (eapply at_fun; eauto). subst. rewrite dget_dset_eq. eauto.
    + rewrite dget_dset. destruct (String.eqb (name_of b) (name_of a)); [eauto|]. eapply C; eauto.
Qed.

(** The step of the loop over secondaries. *)
Definition prop_step (fuel : nat) (h : list sampler) (primary : string) (acc : storage) (kv : string * nat) : M (option graph) storage :=
  let (k, j) := kv : string * nat in
  match nth_error h j with
  | None => raise Unmodelled
  | Some b =>
      let! g := get in
      match g with
      | None => ret tt
      | Some g =>
          let g1 := add_edge k primary (add_node k (Some false) g) in
          let g2 := if a_observed (a_st b)
                    then add_edge k (obs_name_of b) (add_node (obs_name_of b) (Some false) g1)
                    else g1 in
          put (Some g2) ;;
          (if a_usesd (a_st b) then raise AttributeError else ret tt)
      end ;;
      let! s := sec_props fuel h j k in
      ret (st_add acc s)
  end.

Lemma sec_props_eq fuel h i p : sec_props (S fuel) h i p =
  match nth_error h i with
  | None => raise Unmodelled
  | Some a => let! acc := foldM (prop_step fuel h p) nil (a_sec (a_ln a)) in
              ret (dset acc (name_of a) (container_of a))
  end.
Proof. reflexivity. Qed.

Definition touch (b : sampler) (k primary : string) (g : graph) : graph :=
  let g1 := add_edge k primary (add_node k (Some false) g) in
  if a_observed (a_st b) then add_edge k (obs_name_of b) (add_node (obs_name_of b) (Some false) g1) else g1.

Lemma prop_step_eq fuel w p acc k j G b : at_ w j b ->
  prop_step fuel (w_auxs w) p acc (k, j) G =
  let G1 := match G with None => None | Some g => Some (touch b k p g) end in
  if match G with None => false | Some _ => a_usesd (a_st b) end then (Err AttributeError, G1)
  else (let! s := sec_props fuel (w_auxs w) j k in ret (st_add acc s)) G1.
Proof.
  intros B. unfold prop_step. rewrite B. destruct G as [g|]; [|reflexivity].
  unfold bind at 1 2 3, get, put. now destruct (a_usesd (a_st b)).
Qed.

Lemma prop_step_inv fuel w p acc k j G s G' :
  prop_step fuel (w_auxs w) p acc (k, j) G = (Ok s, G') ->
  exists b t, at_ w j b /\ s = st_add acc t /\
    sec_props fuel (w_auxs w) j k (match G with None => None | Some g => Some (touch b k p g) end) = (Ok t, G') /\
    (G <> None -> a_usesd (a_st b) = false).
Proof.
  unfold prop_step. destruct (nth_error (w_auxs w) j) as [b|] eqn:B; [|discriminate].
  intros H. apply bind_inv_ok in H. destruct H as (G0 & G1 & H1 & H). unfold get in H1. injection H1 as <- <-.
  apply bind_inv_ok in H. destruct H as (u & G1 & H1 & H).
  apply bind_inv_ok in H. destruct H as (t & G2 & H2 & H). unfold ret in H. injection H as <- <-.
  exists b, t. split; [exact B|]. split; [reflexivity|]. destruct G as [g|].
  - unfold bind, put in H1. destruct (a_usesd (a_st b)); [discriminate|]. unfold ret in H1. injection H1 as _ <-.
    split; [exact H2|easy].
  - unfold ret in H1. injection H1 as _ <-. split; [exact H2|easy].
Qed.

Lemma reaches_from w i a : at_ w i a -> forall j,
  reaches w i j <-> j = i \/ exists kv, In kv (a_sec (a_ln a)) /\ reaches w (snd kv) j.
Proof.
  intros A j. split.
  - intros R. inversion R as [|? m ? D R']; subst; [auto|]. right. destruct D as (b & k & B & I).
    assert (b = a) by (eapply at_fun; eauto). subst. exists (k, m). auto.
  - intros [->|([k m] & I & R)]; [constructor|]. apply reaches_step with m; [exists a, k; auto|easy].
Qed.

Theorem props_hold fuel : forall w i p G s G',
  (forall j b, reaches w i j -> at_ w j b -> name_of b <> "") ->
  sec_props fuel (w_auxs w) i p G = (Ok s, G') -> holds w (reaches w i) s.
Proof.
  induction fuel as [|fuel IH]; intros w i p G s G' NE H; [discriminate|].
  rewrite sec_props_eq in H. destruct (nth_error (w_auxs w) i) as [a|] eqn:A; [|discriminate].
  apply bind_inv_ok in H. destruct H as (acc & G1 & H1 & H). unfold ret in H. injection H as <- <-.
  assert (X : forall l acc0 G0 acc1 G2 (S0 : nat -> Prop),
    (forall kv, In kv l -> In kv (a_sec (a_ln a))) -> (forall j, S0 j -> reaches w i j) -> holds w S0 acc0 ->
    foldM (prop_step fuel (w_auxs w) p) acc0 l G0 = (Ok acc1, G2) ->
    holds w (fun j => S0 j \/ exists kv, In kv l /\ reaches w (snd kv) j) acc1).
  { induction l as [|[k j] l IHl]; intros acc0 G0 acc1 G2 S0 I HS HO F; cbn [foldM] in F.
    - unfold ret in F. injection F as <- <-. eapply holds_equiv; [|exact HO]. intros x. split; [auto|].
      intros [?|(kv & [] & _)]; auto.
    - apply bind_inv_ok in F. destruct F as (acc2 & G3 & F1 & F).
      apply prop_step_inv in F1. destruct F1 as (b & t & B & -> & F1 & _).
      assert (RJ : forall x, reaches w j x -> reaches w i x).
      { intros x R. apply reaches_step with j; [|easy]. exists a, k. split; [easy|]. apply I. now left. }
      apply IH in F1; [|intros x c R; apply NE; auto].
      assert (HA : holds w (fun x => S0 x \/ reaches w j x) (st_add acc0 t)).
      { apply holds_add; [easy|easy|]. intros x c [Q|Q]; apply NE; auto. }
      apply IHl with (S0 := fun x => S0 x \/ reaches w j x) in F; [| |intros x [Q|Q]; auto|exact HA].
      + eapply holds_equiv; [|exact F]. cbn beta. intros x. split.
        * intros [[Q|Q]|(kv & I' & Q)]; [auto| |].
          -- right. exists (k, j). split; [now left|exact Q].
          -- right. exists kv. split; [now right|exact Q].
        * intros [Q|(kv & [<-|I'] & Q)]; [auto|auto|]. right. eauto.
      + intros kv K. apply I. now right. }
  apply X with (S0 := fun _ => False) in H1; [|easy|easy|].
  - apply (holds_own _ _ _ i a) in H1; [|exact A]. eapply holds_equiv; [|exact H1]. cbn beta. intros x.
    rewrite (reaches_from _ _ _ A). tauto.
  - constructor; [constructor|easy|easy].
Qed.

(** ** Success *)
Definition no_far_distance w i : Prop :=
  forall p c b, reaches w i p -> depends w p c -> at_ w c b -> a_usesd (a_st b) = false.

Lemma props_total fuel : forall w i p G a (r : nat -> nat),
  (forall i j, depends w i j -> r j < r i) -> closed w -> at_ w i a -> r i < fuel ->
  (exists s G', sec_props fuel (w_auxs w) i p G = (Ok s, G') /\ (G = None -> G' = None) /\ (G <> None -> G' <> None)) \/
  (G <> None /\ fst (sec_props fuel (w_auxs w) i p G) = Err AttributeError /\ ~ no_far_distance w i).
Proof.
  induction fuel as [|fuel IH]; intros w i p G a r R C A F; [lia|].
  rewrite sec_props_eq. unfold at_ in A. rewrite A. change (at_ w i a) in A.
  assert (X : forall l acc0 G0, (forall kv, In kv l -> In kv (a_sec (a_ln a))) ->
    (exists acc1 G1, foldM (prop_step fuel (w_auxs w) p) acc0 l G0 = (Ok acc1, G1) /\ (G0 = None -> G1 = None) /\ (G0 <> None -> G1 <> None)) \/
    (G0 <> None /\ fst (foldM (prop_step fuel (w_auxs w) p) acc0 l G0) = Err AttributeError /\ ~ no_far_distance w i)).
  { induction l as [|[k j] l IHl]; intros acc0 G0 I; cbn [foldM].
    - left. exists acc0, G0. auto.
    - assert (IN : In (k, j) (a_sec (a_ln a))) by (apply I; now left).
      assert (DJ : depends w i j) by (exists a, k; auto).
      destruct (C i a A) as (_ & CJ). destruct (CJ k j IN) as (b & B).
      assert (STEP : (exists t G1, prop_step fuel (w_auxs w) p acc0 (k, j) G0 = (Ok (st_add acc0 t), G1) /\ (G0 = None -> G1 = None) /\ (G0 <> None -> G1 <> None)) \/
        (G0 <> None /\ fst (prop_step fuel (w_auxs w) p acc0 (k, j) G0) = Err AttributeError /\ ~ no_far_distance w i)).
      { set (G1 := match G0 with None => None | Some g => Some (touch b k p g) end).
        rewrite (prop_step_eq fuel w p acc0 k j G0 b B). fold G1.
        assert (NN : (G0 = None -> G1 = None) /\ (G0 <> None -> G1 <> None)) by (unfold G1; destruct G0; split; congruence).
        destruct (match G0 with None => false | Some _ => a_usesd (a_st b) end) eqn:U.
        - right. destruct G0; [|discriminate]. split; [easy|]. split; [reflexivity|].
          intros NF. rewrite (NF i j b) in U; [discriminate|constructor|easy|easy].
        - destruct (IH w j k G1 b r R C B) as [(t & G2 & H & K1 & K2)|(K & H & NF)].
          + specialize (R _ _ DJ). lia.
          + left. exists t, G2. cbv zeta. rewrite (bind_ok _ _ _ H). split; [reflexivity|]. tauto.
          + right. cbv zeta. unfold bind. destruct (sec_props fuel (w_auxs w) j k G1) as [rr GG]. cbn in H. subst rr.
            split; [tauto|]. split; [reflexivity|]. intros Q. apply NF. intros x c d RX. apply Q.
            apply reaches_step with j; easy. }
      destruct STEP as [(t & G1 & H & K1 & K2)|(K & H & NF)].
      + rewrite (bind_ok _ _ _ H). destruct (IHl (st_add acc0 t) G1) as [(acc1 & G2 & H' & Q1 & Q2)|(Q & H' & NF)].
        * intros kv Q. apply I. now right.
        * left. exists acc1, G2. split; [exact H'|]. tauto.
        * right. tauto.
      + right. unfold bind. destruct (prop_step fuel (w_auxs w) p acc0 (k, j) G0) as [rr GG]. cbn in H. subst rr. auto. }
  destruct (X (a_sec (a_ln a)) nil G) as [(acc & G1 & H & K1 & K2)|(K & H & NF)]; [easy| |].
  - left. rewrite (bind_ok _ _ _ H). do 2 eexists. split; [reflexivity|]. auto.
  - right. unfold bind. destruct (foldM (prop_step fuel (w_auxs w) p) nil (a_sec (a_ln a)) G) as [rr GG]. cbn in H. subst rr. auto.
Qed.

(** ** Edges *)
Lemma edge_eqb_spec e f : edge_eqb e f = true <-> e = f.
Proof.
  destruct e, f. unfold edge_eqb. cbn. rewrite andb_true_iff, !String.eqb_eq. split; [now intros [-> ->]|].
  intros H. now injection H as -> ->.
Qed.
Lemma add_node_edges k (o : option bool) g : gr_edges (add_node k o g) = gr_edges g.
Proof. unfold add_node. destruct o; [reflexivity|]. now destruct (dget (gr_nodes g) k). Qed.
Lemma add_edge_edges u v g e : In e (gr_edges (add_edge u v g)) <-> In e (gr_edges g) \/ e = (u, v).
Proof.
  unfold add_edge. cbn [gr_edges]. rewrite !add_node_edges.
  destruct (existsb (edge_eqb (u, v)) (gr_edges g)) eqn:X.
  - split; [auto|]. intros [H| ->]; [easy|]. apply existsb_exists in X. destruct X as (f & I & EQ).
    apply edge_eqb_spec in EQ. now subst.
  - rewrite in_app_iff. cbn. intuition.
Qed.
Lemma touch_edges b k p g e : In e (gr_edges (touch b k p g)) <->
  In e (gr_edges g) \/ e = (k, p) \/ (a_observed (a_st b) = true /\ e = (k, obs_name_of b)).
Proof.
  unfold touch. destruct (a_observed (a_st b)).
  - rewrite add_edge_edges, add_node_edges, add_edge_edges, add_node_edges. intuition.
  - rewrite add_edge_edges, add_node_edges. intuition. discriminate.
Qed.

Theorem props_edges fuel : forall w i a g s G', keyed w -> at_ w i a ->
  sec_props fuel (w_auxs w) i (name_of a) (Some g) = (Ok s, G') ->
  exists g', G' = Some g' /\ (forall e, In e (gr_edges g') <-> In e (gr_edges g) \/ tree_edge w i e) /\ no_far_distance w i.
Proof.
  induction fuel as [|fuel IH]; intros w i a g s G' KW A H; [discriminate|].
  rewrite sec_props_eq in H. unfold at_ in A. rewrite A in H. change (at_ w i a) in A.
  apply bind_inv_ok in H. destruct H as (acc & G1 & H1 & H). unfold ret in H. injection H as <- <-.
  assert (X : forall l acc0 g0 acc1 G2,
    (forall kv, In kv l -> In kv (a_sec (a_ln a))) ->
    foldM (prop_step fuel (w_auxs w) (name_of a)) acc0 l (Some g0) = (Ok acc1, G2) ->
    exists g2, G2 = Some g2 /\
      (forall e, In e (gr_edges g2) <-> In e (gr_edges g0) \/
         exists k j b, In (k, j) l /\ at_ w j b /\
           (e = (k, name_of a) \/ (a_observed (a_st b) = true /\ e = (k, obs_name_of b)) \/ tree_edge w j e)) /\
      (forall k j b, In (k, j) l -> at_ w j b -> a_usesd (a_st b) = false /\ no_far_distance w j)).
  { induction l as [|[k j] l IHl]; intros acc0 g0 acc1 G2 I F; cbn [foldM] in F.
    - unfold ret in F. injection F as <- <-. exists g0. split; [easy|]. split; [|easy].
      intros e. split; [auto|]. intros [?|(? & ? & ? & [] & _)]; auto.
    - apply bind_inv_ok in F. destruct F as (acc2 & G3 & F1 & F).
      apply prop_step_inv in F1. destruct F1 as (b & t & B & -> & F1 & U).
      assert (IN : In (k, j) (a_sec (a_ln a))) by (apply I; now left).
      destruct (KW _ _ _ _ A IN) as (b' & B' & NB). assert (b' = b) by (eapply at_fun; eauto). subst b'.
      rewrite <- NB in F1. destruct (IH _ _ _ _ _ _ KW B F1) as (g3 & -> & H3 & NF).
      apply IHl in F; [|intros kv Q; apply I; now right].
      destruct F as (g2 & -> & H2 & NF2). exists g2. split; [easy|]. split.
      + intros e. rewrite H2, H3, touch_edges, NB. split.
        * intros [[[Q|Q]|Q]|(k' & j' & b' & IK & B2 & Q)]; [auto| | |].
          -- right. exists k, j, b. split; [now left|]. tauto.
          -- right. exists k, j, b. split; [now left|]. tauto.
          -- right. exists k', j', b'. split; [now right|]. tauto.
        * intros [Q|(k' & j' & b' & [IK|IK] & B2 & Q)]; [auto| |].
          -- injection IK as <- <-. assert (b' = b) by (eapply at_fun; eauto). subst b'. tauto.
          -- right. eauto 8.
      + intros k' j' b' [IK|IK] B2; [|eauto]. injection IK as <- <-.
        assert (b' = b) by (eapply at_fun; eauto). subst b'. split; [now apply U|easy]. }
  apply X in H1; [|easy]. destruct H1 as (g' & -> & HE & NF). exists g'. split; [easy|]. split.
  - intros e. rewrite HE. split; (intros [Q|Q]; [auto|right]).
    + destruct Q as (k & j & b & I & B & Q). destruct (KW _ _ _ _ A I) as (b' & B' & NB).
      assert (b' = b) by (eapply at_fun; eauto). subst b'.
      assert (D : depends w i j) by (exists a, k; auto).
      destruct Q as [Q|[Q|(p & a' & c & b' & R & Q)]].
      * exists i, a, j, b. split; [constructor|]. rewrite NB. auto 8.
      * exists i, a, j, b. split; [constructor|]. rewrite NB. auto 8.
      * exists p, a', c, b'. split; [eapply reaches_step; eauto|easy].
    + destruct Q as (p & a' & c & b' & R & D & A' & B' & Q). inversion R as [|? m ? DM R']; subst.
      * assert (a' = a) by (eapply at_fun; eauto). subst a'. destruct D as (a' & k & A2 & I).
        assert (a' = a) by (eapply at_fun; eauto). subst a'. exists k, c, b'. split; [easy|]. split; [easy|].
        destruct (KW _ _ _ _ A I) as (b2 & B2 & NB). assert (b2 = b') by (eapply at_fun; eauto). subst b2.
        rewrite NB in Q. tauto.
      * destruct DM as (a2 & k & A2 & I). assert (a2 = a) by (eapply at_fun; eauto). subst a2.
        destruct (KW _ _ _ _ A I) as (b2 & B2 & NB). exists k, m, b2. split; [easy|]. split; [easy|]. right. right.
        exists p, a', c, b'. auto 8.
  - intros p c b R D B. inversion R as [|? m ? DM R']; subst.
    + destruct D as (a' & k & A' & I). assert (a' = a) by (eapply at_fun; eauto). subst a'.
      apply (NF _ _ _ I B).
    + destruct DM as (a' & k & A' & I). assert (a' = a) by (eapply at_fun; eauto). subst a'.
      destruct (KW _ _ _ _ A I) as (b2 & B2 & _). destruct (NF _ _ _ I B2) as [_ Q]. eapply Q; eauto.
Qed.

End P.
