(** Proofs about the nodes of the dependency graph. *)
From Verif Require Import Base BaseFacts Env ParamModel SelModel SimVarModel DistModel AuxModel AuxSpec AuxProofs AuxProps
  PopModel SynthModel SynthSpec SynthGraph GraphSpec.
Open Scope nat_scope.

(** ** What adding a node and an edge does *)
Lemma add_node_in k b g x : In x (dkeys (gr_nodes (add_node k b g))) <-> In x (dkeys (gr_nodes g)) \/ x = k.
Proof.
  unfold add_node. destruct b; [cbn [gr_nodes]; rewrite In_dkeys_dset; tauto|]. destruct (dget (gr_nodes g) k) eqn:D.
  - split; [auto|]. intros [?| ->]; [easy|]. apply dget_In in D. change k with (fst (k, o)). now apply in_map.
  - cbn [gr_nodes]. rewrite In_dkeys_dset. tauto.
Qed.
Lemma add_edge_in u v g x : In x (dkeys (gr_nodes (add_edge u v g))) <-> In x (dkeys (gr_nodes g)) \/ x = u \/ x = v.
Proof. unfold add_edge. cbn [gr_nodes]. rewrite !add_node_in. tauto. Qed.

Lemma mark_node k b g x : mark_of (add_node k (Some b) g) x = if String.eqb x k then Some b else mark_of g x.
Proof.
  unfold mark_of, add_node. cbn [gr_nodes]. destruct (String.eqb_spec x k) as [->|N].
  - now rewrite dget_dset_eq.
  - now rewrite dget_dset_neq.
Qed.
Lemma mark_none k g x : mark_of (add_node k None g) x = mark_of g x.
Proof.
  unfold mark_of, add_node. destruct (dget (gr_nodes g) k) eqn:D; [easy|]. cbn [gr_nodes].
  destruct (String.eqb_spec x k) as [->|N]; [now rewrite dget_dset_eq, D|now rewrite dget_dset_neq].
Qed.
Lemma mark_edge u v g x : mark_of (add_edge u v g) x = mark_of g x.
Proof. unfold add_edge. change (mark_of (add_node v None (add_node u None g)) x = mark_of g x). now rewrite !mark_none. Qed.

Lemma wf_node k b g : well_formed g -> well_formed (add_node k b g).
Proof.
  intros [N Q H]. constructor.
  - unfold add_node. destruct b; [now apply NoDup_dset|]. destruct (dget (gr_nodes g) k); [easy|]. now apply NoDup_dset.
  - now rewrite add_node_edges.
  - intros u v I. rewrite add_node_edges in I. rewrite !add_node_in. destruct (H u v I). auto.
Qed.
Lemma wf_edge u v g : well_formed g -> well_formed (add_edge u v g).
Proof.
  intros H. assert (W : well_formed (add_node v None (add_node u None g))) by now apply wf_node, wf_node.
  constructor.
  - apply (wf_nodes _ W).
  - unfold add_edge. cbn [gr_edges]. destruct (existsb _ _) eqn:X; [apply (wf_edges _ W)|].
    assert (NA : forall l : list (string * string), NoDup l -> ~ In (u, v) l -> NoDup (l ++ [(u, v)])).
    { intros l NL NI. apply NoDup_Add with (a := (u, v)) (l := l); [|auto]. rewrite <- (app_nil_r l) at 1. apply Add_app. }
    apply NA; [apply (wf_edges _ W)|]. intros I. assert (T : existsb (edge_eqb (u, v)) (gr_edges (add_node v None (add_node u None g))) = true).
    { apply existsb_exists. exists (u, v). split; [easy|]. now apply edge_eqb_spec. }
    congruence.
  - intros a b I. rewrite !add_edge_in. apply add_edge_edges in I. destruct I as [I|I].
    + destruct (wf_ends _ H a b I). auto.
    + injection I as -> ->. auto.
Qed.

Section P.
Variable E : env.
Notation world := (world E).
Notation synth := (synth E).

(** ** Invariants of the graph *)
Definition keep (I : graph -> Prop) (m : GM unit) : Prop := forall g u g', I g -> m g = (Ok u, g') -> I g'.
Definition est (I : graph -> Prop) (m : GM unit) : Prop := forall g u g', m g = (Ok u, g') -> I g'.

Section I.
Variable I : graph -> Prop.
Lemma keep_ret : keep I (ret tt).
Proof. intros g u g' H Q. now injection Q as <- <-. Qed.
Lemma keep_seq m k : keep I m -> keep I k -> keep I (m ;; k).
Proof. intros HM HK g u g' H Q. apply bind_inv_ok in Q. destruct Q as (x & g1 & H1 & H2). eauto. Qed.
Lemma keep_if (b : bool) m : (b = true -> keep I m) -> keep I (if b then m else ret tt).
Proof. destruct b; [auto|]. intros _. apply keep_ret. Qed.
Lemma keep_iter {A} (f : A -> GM unit) l : (forall x, In x l -> keep I (f x)) -> keep I (iterM f l).
Proof.
  induction l as [|x l IH]; intros H; cbn [iterM]; [apply keep_ret|]. apply keep_seq; [apply H; now left|].
  apply IH. intros z Z. apply H. now right.
Qed.
Lemma keep_gaux (w : world) i (k : sampler E -> GM unit) : (forall a, at_ w i a -> keep I (k a)) -> keep I (let! x := gaux (w_auxs w) i in k x).
Proof. intros H g u g' G Q. apply gaux_inv in Q. destruct Q as (a & A & Q). eapply H; eauto. Qed.
Lemma keep_assert b : keep I (lift (rassert b)).
Proof. intros g u g' H Q. unfold lift, rassert in Q. destruct b; [|discriminate]. now injection Q as <- <-. Qed.

Lemma est_left m k : est I m -> keep I k -> est I (m ;; k).
Proof. intros HM HK g u g' Q. apply bind_inv_ok in Q. destruct Q as (x & g1 & H1 & H2). eauto. Qed.
Lemma est_right (m k : GM unit) : est I k -> est I (m ;; k).
Proof. intros HK g u g' Q. apply bind_inv_ok in Q. destruct Q as (x & g1 & H1 & H2). eauto. Qed.
Lemma est_iter {A} (f : A -> GM unit) l x : In x l -> est I (f x) -> (forall z, In z l -> keep I (f z)) -> est I (iterM f l).
Proof.
  induction l as [|z l IH]; intros J S H; [destruct J|]. cbn [iterM]. destruct J as [->|J].
  - apply est_left; [easy|]. apply keep_iter. intros t T. apply H. now right.
  - apply est_right, IH; [easy|easy|]. intros t T. apply H. now right.
Qed.
Lemma est_gaux (w : world) i a (k : sampler E -> GM unit) : at_ w i a -> est I (k a) -> est I (let! x := gaux (w_auxs w) i in k x).
Proof. intros A H g u g' Q. rewrite (gaux_bind E w i a k g A) in Q. eapply H; eauto. Qed.

(** Below a sampler. *)
Lemma keep_props fuel : forall (w : world) i a g s G', keyed w -> at_ w i a ->
  (forall p c b b', reaches w i p -> depends w p c -> at_ w p b' -> at_ w c b -> forall g, I g -> I (touch E b (name_of b) (name_of b') g)) ->
  I g -> sec_props fuel (w_auxs w) i (name_of a) (Some g) = (Ok s, G') -> exists g', G' = Some g' /\ I g'.
Proof.
  induction fuel as [|fuel IH]; intros w i a g s G' KW A T G H; [discriminate|].
  rewrite sec_props_eq in H. unfold at_ in A. rewrite A in H. change (at_ w i a) in A.
  apply bind_inv_ok in H. destruct H as (acc & G1 & H1 & H). unfold ret in H. injection H as <- <-.
  assert (X : forall l acc0 g0 acc1 G2, (forall kv, In kv l -> In kv (a_sec (a_ln a))) -> I g0 ->
    foldM (prop_step E fuel (w_auxs w) (name_of a)) acc0 l (Some g0) = (Ok acc1, G2) -> exists g2, G2 = Some g2 /\ I g2).
  { induction l as [|[k j] l IHl]; intros acc0 g0 acc1 G2 J Q F; cbn [foldM] in F.
    - unfold ret in F. injection F as <- <-. eauto.
    - apply bind_inv_ok in F. destruct F as (acc2 & G3 & F1 & F).
      apply prop_step_inv in F1. destruct F1 as (b & t & B & -> & F1 & U).
      assert (IN : In (k, j) (a_sec (a_ln a))) by (apply J; now left).
      assert (D : depends w i j) by (exists a, k; auto).
      destruct (KW _ _ _ _ A IN) as (b' & B' & NB). assert (b' = b) by (eapply at_fun; eauto). subst b'.
      rewrite <- NB in F1. apply IH in F1; [|easy|easy| |].
      + destruct F1 as (g3 & -> & H3). eapply IHl; [|exact H3|exact F]. intros kv Z. apply J. now right.
      + intros p c x x' R. apply T. eapply reaches_step; eauto.
      + apply (T i j b a); auto. constructor. }
  eapply X; eauto.
Qed.
Lemma keep_gprops rl (w : world) i a : keyed w -> at_ w i a ->
  (forall p c b b', reaches w i p -> depends w p c -> at_ w p b' -> at_ w c b -> forall g, I g -> I (touch E b (name_of b) (name_of b') g)) ->
  keep I (gprops rl (w_auxs w) i (name_of a)).
Proof.
  intros K A T g u g' G H. unfold gprops in H. destruct (sec_props rl (w_auxs w) i (name_of a) (Some g)) as [r G'] eqn:SP.
  destruct r as [s|x]; [|destruct G'; discriminate]. destruct (keep_props _ _ _ _ _ _ _ K A T G SP) as (g1 & -> & H1).
  cbn in H. now injection H as <- <-.
Qed.
End I.

Section Graph.
Variables (y : synth) (rl : nat).
Notation w := (y_w y).
Hypotheses (K : keyed w) (N : named y).
Notation spn := (sd_name (y_sp y)).

Lemma top_part k i : In (k, i) (y_aux y) -> part y i.
Proof. intros H. left. exists k, i. split; [easy|constructor]. Qed.
Lemma der_part i : y_der y = Some i -> part y i.
Proof. intros H. right. exists i. split; [easy|constructor]. Qed.
Lemma part_reaches i j : part y i -> reaches w i j -> part y j.
Proof.
  intros [(k & i0 & Q & R0)|(i0 & Q & R0)] R; [left; exists k, i0|right; exists i0]; (split; [easy|]); eapply reaches_trans; eauto.
Qed.
Lemma part_depends i j : part y i -> depends w i j -> part y j.
Proof. intros P D. apply (part_reaches i j P). eapply reaches_step; [exact D|constructor]. Qed.

Lemma part_parent j p : reaches w j p -> forall i, part y i -> depends w i j -> exists q, part y q /\ depends w q p.
Proof. intros R. induction R as [z|z t u DZ RZ IH]; intros i P D; [eauto|]. apply (IH z); [|easy]. eapply part_depends; eauto. Qed.

Section Inv.
Variable I : graph -> Prop.
Hypothesis IT : forall b k g, marked y b k -> I g -> I (add_node k (Some b) g).
Hypothesis IN : forall e k g, graph_edge y e -> k = fst e -> I g -> I (add_node k None g).
Hypothesis IE : forall u v g, graph_edge y (u, v) -> I g -> I (add_edge u v g).

Lemma keep_node b k : marked y b k -> keep I (gnode k (Some b)).
Proof. intros M g u g' G H. unfold gnode, modify in H. injection H as <- <-. now apply IT. Qed.
Lemma keep_plain e k : graph_edge y e -> k = fst e -> keep I (gnode k None).
Proof. intros M F g u g' G H. unfold gnode, modify in H. injection H as <- <-. eapply IN; eauto. Qed.
Lemma keep_edge u v : graph_edge y (u, v) -> keep I (gedge u v).
Proof. intros M g x g' G H. unfold gedge, modify in H. injection H as <- <-. now apply IE. Qed.

Lemma touch_keeps q c d b b' g : part y q -> depends w q c -> depends w c d -> at_ w c b' -> at_ w d b ->
  (a_observed (a_st b) = true -> graph_edge y (name_of b, obs_name_of b)) -> I g -> I (touch E b (name_of b) (name_of b') g).
Proof.
  intros P DC DD B' B O G. unfold touch.
  assert (PC : part y c) by (eapply part_depends; eauto).
  assert (G1 : I (add_edge (name_of b) (name_of b') (add_node (name_of b) (Some false) g))).
  { apply IE; [exact (ge_sec PC DD B' B)|]. apply IT; [|easy]. exact (mp_deep y q c d b P DC DD B). }
  destruct (a_observed (a_st b)) eqn:OB; [|easy]. apply IE; [auto|]. apply IT; [|easy]. exact (mp_deep_obs y q c d b P DC DD B OB).
Qed.

Lemma keep_below i j b : part y i -> depends w i j -> at_ w j b ->
  (forall p c x, reaches w j p -> depends w p c -> at_ w c x -> a_observed (a_st x) = true -> graph_edge y (name_of x, obs_name_of x)) ->
  keep I (gprops rl (w_auxs w) j (name_of b)).
Proof.
  intros P D B O. apply keep_gprops; [easy|easy|]. intros p c x x' R DC X' X g G.
  destruct (part_parent j p R i P D) as (q & PQ & DQ). eapply touch_keeps; eauto.
Qed.

Lemma keep_derived i : y_der y = Some i -> keep I (graph_derived rl (w_auxs w) spn i).
Proof.
  intros DE. unfold graph_derived. apply keep_gaux. intros a A.
  assert (P : part y i) by now apply der_part.
  apply keep_seq; [eapply keep_plain with (e := (name_of a, "obs_flux")); [eapply ge_der; eauto|reflexivity]|].
  apply keep_seq; [apply keep_edge; eapply ge_der; eauto|].
  apply keep_seq; [apply keep_if; intros U; apply keep_edge; eapply ge_der_space; eauto|].
  apply keep_iter. intros [k j] J. cbn [fst snd]. destruct (K _ _ _ _ A J) as (b & B & <-).
  assert (D : depends w i j) by (eexists; eauto).
  assert (GE : graph_edge y (name_of b, name_of a)) by (eapply ge_sec; eauto).
  apply keep_seq; [eapply keep_plain; [exact GE|reflexivity]|]. apply keep_seq; [now apply keep_edge|].
  apply (keep_below i); auto. intros p c x R DC X O. eapply ge_der_obs; eauto.
Qed.

(** One secondary of a registered sampler. *)
Definition sec_step (k : string) (kv2 : string * nat) : GM unit :=
  let k2 := fst kv2 in
  let! b := gaux (w_auxs w) (snd kv2) in
  gedge k2 k ;;
  gnode k2 (Some false) ;;
  (if a_usesd (a_st b) then gedge spn k2 else ret tt) ;;
  (if a_observed (a_st b) then gnode (obs_name_of b) (Some true) ;; gedge k2 (obs_name_of b) else ret tt) ;;
  gprops rl (w_auxs w) (snd kv2) k2.

Lemma keep_sec k0 i a kv : In (k0, i) (y_aux y) -> at_ w i a -> In kv (a_sec (a_ln a)) -> keep I (sec_step (name_of a) kv).
Proof.
  intros T A J. destruct kv as [k j]. unfold sec_step. cbn [fst snd]. destruct (K _ _ _ _ A J) as (b & B & <-).
  assert (D : depends w i j) by (eexists; eauto). assert (P : part y i) by (eapply top_part; eauto).
  assert (R : reaches w i j) by (eapply reaches_step; [exact D|constructor]).
  apply keep_gaux. intros b' B'. assert (b' = b) by (eapply at_fun; eauto). subst b'.
  apply keep_seq; [apply keep_edge; eapply ge_sec; eauto|]. apply keep_seq; [apply keep_node; eapply mp_sec; eauto|].
  apply keep_seq; [apply keep_if; intros U; apply keep_edge; eapply ge_sec_space; eauto|].
  apply keep_seq.
  - apply keep_if. intros O. apply keep_seq; [apply keep_node; eapply mo_sec; eauto|]. apply keep_edge. eapply ge_obs; eauto.
  - apply (keep_below i); auto. intros p c x RP DC X O. eapply (@ge_obs E y k0 i c); eauto.
    eapply reaches_trans; [exact R|]. eapply reaches_trans; [exact RP|]. eapply reaches_step; [exact DC|constructor].
Qed.

Lemma keep_top kv : In kv (y_aux y) -> keep I (graph_aux rl (w_auxs w) spn kv).
Proof.
  destruct kv as [k i]. intros T. unfold graph_aux. cbn [fst snd]. destruct (N k i T) as (a & A & <-).
  apply keep_gaux. intros a' A'. assert (a' = a) by (eapply at_fun; eauto). subst a'.
  apply keep_seq; [apply keep_assert|]. apply keep_seq; [apply keep_node; eapply mp_top; eauto|].
  apply keep_seq.
  - apply keep_if. intros O. apply keep_seq; [apply keep_node; eapply mp_top_obs; eauto|].
    apply keep_seq; [apply keep_edge; eapply ge_obs; eauto; constructor|].
    apply keep_if. intros U. apply keep_edge. eapply ge_top_space; eauto.
  - apply keep_iter. intros kv2 J. exact (keep_sec (name_of a) i a kv2 T A J).
Qed.

Lemma keep_aux : keep I (iterM (graph_aux rl (w_auxs w) spn) (y_aux y)).
Proof. apply keep_iter. intros kv T. now apply keep_top. Qed.

Lemma keep_source lumn : lumn = option_map (fun l => ld_name l) (y_lum y) ->
  keep I (match y_der y with
   | Some i => graph_derived rl (w_auxs w) spn i
   | None => match lumn with None => raise AttributeError | Some l => gedge l "obs_flux" end
   end).
Proof.
  intros ->. destruct (y_der y) as [i|] eqn:DE; [now apply keep_derived|]. destruct (y_lum y) as [l|] eqn:YL; cbn [option_map].
  - apply keep_edge. now apply ge_lum.
  - intros g u g' _ H. discriminate.
Qed.

Lemma keep_build : keep I (build_graph rl (w_auxs w) spn (option_map (fun l => ld_name l) (y_lum y)) (y_der y) (y_aux y)).
Proof.
  unfold build_graph. apply keep_seq; [apply keep_node; constructor|]. apply keep_seq; [apply keep_edge; constructor|].
  apply keep_seq; [now apply keep_source|]. apply keep_aux.
Qed.

Lemma read_inv g y' : read_graph rl y = (Ok g, y') ->
  exists u, build_graph rl (w_auxs w) spn (option_map (fun l => ld_name l) (y_lum y)) (y_der y) (y_aux y) (y_graph y) = (Ok u, g).
Proof.
  intros H. unfold read_graph in H.
  destruct (build_graph rl (w_auxs w) spn (option_map (fun l => ld_name l) (y_lum y)) (y_der y) (y_aux y) (y_graph y)) as [r g1] eqn:BG.
  destruct r as [u|x]; [|discriminate]. cbn in H. injection H as <- <-. eauto.
Qed.
Theorem graph_keeps g y' : read_graph rl y = (Ok g, y') -> I (y_graph y) -> I g.
Proof. intros H G. destruct (read_inv _ _ H) as (u & BG). eapply keep_build; eauto. Qed.

(** A registered sampler, or one of its secondaries, establishes the invariant. *)
Lemma est_top kv : In kv (y_aux y) -> est I (graph_aux rl (w_auxs w) spn kv) ->
  forall g y', read_graph rl y = (Ok g, y') -> I g.
Proof.
  intros T S g y' H. destruct (read_inv _ _ H) as (u & BG). revert BG. apply est_right, est_right, est_right.
  apply est_iter with kv; auto. intros z Z. now apply keep_top.
Qed.
Lemma est_sec k i a kv : In (k, i) (y_aux y) -> at_ w i a -> In kv (a_sec (a_ln a)) -> est I (sec_step k kv) ->
  est I (graph_aux rl (w_auxs w) spn (k, i)).
Proof.
  intros T A J S. unfold graph_aux. cbn [fst snd]. destruct (N k i T) as (a' & A' & <-).
  assert (a' = a) by (eapply at_fun; eauto). subst a'. apply est_gaux with a; [easy|].
  apply est_right, est_right, est_right. apply est_iter with kv; [easy|exact S|].
  intros z Z. exact (keep_sec (name_of a) i a z T A Z).
Qed.
End Inv.

(** ** The theorems *)
Theorem graph_well_formed g y' : read_graph rl y = (Ok g, y') -> well_formed (y_graph y) -> well_formed g.
Proof.
  apply graph_keeps.
  - intros b k h _. apply wf_node.
  - intros e k h _ _. apply wf_node.
  - intros u v h _. apply wf_edge.
Qed.

Lemma marked_node b k : marked y b k -> graph_node y k.
Proof.
  intros M. unfold graph_node. destruct b; cbn in M.
  - destruct M as [|k i c b T D B O].
    + left. exists (spn, "obs_flux"). split; [constructor|]. now right.
    + left. exists (name_of b, obs_name_of b). split; [|now right]. eapply ge_obs; eauto. eapply reaches_step; [exact D|constructor].
  - destruct M as [k i T|k i a T A O|k i c b T D B|p c d b P DC DD B|p c d b P DC DD B O].
    + right. eauto.
    + left. exists (name_of a, obs_name_of a). split; [|now right]. eapply ge_obs; eauto. constructor.
    + left. destruct (N k i T) as (a & A & <-). exists (name_of b, name_of a). split; [|now left]. eapply ge_sec; eauto. eapply top_part; eauto.
    + left. destruct DC as (x & n & X & J). destruct (K _ _ _ _ X J) as (x' & X' & _).
      exists (name_of b, name_of x'). split; [|now left]. apply (@ge_sec E y c x' d b); auto. eapply part_depends; eauto. exists x, n. auto.
    + left. exists (name_of b, obs_name_of b). split; [|now right].
      destruct P as [(k & i & T & R)|(i & DE & R)].
      * eapply (@ge_obs E y k i d); eauto. eapply reaches_trans; [exact R|]. eapply reaches_step; [exact DC|]. eapply reaches_step; [exact DD|constructor].
      * inversion R as [|? m ? DM RM]; subst.
        -- eapply (@ge_der_obs E y p c c d); eauto. constructor.
        -- eapply (@ge_der_obs E y i m c d); eauto. eapply reaches_trans; [exact RM|]. eapply reaches_step; [exact DC|constructor].
Qed.

Theorem graph_nodes g y' : read_graph rl y = (Ok g, y') -> well_formed (y_graph y) ->
  forall k, In k (dkeys (gr_nodes g)) <-> In k (dkeys (gr_nodes (y_graph y))) \/ graph_node y k.
Proof.
  intros H W k. split.
  - revert k. refine (graph_keeps (fun g => forall k, In k (dkeys (gr_nodes g)) -> In k (dkeys (gr_nodes (y_graph y))) \/ graph_node y k) _ _ _ g y' H _).
    + intros b k h M G x. rewrite add_node_in. intros [Q| ->]; [auto|]. right. eapply marked_node; eauto.
    + intros e k h GE F G x. rewrite add_node_in. intros [Q| ->]; [auto|]. right. left. exists e. auto.
    + intros u v h GE G x. rewrite add_edge_in. intros [Q|[->| ->]]; [auto| |]; right; left; exists (u, v); auto.
    + auto.
  - intros [Q|[((u, v) & GE & Q)|(i & T)]].
    + refine (graph_keeps (fun g => In k (dkeys (gr_nodes g))) _ _ _ g y' H Q).
      * intros b x h M G. rewrite add_node_in. auto.
      * intros e x h GE F G. rewrite add_node_in. auto.
      * intros u v h GE G. rewrite add_edge_in. auto.
    + assert (WG := graph_well_formed _ _ H W). destruct (graph_edges E y rl K N _ _ H) as (_ & HE).
      destruct (wf_ends _ WG u v) as (U & V); [apply HE; auto|]. cbn in Q. destruct Q as [->| ->]; easy.
    + refine (est_top (fun g => In k (dkeys (gr_nodes g))) _ _ (k, i) T _ g y' H).
      * intros b x h M G. rewrite add_node_in. auto.
      * intros u v h GE G. rewrite add_edge_in. auto.
      * destruct (N k i T) as (a & A & <-). unfold graph_aux. cbn [fst snd]. apply est_gaux with a; [easy|].
        apply est_right. apply est_left.
        -- intros h u h' Q. unfold gnode, modify in Q. injection Q as <- <-. unfold add_node. cbn [gr_nodes]. apply In_dkeys_dset. now left.
        -- set (IV := fun g => In (name_of a) (dkeys (gr_nodes g))).
           assert (IT : forall b x h, marked y b x -> IV h -> IV (add_node x (Some b) h)) by (intros; unfold IV in *; rewrite add_node_in; auto).
           assert (IN' : forall e x h, graph_edge y e -> x = fst e -> IV h -> IV (add_node x None h)) by (intros; unfold IV in *; rewrite add_node_in; auto).
           assert (IE : forall u v h, graph_edge y (u, v) -> IV h -> IV (add_edge u v h)) by (intros; unfold IV in *; rewrite add_edge_in; auto).
           apply keep_seq.
           ++ apply keep_if. intros O. apply keep_seq; [apply (keep_node _ IT); eapply mp_top_obs; eauto|].
              apply keep_seq; [apply (keep_edge _ IE); eapply ge_obs; eauto; constructor|].
              apply keep_if. intros U. apply (keep_edge _ IE). eapply ge_top_space; eauto.
           ++ apply keep_iter. intros kv2 J. exact (keep_sec IV IT IE (name_of a) i a kv2 T A J).
Qed.

Theorem graph_marks g y' : read_graph rl y = (Ok g, y') ->
  forall k b, mark_of g k = Some b -> mark_of (y_graph y) k = Some b \/ marked y b k.
Proof.
  intros H. refine (graph_keeps (fun g => forall k b, mark_of g k = Some b -> mark_of (y_graph y) k = Some b \/ marked y b k) _ _ _ g y' H _).
  - intros b k h M G x b'. rewrite mark_node. destruct (String.eqb_spec x k) as [->|NE]; [|auto]. intros Q. injection Q as <-. auto.
  - intros e k h GE F G x b'. rewrite mark_none. auto.
  - intros u v h GE G x b'. rewrite mark_edge. auto.
  - auto.
Qed.

Theorem graph_observed g y' : read_graph rl y = (Ok g, y') ->
  forall k, marked_observed y k -> ~ marked_plain y k -> mark_of g k = Some true.
Proof.
  intros H k M NP.
  assert (IT : forall b x h, marked y b x -> mark_of h k = Some true -> mark_of (add_node x (Some b) h) k = Some true).
  { intros b x h MX G. rewrite mark_node. destruct (String.eqb_spec k x) as [<-|NE]; [|easy]. destruct b; [easy|contradiction]. }
  assert (IN' : forall e x h, graph_edge y e -> x = fst e -> mark_of h k = Some true -> mark_of (add_node x None h) k = Some true).
  { intros e x h _ _ G. now rewrite mark_none. }
  assert (IE : forall u v h, graph_edge y (u, v) -> mark_of h k = Some true -> mark_of (add_edge u v h) k = Some true).
  { intros u v h _ G. now rewrite mark_edge. }
  set (IV := fun g => mark_of g k = Some true).
  assert (ES : est IV (gnode k (Some true))).
  { intros h u h' Q. unfold gnode, modify in Q. injection Q as <- <-. change (mark_of (add_node k (Some true) h) k = Some true). rewrite mark_node. now rewrite String.eqb_refl. }
  destruct M as [|k0 i c b T D B O].
  - destruct (read_inv _ _ H) as (u & BG). revert BG. unfold build_graph. apply (est_left IV); [exact ES|].
    apply keep_seq; [apply (keep_edge IV IE); constructor|]. apply keep_seq; [now apply (keep_source IV IT IN' IE)|]. now apply (keep_aux IV IT IE).
  - destruct D as (a & n & A & J). refine (est_top IV IT IE (k0, i) T _ g y' H).
    apply (est_sec IV IT IE k0 i a (n, c) T A J). unfold sec_step. cbn [fst snd]. destruct (K _ _ _ _ A J) as (b' & B' & <-).
    assert (b' = b) by (eapply at_fun; eauto). subst b'. assert (D : depends w i c) by (eexists; eauto).
    assert (P : part y i) by (eapply top_part; eauto). assert (R : reaches w i c) by (eapply reaches_step; [exact D|constructor]).
    apply est_gaux with b; [easy|]. apply est_right, est_right, est_right. rewrite O. apply est_left.
    + apply est_left; [exact ES|]. apply (keep_edge IV IE). eapply ge_obs; eauto.
    + apply (keep_below IV IT IE i); auto. intros p d x RP DC X OX. eapply (@ge_obs E y k0 i d); eauto.
      eapply reaches_trans; [exact R|]. eapply reaches_trans; [exact RP|]. eapply reaches_step; [exact DC|constructor].
Qed.
End Graph.
End P.
