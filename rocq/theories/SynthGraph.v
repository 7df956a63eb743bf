(** Proofs about registration and the dependency graph. *)
From Verif Require Import Base BaseFacts Env ParamModel SelModel SimVarModel DistModel AuxModel AuxSpec AuxProofs AuxProps
  PopModel SynthModel SynthSpec.
Open Scope nat_scope.

Section P.
Variable E : env.
Notation V := (V E).
Notation world := (world E).
Notation synth := (synth E).
Implicit Types y : synth.

(** ** Registration *)
Lemma add_quantity_cases x y : exists r y', add_quantity x y = (r, y') /\ y_w y' = y_w y /\
  ((r = Ok tt /\ exists i a, x = IsSampler i /\ at_ (y_w y) i a /\
     ((k_lum (kind_of a) <> None /\ y' = with_der y (Some i)) \/
      (k_lum (kind_of a) = None /\ a_issec (a_ln a) = false /\ dget (y_aux y) (name_of a) = None /\
       y' = with_aux y (dset (y_aux y) (name_of a) i)))) \/
   (r = Err RuntimeError /\ y' = y /\ (x = NotASampler \/ exists i a, x = IsSampler i /\ at_ (y_w y) i a /\ k_lum (kind_of a) = None /\
      (a_issec (a_ln a) = true \/ dget (y_aux y) (name_of a) <> None))) \/
   (r = Err Unmodelled /\ y' = y /\ exists i, x = IsSampler i /\ nth_error (w_auxs (y_w y)) i = None)).
Proof.
  destruct x as [i|]; [|exists (Err RuntimeError), y; split; [reflexivity|]; split; [easy|]; right; left; auto].
  unfold add_quantity, bind, in_w, get_aux, lift. unfold get, gets. destruct (nth_error (w_auxs (y_w y)) i) as [a|] eqn:A; unfold bind, of_opt.
  2:{ exists (Err Unmodelled), y. split; [|split; [easy|]; right; right; eauto]. cbn. unfold with_w. now destruct y. }
  assert (WW : with_w y (y_w y) = y) by now destruct y.
  cbn. rewrite WW. destruct (k_lum (kind_of a)) eqn:KL.
  - do 2 eexists. split; [reflexivity|]. split; [reflexivity|]. left. split; [reflexivity|]. exists i, a. split; [easy|]. split; [exact A|].
    left. split; [congruence|reflexivity].
  - destruct (a_issec (a_ln a)) eqn:IS.
    + exists (Err RuntimeError), y. split; [reflexivity|]. split; [easy|]. right. left. split; [easy|]. split; [easy|]. right. exists i, a. auto 8.
    + cbn. unfold dmem. destruct (dget (y_aux y) (name_of a)) eqn:DG; cbn.
      * exists (Err RuntimeError), y. split; [reflexivity|]. split; [easy|]. right. left. split; [easy|]. split; [easy|]. right. exists i, a.
        split; [easy|]. split; [exact A|]. split; [easy|]. right. congruence.
      * do 2 eexists. split; [reflexivity|]. split; [reflexivity|]. left. split; [reflexivity|]. exists i, a. split; [easy|]. split; [exact A|].
        right. auto.
Qed.

Lemma register_spec l : forall y, NoDup (dkeys (y_aux y)) ->
  let y' := register l y in
  y_w y' = y_w y /\ NoDup (dkeys (y_aux y')) /\
  (forall k i, In (k, i) (y_aux y) -> In (k, i) (y_aux y')) /\
  (forall k i, In (k, i) (y_aux y') -> In (k, i) (y_aux y) \/
     (In (IsSampler i) l /\ exists a, at_ (y_w y) i a /\ name_of a = k /\ a_issec (a_ln a) = false /\ k_lum (kind_of a) = None)).
Proof.
  induction l as [|x l IH]; intros y ND; cbn [register]; [cbn; auto|].
  destruct (add_quantity_cases x y) as (r & y1 & EQ & W & C). rewrite EQ. cbn [snd].
  assert (Q : NoDup (dkeys (y_aux y1)) /\ (forall k i, In (k, i) (y_aux y) -> In (k, i) (y_aux y1)) /\
    (forall k i, In (k, i) (y_aux y1) -> In (k, i) (y_aux y) \/
     (x = IsSampler i /\ exists a, at_ (y_w y) i a /\ name_of a = k /\ a_issec (a_ln a) = false /\ k_lum (kind_of a) = None))).
  { destruct C as [(_ & i & a & X & A & [(_ & Y)|(KL & IS & DG & Y)])|[(_ & Y & _)|(_ & Y & _)]]; subst y1; cbn [y_aux with_der with_aux].
    - auto.
    - split; [now apply NoDup_dset|]. rewrite (dset_fresh _ _ _ DG). split.
      + intros k j I. apply in_app_iff. now left.
      + intros k j I. apply in_app_iff in I. destruct I as [I|[I|[]]]; [auto|]. injection I as <- <-. right. split; [easy|]. exists a. auto.
    - auto.
    - auto. }
  destruct Q as (ND1 & K1 & K2). destruct (IH y1 ND1) as (W2 & ND2 & K3 & K4). rewrite W in *.
  split; [easy|]. split; [easy|]. split; [auto|]. intros k i I. destruct (K4 k i I) as [J|(J & Q)].
  - destruct (K2 k i J) as [J'|(-> & Q)]; [auto|]. right. split; [now left|easy].
  - right. split; [now right|easy].
Qed.

Lemma register_last_der l : forall y i a, at_ (y_w y) i a -> k_lum (kind_of a) <> None ->
  y_der (register (l ++ [IsSampler i]) y) = Some i /\ y_aux (register (l ++ [IsSampler i]) y) = y_aux (register l y).
Proof.
  induction l as [|x l IH]; intros y i a A KL; cbn [register app].
  - destruct (add_quantity_cases (IsSampler i) y) as (r & y1 & EQ & W & C). rewrite EQ. cbn.
    destruct C as [(_ & j & b & X & B & [(_ & ->)|(KN & _)])|[(_ & -> & [X|(j & b & X & B & KN & _)])|(_ & -> & j & X & N)]]; try discriminate X;
    injection X as <-.
    + auto.
    + exfalso. assert (b = a) by (eapply at_fun; eauto). congruence.
    + exfalso. assert (b = a) by (eapply at_fun; eauto). congruence.
    + exfalso. unfold at_ in A. congruence.
  - destruct (add_quantity_cases x y) as (r & y1 & EQ & W & C). rewrite EQ. cbn [snd]. apply (IH _ _ a); [|easy]. now rewrite W.
Qed.

(** ** The graph *)
Definition adds (m : GM unit) (P : string * string -> Prop) : Prop := forall g u g', m g = (Ok u, g') ->
  forall e, In e (gr_edges g') <-> In e (gr_edges g) \/ P e.

Lemma adds_ret : adds (ret tt) (fun _ => False).
Proof. intros g u g' H e. injection H as <- <-. tauto. Qed.
Lemma adds_raise x P : adds (raise x) P.
Proof. intros g u g' H. discriminate. Qed.
Lemma adds_node k o : adds (gnode k o) (fun _ => False).
Proof. intros g u g' H e. unfold gnode, modify in H. injection H as <- <-. rewrite add_node_edges. tauto. Qed.
Lemma adds_edge u v : adds (gedge u v) (fun e => e = (u, v)).
Proof. intros g x g' H e. unfold gedge, modify in H. injection H as <- <-. apply add_edge_edges. Qed.
Lemma adds_seq m k P Q : adds m P -> adds k Q -> adds (m ;; k) (fun e => P e \/ Q e).
Proof.
  intros HM HK g u g' H e. apply bind_inv_ok in H. destruct H as (x & g1 & H1 & H2).
  rewrite (HK _ _ _ H2), (HM _ _ _ H1). tauto.
Qed.
Lemma adds_if (b : bool) m P : (b = true -> adds m P) -> adds (if b then m else ret tt) (fun e => b = true /\ P e).
Proof.
  intros H. destruct b.
  - intros g u g' HM e. rewrite (H eq_refl _ _ _ HM). tauto.
  - intros g u g' HM e. injection HM as <- <-. intuition discriminate.
Qed.
Lemma adds_iter {A} (f : A -> GM unit) (P : A -> string * string -> Prop) l : (forall x, In x l -> adds (f x) (P x)) ->
  adds (iterM f l) (fun e => exists x, In x l /\ P x e).
Proof.
  induction l as [|x l IH]; intros H; cbn [iterM].
  - intros g u g' HM e. injection HM as <- <-. split; [auto|]. intros [?|(? & [] & _)]; auto.
  - intros g u g' HM e. apply bind_inv_ok in HM. destruct HM as (z & g1 & H1 & H2).
    rewrite (IH (fun x I => H x (or_intror I)) _ _ _ H2), (H x (or_introl eq_refl) _ _ _ H1). split.
    + intros [[?|?]|(z' & I & Q)]; [auto|right; exists x; split; [now left|easy]|right; exists z'; split; [now right|easy]].
    + intros [?|(z' & [<-|I] & Q)]; [auto|auto|]. right. eauto.
Qed.
Lemma adds_equiv m (P Q : string * string -> Prop) : adds m P -> (forall e, P e <-> Q e) -> adds m Q.
Proof. intros H EQ g u g' HM e. rewrite (H _ _ _ HM), EQ. tauto. Qed.

Lemma gaux_bind (w : world) i a (k : sampler E -> GM unit) g : at_ w i a -> (let! x := gaux (w_auxs w) i in k x) g = k a g.
Proof. intros A. unfold bind, gaux, lift. unfold at_ in A. now rewrite A. Qed.
Lemma gaux_inv (w : world) i (k : sampler E -> GM unit) g u g' : (let! x := gaux (w_auxs w) i in k x) g = (Ok u, g') ->
  exists a, at_ w i a /\ k a g = (Ok u, g').
Proof.
  intros H. apply bind_inv_ok in H. destruct H as (a & g1 & H1 & H2). unfold gaux, lift, of_opt in H1.
  destruct (nth_error (w_auxs w) i) as [a0|] eqn:A; [|discriminate]. injection H1 as -> ->. exists a. auto.
Qed.
Lemma adds_gaux (w : world) i a (k : sampler E -> GM unit) P : at_ w i a -> adds (k a) P -> adds (let! x := gaux (w_auxs w) i in k x) P.
Proof. intros A H g u g' HM. rewrite (gaux_bind w i a k g A) in HM. eapply H; eauto. Qed.

Lemma adds_props rl (w : world) i a : keyed w -> at_ w i a -> adds (gprops rl (w_auxs w) i (name_of a)) (tree_edge w i).
Proof.
  intros K A g u g' H. unfold gprops in H. destruct (sec_props rl (w_auxs w) i (name_of a) (Some g)) as [r G] eqn:SP.
  destruct r as [s|x]; [|destruct G; discriminate]. destruct (props_edges _ _ _ _ _ _ _ _ K A SP) as (g1 & -> & HE & _).
  cbn in H. injection H as <- <-. exact HE.
Qed.

Lemma reaches_trans (w : world) i j k : reaches w i j -> reaches w j k -> reaches w i k.
Proof. intros R. induction R as [x|x z t D R IH]; [easy|]. intros Q. eapply reaches_step; eauto. Qed.

Section Graph.
Variables (y : synth) (rl : nat).
Notation w := (y_w y).
Hypotheses (K : keyed w) (N : named y).
Notation spn := (sd_name (y_sp y)).

Definition der_edges (i : nat) (a : sampler E) (e : string * string) : Prop :=
  e = (name_of a, "obs_flux") \/ (a_usesd (a_st a) = true /\ e = (spn, name_of a)) \/
  exists kv b, In kv (a_sec (a_ln a)) /\ at_ w (snd kv) b /\ (e = (name_of b, name_of a) \/ tree_edge w (snd kv) e).

Lemma adds_derived i a : at_ w i a -> adds (graph_derived rl (w_auxs w) spn i) (der_edges i a).
Proof.
  intros A. unfold graph_derived. apply (adds_gaux w i a); [easy|]. eapply adds_equiv.
  - apply adds_seq; [apply adds_node|]. apply adds_seq; [apply adds_edge|]. apply adds_seq; [apply adds_if; intros _; apply adds_edge|].
    apply (adds_iter _ (fun kv e => exists b, at_ w (snd kv) b /\ (e = (name_of b, name_of a) \/ tree_edge w (snd kv) e))). intros [k j] I. cbn [fst snd].
    destruct (K _ _ _ _ A I) as (b & B & <-). eapply adds_equiv.
    + apply adds_seq; [apply adds_node|]. apply adds_seq; [apply adds_edge|]. now apply adds_props.
    + intros e. cbn. split.
      * intros [[]|Q]. eauto.
      * intros (b' & B' & Q). assert (b' = b) by (eapply at_fun; eauto). subst. auto.
  - intros e. cbn. unfold der_edges. split.
    + intros [[]|[Q|[Q|(kv & I & b & B & Q)]]]; auto. right. right. exists kv, b. auto.
    + intros [Q|[Q|(kv & b & I & B & Q)]]; auto. right. right. right. exists kv. split; [easy|]. exists b. auto.
Qed.

Definition aux_edges (i : nat) (a : sampler E) (e : string * string) : Prop :=
  (a_observed (a_st a) = true /\ (e = (name_of a, obs_name_of a) \/ (a_usesd (a_st a) = true /\ e = (spn, name_of a)))) \/
  exists kv b, In kv (a_sec (a_ln a)) /\ at_ w (snd kv) b /\
    (e = (name_of b, name_of a) \/ (a_usesd (a_st b) = true /\ e = (spn, name_of b)) \/
     (a_observed (a_st b) = true /\ e = (name_of b, obs_name_of b)) \/ tree_edge w (snd kv) e).

Lemma adds_aux i a : at_ w i a -> adds (graph_aux rl (w_auxs w) spn (name_of a, i)) (aux_edges i a).
Proof.
  intros A. unfold graph_aux. cbn [fst snd]. apply (adds_gaux w i a); [easy|]. eapply adds_equiv.
  - apply (adds_seq _ _ (fun _ => False)).
    { intros g u g' H e. unfold lift, rassert in H. destruct (negb (a_issec (a_ln a))); [|discriminate]. injection H as <- <-. tauto. }
    apply adds_seq; [apply adds_node|]. apply adds_seq.
    { apply adds_if. intros _. apply adds_seq; [apply adds_node|]. apply adds_seq; [apply adds_edge|]. apply adds_if. intros _. apply adds_edge. }
    apply (adds_iter _ (fun kv e => exists b, at_ w (snd kv) b /\
      (e = (name_of b, name_of a) \/ (a_usesd (a_st b) = true /\ e = (spn, name_of b)) \/
     (a_observed (a_st b) = true /\ e = (name_of b, obs_name_of b)) \/ tree_edge w (snd kv) e))). intros [k j] I. cbn [fst snd].
    destruct (K _ _ _ _ A I) as (b & B & <-). apply (adds_gaux w j b); [easy|]. eapply adds_equiv.
    + apply adds_seq; [apply adds_edge|]. apply adds_seq; [apply adds_node|]. apply adds_seq; [apply adds_if; intros _; apply adds_edge|].
      apply adds_seq; [apply adds_if; intros _; apply adds_seq; [apply adds_node|apply adds_edge]|]. now apply adds_props.
    + intros e. cbn. split.
      * intros Q. exists b. split; [easy|]. tauto.
      * intros (b' & B' & Q). assert (b' = b) by (eapply at_fun; eauto). subst. tauto.
  - intros e. cbn. unfold aux_edges. split.
    + intros [[]|[[]|[(O & [[]|Q])|(kv & I & b & B & Q)]]]; [left; split; [easy|tauto]|]. right. exists kv, b. auto.
    + intros [(O & Q)|(kv & b & I & B & Q)]; [right; right; left; split; [easy|tauto]|]. right. right. right. exists kv. split; [easy|]. exists b. auto.
Qed.

Lemma tree_part i e j : part y i -> depends w i j -> tree_edge w j e ->
  exists p a c b, part y p /\ reaches w j p /\ depends w p c /\ at_ w p a /\ at_ w c b /\
    (e = (name_of b, name_of a) \/ (a_observed (a_st b) = true /\ e = (name_of b, obs_name_of b))).
Proof.
  intros P D (p & a & c & b & R & D2 & A & B & Q). exists p, a, c, b. split; [|auto 8].
  assert (R2 : reaches w i p) by (eapply reaches_step; eauto).
  destruct P as [(k & i0 & I & R0)|(i0 & I & R0)]; [left; exists k, i0|right; exists i0]; (split; [easy|]); eapply reaches_trans; eauto.
Qed.

Theorem graph_edges g y' : read_graph rl y = (Ok g, y') ->
  y' = with_graph y g /\ forall e, In e (gr_edges g) <-> In e (gr_edges (y_graph y)) \/ graph_edge y e.
Proof.
  intros H. unfold read_graph in H.
  destruct (build_graph rl (w_auxs w) spn (option_map (fun l => ld_name l) (y_lum y)) (y_der y) (y_aux y) (y_graph y)) as [r g1] eqn:BG.
  destruct r as [u|x]; [|discriminate]. cbn in H. injection H as <- <-. split; [easy|].
  assert (AD : adds (build_graph rl (w_auxs w) spn (option_map (fun l => ld_name l) (y_lum y)) (y_der y) (y_aux y))
    (fun e => e = (spn, "obs_flux") \/ (exists l, y_der y = None /\ y_lum y = Some l /\ e = (ld_name l, "obs_flux")) \/
       (exists i a, y_der y = Some i /\ at_ w i a /\ der_edges i a e) \/
       (exists k i a, In (k, i) (y_aux y) /\ at_ w i a /\ aux_edges i a e))).
  { intros gg uu gg' HM. unfold build_graph in HM.
    assert (AX : adds (iterM (graph_aux rl (w_auxs w) spn) (y_aux y)) (fun e => exists k i a, In (k, i) (y_aux y) /\ at_ w i a /\ aux_edges i a e)).
    { eapply adds_equiv.
      - apply (adds_iter _ (fun kv e => exists a, at_ w (snd kv) a /\ aux_edges (snd kv) a e)). intros [k i] I. cbn [snd].
        destruct (N k i I) as (a & A & <-). eapply adds_equiv; [now apply adds_aux|]. intros e. split; [eauto|].
        intros (a' & A' & Q). assert (a' = a) by (eapply at_fun; eauto). now subst.
      - intros e. split; [intros ([k i] & I & a & A & Q)|intros (k & i & a & I & A & Q); exists (k, i)]; eauto 8. }
    destruct (y_der y) as [i|] eqn:DE.
    - assert (exists a, at_ w i a) as (a & A).
      { apply bind_inv_ok in HM. destruct HM as (x1 & h1 & _ & HM). apply bind_inv_ok in HM. destruct HM as (x2 & h2 & _ & HM).
        apply bind_inv_ok in HM. destruct HM as (x3 & h3 & HM & _). apply gaux_inv in HM. destruct HM as (a & A & _). eauto. }
      revert gg uu gg' HM. change (adds (gnode "obs_flux" (Some true) ;; gedge spn "obs_flux" ;; graph_derived rl (w_auxs w) spn i ;; iterM (graph_aux rl (w_auxs w) spn) (y_aux y)) (fun e => e = (spn, "obs_flux") \/ (exists l, Some i = None /\ y_lum y = Some l /\ e = (ld_name l, "obs_flux")) \/
       (exists i0 a, Some i = Some i0 /\ at_ w i0 a /\ der_edges i0 a e) \/
       (exists k i a, In (k, i) (y_aux y) /\ at_ w i a /\ aux_edges i a e))).
      eapply adds_equiv; [apply adds_seq; [apply adds_node|]; apply adds_seq; [apply adds_edge|]; apply adds_seq; [now apply (adds_derived i a)|exact AX]|].
      intros e. cbn. split.
      + intros [[]|[Q|[Q|Q]]]; auto. right. right. left. exists i, a. auto.
      + intros [Q|[(l & Q & _)|[(i0 & a0 & Q & A0 & Q2)|Q]]]; auto; [discriminate|]. injection Q as <-. assert (a0 = a) by (eapply at_fun; eauto). subst. auto.
    - destruct (y_lum y) as [l|] eqn:YL; cbn [option_map] in HM.
      2:{ apply bind_inv_ok in HM. destruct HM as (x1 & h1 & _ & HM). apply bind_inv_ok in HM. destruct HM as (x2 & h2 & _ & HM).
        apply bind_inv_ok in HM. destruct HM as (x3 & h3 & HM & _). discriminate. }
      revert gg uu gg' HM. change (adds (gnode "obs_flux" (Some true) ;; gedge spn "obs_flux" ;; gedge (ld_name l) "obs_flux" ;; iterM (graph_aux rl (w_auxs w) spn) (y_aux y)) (fun e => e = (spn, "obs_flux") \/ (exists l0, (None : option nat) = None /\ Some l = Some l0 /\ e = (ld_name l0, "obs_flux")) \/
       (exists i a, None = Some i /\ at_ w i a /\ der_edges i a e) \/
       (exists k i a, In (k, i) (y_aux y) /\ at_ w i a /\ aux_edges i a e))).
      eapply adds_equiv; [apply adds_seq; [apply adds_node|]; apply adds_seq; [apply adds_edge|]; apply adds_seq; [apply adds_edge|exact AX]|].
      intros e. cbn. split.
      + intros [[]|[Q|[Q|Q]]]; auto. right. left. exists l. auto.
      + intros [Q|[(l0 & _ & Q & Q2)|[(i0 & a0 & Q & A0 & Q2)|Q]]]; auto; [|discriminate]. injection Q as <-. auto. }
  intros e. rewrite (AD _ _ _ BG e). split; (intros [Q|Q]; [now left|right]).
  - destruct Q as [Q|[(l & D & L & Q)|[(i & a & D & A & Q)|(k & i & a & I & A & Q)]]].
    + subst. constructor.
    + subst. now constructor.
    + assert (PI : part y i) by (right; exists i; split; [easy|constructor]).
      destruct Q as [Q|[(U & Q)|([k j] & b & J & B & Q)]]; [subst; eapply ge_der; eauto|subst; eapply ge_der_space; eauto|]. cbn [snd] in *.
      assert (DJ : depends w i j) by (exists a, k; auto). destruct Q as [Q|Q]; [subst; eapply ge_sec; eauto|].
      destruct (tree_part i e j PI DJ Q) as (p & a' & c & b' & P & R & D2 & A' & B' & Q2).
      destruct Q2 as [Q2|(O & Q2)]; subst; [eapply ge_sec; eauto|eapply ge_der_obs; eauto].
    + assert (PI : part y i) by (left; exists k, i; split; [easy|constructor]).
      destruct Q as [(O & [Q|(U & Q)])|([k2 j] & b & J & B & Q)].
      * subst. eapply ge_obs; [eauto| |eauto|eauto]. constructor.
      * subst. eapply ge_top_space; eauto.
      * cbn [snd] in *. assert (DJ : depends w i j) by (exists a, k2; auto).
        destruct Q as [Q|[(U & Q)|[(O & Q)|Q]]].
        -- subst. eapply ge_sec; eauto.
        -- subst. eapply ge_sec_space; eauto.
        -- subst. eapply ge_obs; [eauto| |eauto|eauto]. eapply reaches_step; [eauto|constructor].
        -- destruct (tree_part i e j PI DJ Q) as (p & a' & c & b' & P & R & D2 & A' & B' & Q2).
           destruct Q2 as [Q2|(O & Q2)]; subst; [eapply ge_sec; eauto|].
           eapply ge_obs; [eauto| |eauto|eauto]. eapply reaches_step; [eauto|]. eapply reaches_trans; [eauto|]. eapply reaches_step; [eauto|constructor].
  - destruct Q as [|l D L|i a D A|i a D A U|p a c b P D A B|k i c b I R B O|i j p c b D DJ R DC B O|k i a I A O U|k i c b I D B U].
    + auto.
    + right. left. eauto.
    + right. right. left. exists i, a. split; [easy|]. split; [easy|]. now left.
    + right. right. left. exists i, a. split; [easy|]. split; [easy|]. right. left. auto.
    + (* a secondary *)
      assert (X : forall i ai, at_ w i ai -> reaches w i p ->
        exists k2 j bj, In (k2, j) (a_sec (a_ln ai)) /\ at_ w j bj /\ ((name_of b, name_of a) = (name_of bj, name_of ai) \/ tree_edge w j (name_of b, name_of a))).
      { intros i ai AI R. inversion R as [|? m ? DM R']; subst.
        - assert (ai = a) by (eapply at_fun; eauto). subst. destruct D as (a' & k2 & A' & I). assert (a' = a) by (eapply at_fun; eauto). subst.
          exists k2, c, b. auto.
        - destruct DM as (a' & k2 & A' & I). assert (a' = ai) by (eapply at_fun; eauto). subst.
          destruct (K _ _ _ _ AI I) as (bj & BJ & _). exists k2, m, bj. split; [easy|]. split; [easy|]. right. exists p, a, c, b. auto 8. }
      destruct P as [(k & i & I & R)|(i & DE & R)].
      * destruct (N k i I) as (ai & AI & _). destruct (X i ai AI R) as (k2 & j & bj & J & BJ & Q). right. right. right. exists k, i, ai.
        split; [easy|]. split; [easy|]. right. exists (k2, j), bj. cbn [snd]. split; [easy|]. split; [easy|]. tauto.
      * assert (exists ai, at_ w i ai) as (ai & AI). { inversion R as [|? m ? (ai & ? & AI & _) R']; subst; eauto. }
        destruct (X i ai AI R) as (k2 & j & bj & J & BJ & Q). right. right. left. exists i, ai.
        split; [easy|]. split; [easy|]. right. right. exists (k2, j), bj. auto.
    + destruct (N k i I) as (a & A & _). right. right. right. exists k, i, a. split; [easy|]. split; [easy|].
      inversion R as [|? m ? DM R']; subst.
      * assert (b = a) by (eapply at_fun; eauto). subst. left. auto.
      * destruct DM as (a' & k2 & A' & J). assert (a' = a) by (eapply at_fun; eauto). subst. destruct (K _ _ _ _ A J) as (bm & BM & _). right.
        exists (k2, m), bm. cbn [snd]. split; [easy|]. split; [easy|].
        assert (Z : m = c \/ exists p, reaches w m p /\ depends w p c).
        { clear - R'. induction R' as [x|x y0 z D R IH]; [now left|]. right. destruct IH as [->|(p & R2 & D2)]; [exists x; split; [constructor|easy]|].
          exists p. split; [eapply reaches_step; eauto|easy]. }
        destruct Z as [->|(p & R2 & D2)].
        -- assert (b = bm) by (eapply at_fun; eauto). subst. auto.
        -- right. right. right. assert (exists ap, at_ w p ap) as (ap & AP) by (destruct D2 as (ap & ? & AP & _); eauto). exists p, ap, c, b. auto 8.
    + assert (exists a, at_ w i a) as (a & A) by (destruct DJ as (a & ? & A & _); eauto). right. right. left. exists i, a. split; [easy|]. split; [easy|].
      destruct DJ as (a' & k2 & A' & J). assert (a' = a) by (eapply at_fun; eauto). subst. destruct (K _ _ _ _ A J) as (bj & BJ & _).
      right. right. exists (k2, j), bj. cbn [snd]. split; [easy|]. split; [easy|]. right.
      assert (exists ap, at_ w p ap) as (ap & AP) by (destruct DC as (ap & ? & AP & _); eauto). exists p, ap, c, b. auto 8.
    + right. right. right. exists k, i, a. split; [easy|]. split; [easy|]. left. auto.
    + right. right. right. destruct D as (a & k2 & A & J). exists k, i, a. split; [easy|]. split; [easy|]. right. exists (k2, c), b. auto 8.
Qed.

(** *** When reading the graph succeeds *)
Definition tot (m : GM unit) : Prop := forall g, exists g', m g = (Ok tt, g').
Lemma tot_ret : tot (ret tt). Proof. intros g. now exists g. Qed.
Lemma tot_node k o : tot (gnode k o). Proof. intros g. eexists. reflexivity. Qed.
Lemma tot_edge u v : tot (gedge u v). Proof. intros g. eexists. reflexivity. Qed.
Lemma tot_seq m k : tot m -> tot k -> tot (m ;; k).
Proof. intros HM HK g. destruct (HM g) as (g1 & H1). destruct (HK g1) as (g2 & H2). exists g2. now rewrite (bind_ok _ _ _ H1). Qed.
Lemma tot_if (b : bool) m : tot m -> tot (if b then m else ret tt).
Proof. intros H. destruct b; [easy|apply tot_ret]. Qed.
Lemma tot_iter {A} (f : A -> GM unit) l : (forall x, In x l -> tot (f x)) -> tot (iterM f l).
Proof.
  induction l as [|x l IH]; intros H; cbn [iterM]; [apply tot_ret|]. apply tot_seq; [apply H; now left|]. apply IH. intros z I. apply H. now right.
Qed.
Lemma tot_gaux i a (k : sampler E -> GM unit) : at_ w i a -> tot (k a) -> tot (let! x := gaux (w_auxs w) i in k x).
Proof. intros A H g. rewrite (gaux_bind w i a k g A). apply H. Qed.

Lemma iterM_each {A} (f : A -> GM unit) l : forall g u g', iterM f l g = (Ok u, g') ->
  forall x, In x l -> exists g1 u1 g2, f x g1 = (Ok u1, g2).
Proof.
  induction l as [|z l IH]; intros g u g' H x I; [easy|]. cbn [iterM] in H. apply bind_inv_ok in H. destruct H as (u1 & g1 & H1 & H2).
  destruct I as [<-|I]; [eauto|]. eapply IH; eauto.
Qed.

Lemma part_step p c : part y p -> depends w p c -> part y c.
Proof.
  intros [(k & i & I & R)|(i & I & R)] D; [left; exists k, i|right; exists i]; (split; [easy|]); eapply reaches_trans; eauto;
  (eapply reaches_step; [eauto|constructor]).
Qed.
Lemma part_reaches p c : part y p -> reaches w p c -> part y c.
Proof. intros P R. induction R as [x|x z t D R IH]; [easy|]. apply IH. eapply part_step; eauto. Qed.

Lemma shallow_near i j : shallow y -> part y i -> depends w i j -> no_far_distance E w j.
Proof.
  intros SH P D p c b R DC B. assert (exists q, part y q /\ depends w q p) as (q & Q1 & Q2).
  { clear - P D R. revert i P D. induction R as [x|x z t DX R IH]; intros i P D; [eauto|]. apply (IH x); [|easy]. eapply part_step; eauto. }
  eapply SH; eauto.
Qed.

Lemma tot_props (r : nat -> nat) i j a : (forall i j, depends w i j -> r j < r i) -> closed w -> r j < rl -> shallow y -> part y i -> depends w i j -> at_ w j a ->
  tot (gprops rl (w_auxs w) j (name_of a)).
Proof.
  intros R C L SH P D A g. unfold gprops. destruct (props_total E rl w j (name_of a) (Some g) a r R C A L) as [(s & G & H & _ & H2)|(_ & _ & NF)].
  - rewrite H. destruct G as [g'|]; [|now destruct H2]. eexists. reflexivity.
  - destruct NF. eapply shallow_near; eauto.
Qed.

Theorem graph_succeeds (r : nat -> nat) : (forall i j, depends w i j -> r j < r i) -> (forall i, r i < rl) -> closed w ->
  (forall k i a, In (k, i) (y_aux y) -> at_ w i a -> a_issec (a_ln a) = false) ->
  (forall i, y_der y = Some i -> exists a, at_ w i a) ->
  has_source y -> shallow y -> exists g y', read_graph rl y = (Ok g, y').
Proof.
  intros R L C NS DX HS SH.
  assert (T : tot (build_graph rl (w_auxs w) spn (option_map (fun l => ld_name l) (y_lum y)) (y_der y) (y_aux y))).
  { unfold build_graph. apply tot_seq; [apply tot_node|]. apply tot_seq; [apply tot_edge|]. apply tot_seq.
    - destruct (y_der y) as [i|] eqn:DE.
      + destruct (DX i eq_refl) as (a & A). assert (P : part y i) by (right; exists i; split; [easy|constructor]).
        unfold graph_derived. apply (tot_gaux i a); [easy|]. apply tot_seq; [apply tot_node|]. apply tot_seq; [apply tot_edge|].
        apply tot_seq; [apply tot_if, tot_edge|]. apply tot_iter. intros [k j] I. cbn [fst snd]. apply tot_seq; [apply tot_node|]. apply tot_seq; [apply tot_edge|].
        destruct (K _ _ _ _ A I) as (b & B & <-). eapply tot_props; eauto. exists a, (name_of b). auto.
      + destruct HS as [HS|HS]; [now destruct HS|]. destruct (y_lum y); [|now destruct HS]. apply tot_edge.
    - apply tot_iter. intros [k i] I. destruct (N k i I) as (a & A & NA). assert (P : part y i) by (left; exists k, i; split; [easy|constructor]).
      unfold graph_aux. cbn [fst snd]. apply (tot_gaux i a); [easy|]. apply tot_seq.
      { intros g. exists g. unfold lift, rassert. now rewrite (NS _ _ _ I A). }
      apply tot_seq; [apply tot_node|]. apply tot_seq; [apply tot_if; apply tot_seq; [apply tot_node|]; apply tot_seq; [apply tot_edge|]; apply tot_if, tot_edge|].
      apply tot_iter. intros [k2 j] J. cbn [fst snd]. destruct (K _ _ _ _ A J) as (b & B & NB). apply (tot_gaux j b); [easy|].
      apply tot_seq; [apply tot_edge|]. apply tot_seq; [apply tot_node|]. apply tot_seq; [apply tot_if, tot_edge|].
      apply tot_seq; [apply tot_if; apply tot_seq; [apply tot_node|apply tot_edge]|]. rewrite <- NB. eapply tot_props; eauto. exists a, k2. auto. }
  destruct (T (y_graph y)) as (g & H). unfold read_graph. rewrite H. eexists. eexists. reflexivity.
Qed.

Lemma props_near i j k g u g' : depends w i j -> at_ w j k -> gprops rl (w_auxs w) j (name_of k) g = (Ok u, g') -> no_far_distance E w j.
Proof.
  intros D A H. unfold gprops in H. destruct (sec_props rl (w_auxs w) j (name_of k) (Some g)) as [q G] eqn:SP.
  destruct q as [s|x]; [|destruct G; discriminate]. now destruct (props_edges _ _ _ _ _ _ _ _ K A SP) as (g1 & -> & HE & Q).
Qed.

Theorem graph_needs g y' : read_graph rl y = (Ok g, y') -> has_source y /\ shallow y /\
  (forall k i a, In (k, i) (y_aux y) -> at_ w i a -> a_issec (a_ln a) = false).
Proof.
  intros H. unfold read_graph in H.
  destruct (build_graph rl (w_auxs w) spn (option_map (fun l => ld_name l) (y_lum y)) (y_der y) (y_aux y) (y_graph y)) as [r g1] eqn:BG.
  destruct r as [u|x]; [|discriminate]. clear H. unfold build_graph in BG.
  apply bind_inv_ok in BG. destruct BG as (u1 & h1 & _ & BG). apply bind_inv_ok in BG. destruct BG as (u2 & h2 & _ & BG).
  apply bind_inv_ok in BG. destruct BG as (u3 & h3 & B1 & B2).
  assert (X1 : has_source y /\ forall i j, y_der y = Some i -> depends w i j -> no_far_distance E w j).
  { destruct (y_der y) as [i|] eqn:DE.
    - split; [left; congruence|]. intros i0 j EQ D. injection EQ as <-. apply gaux_inv in B1. destruct B1 as (a & A & B1).
      apply bind_inv_ok in B1. destruct B1 as (? & ? & _ & B1). apply bind_inv_ok in B1. destruct B1 as (? & ? & _ & B1).
      apply bind_inv_ok in B1. destruct B1 as (? & ? & _ & B1). assert (D' := D). destruct D as (a' & k & A' & I).
      assert (a' = a) by (eapply at_fun; eauto). subst. destruct (iterM_each _ _ _ _ _ B1 _ I) as (ga & ua & gb & F). cbn [fst snd] in F.
      apply bind_inv_ok in F. destruct F as (? & ? & _ & F). apply bind_inv_ok in F. destruct F as (? & ? & _ & F).
      destruct (K _ _ _ _ A I) as (b & B & <-). eapply props_near; eauto.
    - destruct (y_lum y) eqn:YL; [|discriminate]. split; [right; congruence|]. discriminate. }
  assert (X2 : forall k i a, In (k, i) (y_aux y) -> at_ w i a -> a_issec (a_ln a) = false /\ forall j, depends w i j -> no_far_distance E w j).
  { intros k i a I A. destruct (iterM_each _ _ _ _ _ B2 _ I) as (ga & ua & gb & F). unfold graph_aux in F. cbn [fst snd] in F.
    apply gaux_inv in F. destruct F as (a' & A' & F). assert (a' = a) by (eapply at_fun; eauto). subst a'.
    apply bind_inv_ok in F. destruct F as (? & ? & F0 & F). split.
    { unfold lift, rassert in F0. now destruct (a_issec (a_ln a)). }
    intros j D. assert (D' := D). destruct D as (a' & k2 & A2 & J). assert (a' = a) by (eapply at_fun; eauto). subst a'.
    apply bind_inv_ok in F. destruct F as (? & ? & _ & F). apply bind_inv_ok in F. destruct F as (? & ? & _ & F).
    destruct (iterM_each _ _ _ _ _ F _ J) as (gc & uc & gd & Q). cbn [fst snd] in Q.
    apply gaux_inv in Q. destruct Q as (b' & B' & Q).
    apply bind_inv_ok in Q. destruct Q as (? & ? & _ & Q). apply bind_inv_ok in Q. destruct Q as (? & ? & _ & Q).
    apply bind_inv_ok in Q. destruct Q as (? & ? & _ & Q). apply bind_inv_ok in Q. destruct Q as (? & ? & _ & Q).
    destruct (K _ _ _ _ A J) as (b & B & NB). rewrite <- NB in Q. eapply props_near; eauto. }
  destruct X1 as [HS X1]. split; [easy|]. split; [|intros k i a I A; now apply (X2 k i a)].
  intros p c d b P DC DD B.
  assert (Y : forall i, (forall j, depends w i j -> no_far_distance E w j) -> reaches w i p -> a_usesd (a_st b) = false).
  { intros i NF R. inversion R as [|? m ? DM R']; subst.
    - apply (NF c DC c d b); auto. constructor.
    - apply (NF m DM c d b); auto. eapply reaches_trans; eauto. eapply reaches_step; [eauto|constructor]. }
  destruct P as [(k & i & I & R)|(i & DE & R)].
  - destruct (N k i I) as (a & A & _). apply (Y i); [|easy]. apply (X2 k i a); easy.
  - apply (Y i); [|easy]. intros j. now apply X1.
Qed.
End Graph.
End P.
