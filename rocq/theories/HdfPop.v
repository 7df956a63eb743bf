(** Proofs about graphs and populations in HDF5 files. *)
From Coq Require Import Ascii Permutation Sorted Lia.
From Verif Require Import Base BaseFacts Env ParamModel SelModel SimVarModel DistModel AuxModel AuxProps Tree PopModel PopSpec
  PopProofs HdfModel HdfSpec HdfProofs.
Open Scope string_scope.

(** ** Graphs *)
Lemma add_node_keys k g x : In x (dkeys (gr_nodes (add_node k None g))) <-> In x (dkeys (gr_nodes g)) \/ x = k.
Proof.
  unfold add_node. destruct (dget (gr_nodes g) k) eqn:D.
  - split; [auto|]. intros [H| ->]; [exact H|]. apply dget_Some_In_keys. eauto.
  - cbn [gr_nodes]. rewrite In_dkeys_dset. tauto.
Qed.
Definition bare (g : graph) : Prop := forall k b, In (k, b) (gr_nodes g) -> b = None.
Lemma add_node_bare k g : bare g -> bare (add_node k None g).
Proof.
  unfold add_node, bare. intros H x b. destruct (dget (gr_nodes g) k) eqn:D; [apply H|]. cbn [gr_nodes].
  rewrite dset_fresh by assumption. intros I. apply in_app_or in I as [I|[I|[]]]; [eauto|congruence].
Qed.
Lemma add_edge_keys u v g x : In x (dkeys (gr_nodes (add_edge u v g))) <-> In x (dkeys (gr_nodes g)) \/ x = u \/ x = v.
Proof. unfold add_edge. cbn [gr_nodes]. rewrite !add_node_keys. tauto. Qed.
Lemma add_edge_bare u v g : bare g -> bare (add_edge u v g).
Proof. intros H. unfold add_edge, bare. cbn [gr_nodes]. apply add_node_bare, add_node_bare, H. Qed.

Lemma undirected_spec {V} (d : dict (tree V)) :
  (forall k, In k (dkeys (gr_nodes (undirected d))) <->
     In k (dkeys d) \/ exists u t, In (u, t) d /\ In k (dkeys (entries t))) /\
  bare (undirected d) /\
  (forall u v, In (u, v) (gr_edges (undirected d)) <->
     (exists t, In (u, t) d /\ In v (dkeys (entries t))) \/ (exists t, In (v, t) d /\ In u (dkeys (entries t)))).
Proof.
  unfold undirected.
  set (es := flat_map (fun kt => map (fun e => (fst kt, fst e)) (entries (snd kt))) d).
  set (g0 := fold_left (fun g k => add_node k None g) (dkeys d) g_empty).
  assert (ES : forall u v, In (u, v) es <-> exists t, In (u, t) d /\ In v (dkeys (entries t))).
  { intros u v. unfold es. rewrite in_flat_map. split.
    - intros ([k t] & I & M). apply in_map_iff in M as ([x y] & Q & M). cbn in *. injection Q as -> ->.
      exists t. split; [exact I|]. now apply (in_map fst) in M.
    - intros (t & I & M). exists (u, t). split; [exact I|]. cbn. unfold dkeys in M. apply in_map_iff in M as (x & <- & M).
      apply in_map_iff. eauto. }
  assert (G0 : (forall k, In k (dkeys (gr_nodes g0)) <-> In k (dkeys d)) /\ bare g0 /\ gr_edges g0 = nil).
  { assert (X : forall l g, bare g -> gr_edges g = nil ->
      (forall k, In k (dkeys (gr_nodes (fold_left (fun g k => add_node k None g) l g))) <-> In k (dkeys (gr_nodes g)) \/ In k l) /\
      bare (fold_left (fun g k => add_node k None g) l g) /\ gr_edges (fold_left (fun g k => add_node k None g) l g) = nil).
    { induction l as [|x l IH]; intros g B N; cbn [fold_left]; [repeat split; auto; cbn; tauto|].
      destruct (IH (add_node x None g) (add_node_bare x g B)) as (P & Q & R); [now rewrite add_node_edges|].
      split; [|auto]. intros k. rewrite P, add_node_keys. cbn. intuition congruence. }
    destruct (X (dkeys d) g_empty) as (P & Q & R); [intros ? ? []|reflexivity|].
    split; [|auto]. intros k. unfold g0. rewrite (P k). cbn. tauto. }
  destruct G0 as (N0 & B0 & E0).
  assert (X : forall l g, bare g ->
    let g' := fold_left (fun g e => add_edge (snd e) (fst e) (add_edge (fst e) (snd e) g)) l g in
    (forall k, In k (dkeys (gr_nodes g')) <-> In k (dkeys (gr_nodes g)) \/ exists u v, In (u, v) l /\ (k = u \/ k = v)) /\
    bare g' /\ (forall u v, In (u, v) (gr_edges g') <-> In (u, v) (gr_edges g) \/ In (u, v) l \/ In (v, u) l)).
  { induction l as [|[a b] l IH]; intros g B; cbn [fold_left fst snd].
    - cbv zeta. split; [|split; [exact B|]]; intros; cbn; [|tauto]. split; [auto|]. intros [H|(u & v & [] & _)]; exact H.
    - destruct (IH (add_edge b a (add_edge a b g)) (add_edge_bare _ _ _ (add_edge_bare _ _ _ B))) as (P & Q & R).
      cbv zeta in *. split; [|split; [exact Q|]].
      + intros k. rewrite P, !add_edge_keys. split.
        * intros [[[H|[->| ->]]|[->| ->]]|(u & v & I & H)]; [auto|right..]; (exists a, b; cbn; tauto) || (exists u, v; cbn; tauto).
        * intros [H|(u & v & [I|I] & H)]; [auto| |right; eauto]. injection I as -> ->. intuition.
      + intros u v. rewrite R, !add_edge_edges. cbn. split.
        * intros [[[H|H]|H]|H]; [auto|injection H as -> ->; auto|injection H as -> ->; auto|tauto].
        * intros [H|[[H|H]|[H|H]]]; auto; injection H as -> ->; auto. }
  destruct (X es g0 B0) as (P & Q & R). cbv zeta in *. split; [|split; [exact Q|]].
  - intros k. rewrite P, N0. split.
    + intros [H|(u & v & I & [->| ->])]; [auto| |]; apply ES in I as (t & I & J).
      * left. unfold dkeys. now apply (in_map fst) in I.
      * right. eauto.
    + intros [H|(u & t & I & J)]; [auto|]. right. exists u, k. split; [apply ES; eauto|auto].
  - intros u v. rewrite R, E0, !ES. cbn. tauto.
Qed.

Section Adj.
Variable V : Type.
Notation tree := (tree V).
Variable utf8 : string -> bool.

Definition outs (g : graph) (n : string) : list string := map snd (filter (fun e => String.eqb (fst e) n) (gr_edges g)).
Lemma In_outs g n v : In v (outs g n) <-> In (n, v) (gr_edges g).
Proof.
  unfold outs. rewrite in_map_iff. split.
  - intros ([a b] & <- & I). apply filter_In in I as (I & Q). apply String.eqb_eq in Q. cbn in *. now subst.
  - intros I. exists (n, v). split; [reflexivity|]. apply filter_In. split; [exact I|apply String.eqb_refl].
Qed.
Lemma NoDup_outs g n : NoDup (gr_edges g) -> NoDup (outs g n).
Proof.
  unfold outs. intros N. induction (gr_edges g) as [|[a b] l IH]; cbn; [constructor|]. inversion_clear N as [|? ? NI N'].
  destruct (String.eqb_spec a n) as [->|]; [|now apply IH]. cbn. constructor; [|now apply IH].
  intros I. apply in_map_iff in I as ([x y] & Q & I). apply filter_In in I as (I & X). apply String.eqb_eq in X. cbn in *. subst. contradiction.
Qed.
Lemma adjacency_eq g : adjacency V g = map (fun n => (n, TDict (map (fun v => (v, TDict nil)) (outs g n)))) (dkeys (gr_nodes g)).
Proof. unfold adjacency, outs. apply map_ext. intros n. f_equal. f_equal. now rewrite map_map. Qed.
Lemma adjacency_dicts g : all_dicts (TDict (adjacency V g)).
Proof.
  rewrite adjacency_eq. cbn. induction (dkeys (gr_nodes g)) as [|n l IH]; cbn; [exact I|]. split; [|exact IH].
  induction (outs g n) as [|v q IHq]; cbn; auto.
Qed.

Definition filled (g : graph) : dict tree :=
  map (fun n => (n, match outs g n with nil => TInt 1 | l => TDict (map (fun v => (v, TInt 1)) l) end)) (dkeys (gr_nodes g)).
Lemma rmapM_map A B C (f : B -> res C) (h : A -> B) (k : A -> C) l : (forall x, f (h x) = Ok (k x)) -> rmapM f (map h l) = Ok (map k l).
Proof. intros H. induction l as [|x l IH]; cbn; [reflexivity|]. now rewrite H, IH. Qed.
Lemma fill_adjacency g : fill_graph (TInt 1) (adjacency V g) = Ok (filled g).
Proof.
  rewrite adjacency_eq. unfold fill_graph, filled. apply rmapM_map. intros n. cbn [fst snd].
  destruct (outs g n) as [|v l]; [reflexivity|]. cbn [map].
  rewrite fill1_links. unfold fill_entry.
  change ((v, TDict nil) :: map (fun v0 => (v0, TDict nil)) l) with (map (fun v0 : string => (v0, @TDict V nil)) (v :: l)).
  rewrite (rmapM_map _ _ _ _ _ (fun v0 => (v0, TInt 1))) by reflexivity. reflexivity.
Qed.
Lemma filled_storable g : sound_graph g -> (forall k, In k (dkeys (gr_nodes g)) -> plain_name k) -> storable (TDict (filled g)).
Proof.
  intros S P. apply storable_dict. unfold filled, dkeys at 1. rewrite map_map. cbn [fst]. rewrite map_id.
  split; [apply (sg_nodes S)|]. intros k t I. apply in_map_iff in I as (n & Q & I). injection Q as -> <-.
  split; [auto|]. destruct (outs g k) as [|v0 l] eqn:O; [unfold storable, fits64; lia|].
  change (storable (TDict (map (fun v => (v, @TInt V 1)) (v0 :: l)))). rewrite <- O.
  apply storable_dict. unfold dkeys. rewrite map_map. cbn. rewrite map_id.
  split; [apply NoDup_outs, (sg_edges S)|]. intros v t J. apply in_map_iff in J as (w & Q & J). injection Q as -> <-.
  split; [|cbn; unfold fits64; lia]. apply In_outs in J. apply P. now apply (sg_ends S) in J.
Qed.

Lemma Forall2_In_l A B (R : A -> B -> Prop) l r x : Forall2 R l r -> In x l -> exists y, In y r /\ R x y.
Proof. intros F. induction F as [|a b l r X F IH]; intros I; [destruct I|]. destruct I as [->|I]; [exists b; split; [now left|exact X]|]. destruct (IH I) as (y & J & Q). exists y. split; [now right|exact Q]. Qed.
Lemma Forall2_In_r A B (R : A -> B -> Prop) l r y : Forall2 R l r -> In y r -> exists x, In x l /\ R x y.
Proof. intros F. induction F as [|a b l r X F IH]; intros I; [destruct I|]. destruct I as [->|I]; [exists a; split; [now left|exact X]|]. destruct (IH I) as (x & J & Q). exists x. split; [now right|exact Q]. Qed.

Lemma back_keys (d d' : dict tree) : comes_back utf8 (TDict d) (TDict d') -> forall k, In k (dkeys d') <-> In k (dkeys d).
Proof.
  intros CB k. inversion CB as [| | | | | | | |? d1 ? F P O]; subst. unfold dkeys. rewrite <- (Permutation_map fst P), !in_map_iff.
  split; intros ([a b] & <- & I).
  - destruct (Forall2_In_r _ _ _ _ _ _ F I) as ([x y] & J & Q & _). cbn in *. exists (x, y). auto.
  - destruct (Forall2_In_l _ _ _ _ _ _ F I) as ([x y] & J & Q & _). cbn in *. exists (x, y). auto.
Qed.
Lemma back_entry (d d' : dict tree) k t' : comes_back utf8 (TDict d) (TDict d') -> In (k, t') d' -> exists t, In (k, t) d /\ comes_back utf8 t t'.
Proof.
  intros CB I. inversion CB as [| | | | | | | |? d1 ? F P O]; subst.
  apply (Permutation_in _ (Permutation_sym P)) in I. destruct (Forall2_In_r _ _ _ _ _ _ F I) as ([x y] & J & Q & R). cbn in *. subst. eauto.
Qed.

Lemma graph_back g d' : sound_graph g -> comes_back utf8 (TDict (filled g)) (TDict d') ->
  forgets_direction g (undirected (clean_graph d')).
Proof.
  intros S CB. destruct (undirected_spec (clean_graph d')) as (N & B & ED).
  assert (K : forall k, In k (dkeys (clean_graph d')) <-> In k (dkeys (gr_nodes g))).
  { intros k. unfold clean_graph, dkeys at 1. rewrite map_map. cbn. change (In k (dkeys d') <-> In k (dkeys (gr_nodes g))).
    rewrite (back_keys _ _ CB). unfold filled, dkeys at 1. rewrite map_map. cbn. now rewrite map_id. }
  assert (OUT : forall u v, (exists t, In (u, t) (clean_graph d') /\ In v (dkeys (entries t))) <-> In (u, v) (gr_edges g)).
  { intros u v.
    assert (H : forall t', In (u, t') d' -> (In v (dkeys (entries (clean1 t'))) <-> In (u, v) (gr_edges g))).
    { intros t' I. destruct (back_entry _ _ _ _ CB I) as (t & J & C). unfold filled in J.
      apply in_map_iff in J as (n & Q & J). injection Q as -> <-. rewrite <- In_outs.
      destruct (outs g u) as [|v0 l]; [inversion C; subst; cbn; tauto|].
      inversion C as [| | | | | | | |? d1 e F P O]; subst. cbn [clean1 entries].
      unfold dkeys at 1. rewrite map_map. cbn [fst]. change (In v (dkeys e) <-> In v (v0 :: l)). rewrite (back_keys _ _ C v).
      change (In v (dkeys (map (fun w => (w, @TInt V 1)) (v0 :: l))) <-> In v (v0 :: l)).
      unfold dkeys. rewrite map_map. cbn [fst]. rewrite map_id. reflexivity. }
    split.
    - intros (t & I & J). unfold clean_graph in I. apply in_map_iff in I as ([k t'] & Q & I). cbn in Q. injection Q as -> <-. now apply (H t').
    - intros I. assert (KU : In u (dkeys d')).
      { apply (back_keys _ _ CB). unfold filled, dkeys. rewrite map_map. cbn. rewrite map_id. now apply (sg_ends S) in I. }
      unfold dkeys in KU. apply in_map_iff in KU as ([k t'] & Q & J). cbn in Q. subst k.
      exists (clean1 t'). split; [unfold clean_graph; apply in_map_iff; exists (u, t'); auto|]. now apply H. }
  split.
  - intros k. rewrite N, K. split; [|auto]. intros [H|(u & t & I & J)]; [exact H|].
    assert (X : In (u, k) (gr_edges g)) by (apply OUT; eauto). now apply (sg_ends S) in X.
  - exact B.
  - intros u v. rewrite ED, !OUT. reflexivity.
Qed.
End Adj.

(** ** Populations *)
Definition plainb (k : string) : bool :=
  negb (String.eqb k "") && negb (String.eqb k ".") && negb (existsb (Ascii.eqb "/") (list_ascii_of_string k)) && negb (has_nul k).
Lemma plainb_ok k : plainb k = true -> plain_name k.
Proof.
  unfold plainb. rewrite !andb_true_iff, !negb_true_iff. intros (((A & B) & C) & D).
  split; [now apply String.eqb_neq|]. split; [now apply String.eqb_neq|]. split; [|now apply nul_iff].
  intros I. assert (existsb (Ascii.eqb "/") (list_ascii_of_string k) = true); [|congruence].
  apply existsb_exists. exists "/"%char. auto.
Qed.
Fixpoint nodupb (l : list string) : bool := match l with nil => true | x :: r => negb (mem x r) && nodupb r end.
Lemma nodupb_ok l : nodupb l = true -> NoDup l.
Proof.
  induction l as [|x l IH]; cbn; intros H; [constructor|]. apply andb_true_iff in H as (A & B). constructor; [|auto].
  intros I. rewrite negb_true_iff in A. unfold mem in A. assert (existsb (String.eqb x) l = true); [|congruence].
  apply existsb_exists. exists x. split; [exact I|apply String.eqb_refl].
Qed.

Section PopFile.
Variable E : env.
Notation V := (V E).
Notation h5 := (h5 V).
Variable utf8 : string -> bool.
Notation GM := (GM E).

(** The group with attributes [A] and the links [D], in the order they were made. *)
Definition st (A : dict (hval V)) (D : list (string * h5)) : grp E := (A, grow nil D).

Lemma dget_grow (D : list (string * h5)) k : nodupb (dkeys D) = true -> dget (grow nil D) k = dget D k.
Proof.
  intros N. apply nodupb_ok in N. assert (P := grow_perm D nil). cbn [app] in P.
  assert (N' : NoDup (dkeys (grow nil D))).
  { unfold dkeys. eapply Permutation_NoDup; [exact (Permutation_map fst P)|exact N]. }
  destruct (dget D k) as [n|] eqn:Q.
  - apply dget_In in Q. apply (Permutation_in _ P) in Q. now apply In_dget.
  - apply dget_None in Q. apply dget_None. intros I. apply Q. unfold dkeys in *.
    eapply Permutation_in; [exact (Permutation_map fst (Permutation_sym P))|exact I].
Qed.
Lemma upd_grow (D : list (string * h5)) k n : nodupb (dkeys D) = true -> dget D k = None ->
  h5_upd nil (addl k n) (grow nil D) = Ok (grow nil (D ++ [(k, n)])).
Proof.
  intros N H. cbn. unfold addl. rewrite dget_grow, H by assumption. unfold grow. now rewrite fold_left_app.
Qed.
Lemma link_ok A D k n : nodupb (dkeys D) = true -> plainb k = true -> dget D k = None ->
  on_links (E := E) (hlink k n) (st A D) = (Ok tt, st A (D ++ [(k, n)])%list).
Proof.
  intros N P H. apply plainb_ok in P. unfold on_links, st. cbn [fst snd].
  rewrite (hlink_eq k nil k) by (try apply nul_plain; try apply comps_plain; assumption). rewrite upd_grow by assumption. reflexivity.
Qed.
Lemma ds_ok A D k v : nodupb (dkeys D) = true -> plainb k = true -> dget D k = None ->
  dataset (E := E) k v (st A D) = (Ok tt, st A (D ++ [(k, HData v)])%list).
Proof. intros. now apply link_ok. Qed.
Lemma cg_ok A D k : nodupb (dkeys D) = true -> plainb k = true -> dget D k = None ->
  create_group (E := E) k (st A D) = (Ok tt, st A (D ++ [(k, HGroup nil nil)])%list).
Proof. intros. now apply link_ok. Qed.
Lemma iter_ok B A D k (act : B -> GM unit) (act' : B -> M (dict h5) unit) key (nd : B -> h5) l :
  (forall x g, In x l -> act x (A, g) = on_links (E := E) (act' x) (A, g)) ->
  (forall x f f', In x l -> h5_upd [k] (addl (key x) (nd x)) f = Ok f' -> act' x f = (Ok tt, f')) ->
  NoDup (map key l) -> nodupb (dkeys D) = true -> dget D k = None ->
  iterM act l (st A (D ++ [(k, HGroup nil nil)])%list) =
  (Ok tt, st A (D ++ [(k, HGroup nil (grow nil (map (fun x => (key x, nd x)) l)))])%list).
Proof.
  intros HA HN ND N H.
  destruct (adds_go B act' key nd nil k (grow nil D) l HN nil _ (upd_grow D k (HGroup nil nil) N H) ND) as (F' & U & R).
  { reflexivity. }
  rewrite upd_grow in U by assumption. injection U as U. subst F'.
  assert (X : forall f r f', iterM act' l f = (r, f') -> iterM act l (A, f) = (r, (A, f'))).
  { clear - HA. induction l as [|x l IH]; intros f r f' R; cbn [iterM] in *; [injection R as <- <-; reflexivity|].
    unfold bind in *. rewrite HA by (now left). unfold on_links. cbn [fst snd]. destruct (act' x f) as [[[]|] f1].
    - apply IH; [intros; apply HA; now right|exact R].
    - injection R as <- <-. reflexivity. }
  unfold st. now apply X.
Qed.

Definition pnode (kv : string * option V) : h5 := match snd kv with Some v => HData (HArr [v]) | None => HData (HStr "") end.
Definition pgroup (d : dict (option V)) : h5 := HGroup nil (grow nil (map (fun kv => (fst kv, pnode kv)) d)).
Lemma sub_name k s : plainb k = true -> plain_name s -> comps (k ++ "/" ++ s) = ([k] ++ [s])%list /\ has_nul (k ++ "/" ++ s) = false.
Proof.
  intros P S. apply plainb_ok in P. rewrite comps_item by assumption. rewrite comps_plain by assumption.
  split; [reflexivity|]. rewrite !nul_app, (nul_plain k P), (nul_plain s S). reflexivity.
Qed.
Lemma params_ok A D k d : nodupb (dkeys D) = true -> plainb k = true -> dget D k = None ->
  plain_names d -> (forall x, ~ In (x, None) d) ->
  write_params (E := E) k d (st A D) = (Ok tt, st A (D ++ [(k, pgroup d)])%list).
Proof.
  intros N P H (ND & PL) NN. unfold write_params. rewrite (bind_ok _ _ _ (cg_ok A D k N P H)).
  apply (iter_ok _ A D k _ (fun kv => let! v := lift (of_opt TypeError (snd kv)) in hset (k ++ "/" ++ fst kv) (HArr [v])) fst pnode d); auto.
  - intros [x [v|]] g I; [reflexivity|]. now destruct (NN x).
  - intros [x [v|]] f f' I U; [|now destruct (NN x)]. unfold pnode in U. cbn [fst snd] in *. cbn [of_opt]. unfold bind, lift, hset.
    destruct (sub_name k x P) as (C & Z); [apply PL; unfold dkeys; now apply (in_map fst) in I|].
    rewrite (hlink_eq _ _ _ _ _ C Z), U. reflexivity.
Qed.
Definition sgroup (d : dict (list V)) : h5 := HGroup nil (grow nil (map (fun kv => (fst kv, HData (HArr (snd kv)))) d)).
Lemma spaces_ok A D k d : nodupb (dkeys D) = true -> plainb k = true -> dget D k = None -> plain_names d ->
  iterM (fun kv => dataset (E := E) (k ++ "/" ++ fst kv) (HArr (snd kv))) d (st A (D ++ [(k, HGroup nil nil)])%list) =
  (Ok tt, st A (D ++ [(k, sgroup d)])%list).
Proof.
  intros N P H (ND & PL).
  apply (iter_ok _ A D k _ (fun kv => hset (k ++ "/" ++ fst kv) (HArr (snd kv))) fst (fun kv => HData (HArr (snd kv))) d); auto.
  intros [x v] f f' I U. cbn [fst snd] in *. unfold hset.
  destruct (sub_name k x P) as (C & Z); [apply PL; unfold dkeys; now apply (in_map fst) in I|].
  rewrite (hlink_eq _ _ _ _ _ C Z), U. reflexivity.
Qed.
Definition anode (kv : string * (list V * list V)) : h5 :=
  HGroup nil [("obs_values", HData (HArr (snd (snd kv)))); ("true_values", HData (HArr (fst (snd kv))))].
Definition agroup (d : dict (list V * list V)) : h5 := HGroup nil (grow nil (map (fun kv => (fst kv, anode kv)) d)).
Lemma aux_ok A D k (d : dict (list V * list V)) : nodupb (dkeys D) = true -> plainb k = true -> dget D k = None -> plain_names d ->
  iterM (fun kv =>
    create_group (E := E) (k ++ "/" ++ fst kv) ;;
    dataset (E := E) (k ++ "/" ++ fst kv ++ "/true_values") (HArr (fst (snd kv))) ;;
    dataset (E := E) (k ++ "/" ++ fst kv ++ "/obs_values") (HArr (snd (snd kv)))) d (st A (D ++ [(k, HGroup nil nil)])%list) =
  (Ok tt, st A (D ++ [(k, agroup d)])%list).
Proof.
  intros N P H (ND & PL).
  apply (iter_ok _ A D k _ (fun kv =>
    hlink (k ++ "/" ++ fst kv) (HGroup nil nil) ;;
    hset (k ++ "/" ++ fst kv ++ "/true_values") (HArr (fst (snd kv))) ;;
    hset (k ++ "/" ++ fst kv ++ "/obs_values") (HArr (snd (snd kv)))) fst anode d); auto.
  - intros kv g I. unfold create_group, dataset, on_links, bind. cbn [fst snd].
    destruct (hlink _ _ g) as [[[]|] g1]; [|reflexivity]. cbn [fst snd].
    destruct (hset _ _ g1) as [[[]|] g2]; [|reflexivity]. cbn [fst snd].
    destruct (hset _ _ g2) as [[[]|] g3]; reflexivity.
  - intros [x [t o]] f f' I U. unfold anode in U. cbn [fst snd] in *.
    assert (PX : plain_name x) by (apply PL; unfold dkeys; now apply (in_map fst) in I).
    destruct (sub_name k x P PX) as (C & Z).
    assert (C2 : forall y, plain_name y -> comps (k ++ "/" ++ x ++ "/" ++ y) = (([k] ++ [x]) ++ [y])%list /\ has_nul (k ++ "/" ++ x ++ "/" ++ y) = false).
    { intros y Y. split.
      - rewrite comps_slash, comps_slash. apply plainb_ok in P. rewrite (comps_plain k), (comps_plain x), (comps_plain y) by assumption. reflexivity.
      - rewrite !nul_app. apply plainb_ok in P. rewrite (nul_plain k P), (nul_plain x PX), (nul_plain y Y). reflexivity. }

    destruct (C2 "true_values") as (CT & ZT); [now apply plainb_ok|].
    destruct (C2 "obs_values") as (CO & ZO); [now apply plainb_ok|].
    destruct (upd_addl_any [k] x _ (HGroup nil nil) _ _ U) as (f1 & U1).
    destruct (upd_addl_any [k] x _ (HGroup nil [("true_values", HData (HArr t))]) _ _ U) as (f2 & U2).
    rewrite (bind_ok _ _ _ (s1 := f1) (a := tt)); [|rewrite (hlink_eq _ _ _ _ _ C Z), U1; reflexivity].
    rewrite (bind_ok _ _ _ (s1 := f2) (a := tt)).
    + unfold hset. rewrite (hlink_eq _ _ _ _ _ CO ZO).
      now rewrite (upd_into [k] x _ _ _ _ [("obs_values", HData (HArr o)); ("true_values", HData (HArr t))] _ U2 eq_refl U).
    + unfold hset. rewrite (hlink_eq _ _ _ _ _ CT ZT).
      now rewrite (upd_into [k] x _ _ _ _ [("true_values", HData (HArr t))] _ U1 eq_refl U2).
Qed.
Lemma saved_ok A D k (d : dict (tree V)) : nodupb (dkeys D) = true -> plainb k = true -> dget D k = None ->
  storable (TDict d) -> d <> nil ->
  on_links (E := E) (save k d) (st A D) = (Ok tt, st A (D ++ [(k, node (TDict d))])%list).
Proof.
  intros N P H S NE. apply plainb_ok in P. unfold on_links, st. cbn [fst snd].
  rewrite (save_ok utf8 d k nil k (grow nil D) _ S NE (comps_plain k P) (nul_plain k P) (upd_grow D k _ N H)). reflexivity.
Qed.

(** *** Reading *)
Lemma lookup_ok (D : list (string * h5)) k n : nodupb (dkeys D) = true -> plainb k = true -> dget D k = Some n ->
  lookup (comps k) (grow nil D) = Ok n.
Proof. intros N P H. apply plainb_ok in P. rewrite comps_plain by assumption. cbn. rewrite dget_grow, H by assumption. reflexivity. Qed.
Lemma rd_ok D k v : nodupb (dkeys D) = true -> plainb k = true -> dget D k = Some (HData v) -> rd E (grow nil D) k = Ok v.
Proof. intros N P H. unfold rd. rewrite (lookup_ok D k _ N P H). reflexivity. Qed.
Lemma rd_arr_ok D k l : nodupb (dkeys D) = true -> plainb k = true -> dget D k = Some (HData (HArr l)) -> rd_arr E (grow nil D) k = Ok l.
Proof. intros N P H. unfold rd_arr. rewrite (rd_ok D k _ N P H). reflexivity. Qed.
Lemma links_ok D k g x : nodupb (dkeys D) = true -> plainb k = true -> dget D k = Some (HGroup x g) -> links E (grow nil D) k = Ok g.
Proof. intros N P H. unfold links. rewrite (lookup_ok D k _ N P H). reflexivity. Qed.
Lemma arrays_back l k (d : dict (list V)) : links E l k = Ok (grow nil (map (fun kv => (fst kv, HData (HArr (snd kv)))) d)) ->
  exists d', rd_arrays E l k = Ok d' /\ Permutation d d'.
Proof.
  intros H. unfold rd_arrays. rewrite H. cbn [rbind].
  eapply rmapM_perm; [exact (grow_perm _ nil)|]. cbn [app]. rewrite (rmapM_map _ _ _ _ _ (fun kv => (fst kv, snd kv))) by reflexivity.
  f_equal. rewrite <- (map_id d) at 2. apply map_ext. now intros [].
Qed.
Lemma params_back l k (d : dict (option V)) : (forall x, ~ In (x, None) d) -> links E l k = Ok (grow nil (map (fun kv => (fst kv, pnode kv)) d)) ->
  exists d', rd_params E l k = Ok d' /\ Permutation d' d.
Proof.
  intros NN H. unfold rd_params.
  set (w := fun kv : string * option V => (fst kv, match snd kv with Some v => [v] | None => nil end)).
  destruct (arrays_back l k (map w d)) as (d1 & -> & P1).
  { rewrite H. f_equal. f_equal. rewrite map_map. apply map_ext_in. intros [x [v|]] I; [reflexivity|]. now destruct (NN x). }
  cbn [rbind]. destruct (rmapM_perm _ _ (fun kx => let? v := of_opt IndexError (hd_error (snd kx)) in Ok (fst kx, Some v)) _ _ d P1) as (d2 & R & P2).
  - clear - NN. induction d as [|[x [v|]] d IH]; [reflexivity| |now destruct (NN x); left].
    cbn [map rmapM]. rewrite IH; [reflexivity|]. intros y I. apply (NN y). now right.
  - exists d2. split; [exact R|now symmetry].
Qed.
Lemma aux_back l (d : dict (list V * list V)) : links E l "auxiliary_quantities" = Ok (grow nil (map (fun kv => (fst kv, anode kv)) d)) ->
  exists d', rd_aux E l = Ok d' /\ Permutation d' d.
Proof.
  intros H. unfold rd_aux. rewrite H. cbn [rbind].
  match goal with |- exists d', rmapM ?f _ = _ /\ _ => destruct (rmapM_perm _ _ f _ _ d (grow_perm (map (fun kv => (fst kv, anode kv)) d) nil)) as (d2 & R & P2) end.
  - cbn [app]. rewrite (rmapM_map _ _ _ _ _ (fun kv => (fst kv, (fst (snd kv), snd (snd kv))))).
    + f_equal. rewrite <- (map_id d) at 2. apply map_ext. now intros [? []].
    + intros [x [t o]]. reflexivity.
  - exists d2. split; [exact R|now symmetry].
Qed.
Lemma Forall2_rmapM A B C (R : A -> B -> Prop) (Q : A -> C -> Prop) (f : B -> res C) l l1 : Forall2 R l l1 ->
  (forall x y, R x y -> exists z, f y = Ok z /\ Q x z) -> exists r, rmapM f l1 = Ok r /\ Forall2 Q l r.
Proof.
  intros F H. induction F as [|x y l l1 X F IH]; [exists nil; split; [reflexivity|constructor]|].
  destruct (H x y X) as (z & Z & QZ). destruct IH as (r & Y & G). exists (z :: r). cbn. rewrite Z, Y. split; [reflexivity|now constructor].
Qed.
Lemma tdict_back (d : dict V) y : comes_back utf8 (tdict d) y -> exists e, y = TDict e /\
  exists d', rmapM (fun kv => match snd kv with TNum v => Ok (fst kv, v) | _ => Err Unmodelled end) e = Ok d' /\ Permutation d' d.
Proof.
  intros CB. unfold tdict in CB. inversion CB as [| | | | | | | |? d1 e F P O]; subst. exists e. split; [reflexivity|].
  assert (Q : d1 = map (fun kv => (fst kv, TNum (snd kv))) d).
  { clear - F. revert d1 F. induction d as [|[k v] d IH]; intros d1 F; inversion F as [|? [k' y] ? ? (A & B) G]; subst; cbn in *; [reflexivity|].
    inversion B; subst. f_equal. now apply IH. }
  subst d1. match goal with |- exists d', rmapM ?f _ = _ /\ _ => destruct (rmapM_perm _ _ f _ _ d P) as (d2 & R & P2) end.
  - rewrite (rmapM_map _ _ _ _ _ (fun kv => (fst kv, snd kv))) by reflexivity. f_equal. rewrite <- (map_id d) at 2. apply map_ext. now intros [].
  - exists d2. split; [exact R|now symmetry].
Qed.
Lemma truth_back (T : dict (dict V)) t' : comes_back utf8 (TDict (map (fun kv => (fst kv, tdict (snd kv))) T)) t' ->
  exists tr, truth_of E t' = Ok tr /\ exists t, Permutation tr t /\
    Forall2 (fun x y => fst x = fst y /\ Permutation (snd y) (snd x)) T t.
Proof.
  intros CB. inversion CB as [| | | | | | | |? d1 d' F P O]; subst. cbn [truth_of].
  match goal with |- exists tr, rmapM ?f _ = _ /\ _ => destruct (Forall2_rmapM _ _ _
     (fun x y => fst x = fst y /\ comes_back utf8 (tdict (snd x)) (snd y)) (fun x y => fst x = fst y /\ Permutation (snd y) (snd x)) f T d1) as (t & R & G) end.
  - clear - F. revert d1 F. induction T as [|[k v] T IH]; intros d1 F; inversion F as [|? y ? ? A G]; subst; constructor; [exact A|auto].
  - intros [k d] [k' y] (Q & B). cbn [fst snd] in *. subst k'. destruct (tdict_back _ _ B) as (e & -> & e' & R & X).
    rewrite R. cbn. exists (k, e'). auto.
  - destruct (rmapM_perm _ _ _ _ _ _ P R) as (tr & R2 & P2). exists tr. split; [exact R2|]. exists t. split; [now symmetry|exact G].
Qed.

(** *** Writing and reading *)
Record facts (a : popargs E) nm aux sp (conf : dict (tree V)) (A : dict (hval V)) (D : list (string * h5)) : Prop := {
  f_nd : nodupb (dkeys D) = true;
  f_sppar : dget D "spatial_params" = Some (pgroup (pa_sppar a));
  f_lf : match pa_lfpar a with
         | Some d => dget A "has_lf" = Some (HBool true) /\ dget D "lf_params" = Some (pgroup d) /\
                     exists f, pa_lfform a = Some f /\ dget A "lf_form" = Some (HBytes f)
         | None => dget A "has_lf" = Some (HBool false)
         end;
  f_name : dget A "name" = Some (HBytes nm);
  f_form : dget A "spatial_form" = Some (HBytes (pa_spform a));
  f_sigma : dget A "flux_sigma" = Some (HNum (pa_sigma a));
  f_nmodel : dget A "n_model" = Some (HInt (Z.of_nat (pa_nmodel a)));
  f_rmax : dget A "r_max" = Some (HNum (pa_rmax a));
  f_seed : dget A "seed" = Some (HInt (pa_seed a));
  f_prob : dget D "probability" = None;
  f_lum : dget D "luminosities" = Some (HData (HArr (pa_lum a)));
  f_dist : dget D "distances" = Some (HData (HArr (pa_dist a)));
  f_known : dget D "known_distances" = Some (HData (HArr (pa_known a)));
  f_kidx : dget D "known_distance_idx" = Some (HData (HIdx (pa_kidx a)));
  f_uidx : dget D "unknown_distance_idx" = Some (HData (HIdx (pa_uidx a)));
  f_flux : dget D "fluxes" = Some (HData (HArr (pa_flux a)));
  f_fobs : dget D "flux_obs" = Some (HData (HArr (pa_fobs a)));
  f_sel : dget D "selection" = Some (HData (HMask (pa_sel a)));
  f_theta : dget D "theta" = Some (HData (HArr (pa_theta a)));
  f_phi : dget D "phi" = Some (HData (HArr (pa_phi a)));
  f_aux : dget D "auxiliary_quantities" = Some (agroup aux);
  f_sp : dget D "model_spaces" = Some (sgroup sp);
  f_truth : dget D "truth" = Some (node (TDict (map (fun kv => (fst kv, tdict (snd kv))) (pa_truth a))));
  f_graph : dget D "graph" = Some (node (TDict (filled V (pa_graph a))));
  f_conf : dget D "popsynth" = Some (node (TDict conf)) }.

Lemma node_group (d : dict (tree V)) : d <> nil -> node (TDict d) = HGroup nil (grow nil (map (fun kt => (fst kt, node (snd kt))) d)).
Proof. destruct d; [contradiction|reflexivity]. Qed.
Lemma load_ok D k (d : dict (tree V)) : nodupb (dkeys D) = true -> plainb k = true -> storable (TDict d) -> d <> nil ->
  dget D k = Some (node (TDict d)) -> exists t, load utf8 k (grow nil D) = Ok t /\ comes_back utf8 (TDict d) t.
Proof.
  intros N P S NE H. unfold load. rewrite (lookup_ok D k _ N P H). cbn [rbind].
  destruct (dec_node utf8 _ S) as (t & X & CB). exists t. rewrite node_group in X |- * by assumption. auto.
Qed.
Lemma truth_storable (T : dict (dict V)) : plain_names T -> (forall k d, In (k, d) T -> plain_names d) ->
  storable (TDict (map (fun kv => (fst kv, tdict (snd kv))) T)).
Proof.
  intros (ND & PL) H. apply storable_dict. unfold dkeys at 1. rewrite map_map. cbn [fst]. split; [exact ND|].
  intros k t I. apply in_map_iff in I as ([k' d] & Q & I). cbn in Q. injection Q as -> <-.
  split; [apply PL; unfold dkeys; now apply (in_map fst) in I|]. destruct (H k d I) as (ND2 & PL2).
  apply storable_dict. unfold dkeys at 1. rewrite map_map. cbn [fst]. split; [exact ND2|].
  intros x t J. apply in_map_iff in J as ([x' v] & Q & J). cbn in Q. injection Q as -> <-.
  split; [apply PL2; unfold dkeys; now apply (in_map fst) in J|exact I0 || exact Logic.I].
Qed.

Definition reread (a : popargs E) (nm : string) (b : popargs E) : Prop :=
  same_content utf8 a b /\ with_losses a b nm.

Lemma load_facts a nm aux sp conf A D : writable a nm aux sp conf -> facts a nm aux sp conf A D ->
  exists b, load_args utf8 (st A D) = Ok b /\ reread a nm b.
Proof.
  intros W F. assert (N := f_nd _ _ _ _ _ _ _ F).
  destruct (wr_sppar W) as (_ & NN).
  destruct (params_back (grow nil D) "spatial_params" (pa_sppar a) NN) as (sp' & R1 & P1).
  { eapply links_ok; [exact N|reflexivity|apply (f_sppar _ _ _ _ _ _ _ F)]. }
  destruct (arrays_back (grow nil D) "model_spaces" sp) as (ms & R2 & P2).
  { eapply links_ok; [exact N|reflexivity|apply (f_sp _ _ _ _ _ _ _ F)]. }
  destruct (aux_back (grow nil D) aux) as (ax & R3 & P3).
  { eapply links_ok; [exact N|reflexivity|apply (f_aux _ _ _ _ _ _ _ F)]. }
  destruct (wr_truth W) as (T1 & T2 & T3).
  destruct (load_ok D "truth" _ N eq_refl (truth_storable _ T2 T3)) as (t4 & R4 & C4); [destruct (pa_truth a); [contradiction|discriminate]|apply (f_truth _ _ _ _ _ _ _ F)|].
  destruct (truth_back _ _ C4) as (tr & R5 & tp & P5 & F5).
  destruct (wr_graph W) as (G1 & G2 & G3).
  destruct (load_ok D "graph" _ N eq_refl (filled_storable V _ G2 G3)) as (t6 & R6 & C6).
  { unfold filled. destruct (gr_nodes (pa_graph a)); [contradiction|discriminate]. }
  { apply (f_graph _ _ _ _ _ _ _ F). }
  destruct (wr_conf W) as (K1 & K2 & K3).
  destruct (load_ok D "popsynth" _ N eq_refl K3 K2) as (t7 & R7 & C7); [apply (f_conf _ _ _ _ _ _ _ F)|].
  assert (RP : rd_opt E (grow nil D) "probability" = Ok None).
  { unfold rd_opt, rd_arr, rd. rewrite comps_plain by now apply plainb_ok. cbn [lookup]. rewrite dget_grow by assumption.
    rewrite (f_prob _ _ _ _ _ _ _ F). reflexivity. }
  assert (LF : exists d f, (let? has := rd_attr E A "has_lf" in
    match has with
    | HBool true => let? d := rd_params E (grow nil D) "lf_params" in
                    let? f := rd_attr E A "lf_form" in let? s := bytes E f in Ok (Some d, Some (bytes_repr s))
    | HBool false => Ok (None, None)
    | _ => Err Unmodelled
    end) = Ok (d, f) /\ f = option_map bytes_repr (pa_lfform a) /\
    match pa_lfpar a, d with None, None => True | Some x, Some y => Permutation y x | _, _ => False end).
  { assert (X := f_lf _ _ _ _ _ _ _ F). assert (Y := wr_lf W). destruct (pa_lfpar a) as [d|].
    - destruct X as (X1 & X2 & f & X3 & X4). destruct Y as (_ & Y & _).
      destruct (params_back (grow nil D) "lf_params" d Y) as (d' & R8 & P8).
      { eapply links_ok; [exact N|reflexivity|apply X2]. }
      exists (Some d'), (Some (bytes_repr f)). unfold rd_attr. rewrite X1, R8, X4, X3. cbn. auto.
    - exists None, None. unfold rd_attr. rewrite X, Y. cbn. auto. }
  destruct LF as (lfd & lff & LF & LQ & LP).
  eexists. split.
  - unfold load_args, st. rewrite R1. cbn [rbind].
    revert LF. unfold rbind at 1. intros LF.
    destruct (rd_attr E A "has_lf") as [has|]; [|discriminate]. cbn [rbind]. rewrite LF. cbn [rbind].
    unfold rd_attr. rewrite (f_sigma _ _ _ _ _ _ _ F), (f_nmodel _ _ _ _ _ _ _ F), (f_rmax _ _ _ _ _ _ _ F), (f_seed _ _ _ _ _ _ _ F),
      (f_name _ _ _ _ _ _ _ F), (f_form _ _ _ _ _ _ _ F). cbn [of_opt rbind num int_ bytes].
    rewrite (rd_arr_ok D "luminosities" _ N eq_refl (f_lum _ _ _ _ _ _ _ F)). cbn [rbind].
    rewrite (rd_arr_ok D "distances" _ N eq_refl (f_dist _ _ _ _ _ _ _ F)). cbn [rbind].
    rewrite (rd_arr_ok D "theta" _ N eq_refl (f_theta _ _ _ _ _ _ _ F)). cbn [rbind].
    rewrite (rd_arr_ok D "phi" _ N eq_refl (f_phi _ _ _ _ _ _ _ F)). cbn [rbind].
    rewrite (rd_arr_ok D "known_distances" _ N eq_refl (f_known _ _ _ _ _ _ _ F)). cbn [rbind].
    rewrite (rd_ok D "known_distance_idx" _ N eq_refl (f_kidx _ _ _ _ _ _ _ F)). cbn [rbind idx].
    rewrite (rd_ok D "unknown_distance_idx" _ N eq_refl (f_uidx _ _ _ _ _ _ _ F)). cbn [rbind idx].
    rewrite RP. cbn [rbind].
    rewrite (rd_arr_ok D "fluxes" _ N eq_refl (f_flux _ _ _ _ _ _ _ F)). cbn [rbind].
    rewrite (rd_arr_ok D "flux_obs" _ N eq_refl (f_fobs _ _ _ _ _ _ _ F)). cbn [rbind].
    rewrite (rd_ok D "selection" _ N eq_refl (f_sel _ _ _ _ _ _ _ F)). cbn [rbind msk].
    rewrite R2, R3, R4. cbn [rbind]. rewrite R5, R6, R7. cbn [rbind]. reflexivity.
  - unfold reread. cbn. rewrite Nat2Z.id. inversion C6 as [| | | | | | | |? d1 d6 X6 Y6 Z6]; subst.
    split; [|split; cbn; auto; eapply graph_back; eassumption]. split; cbn; auto.
    + destruct (wr_aux W) as (-> & _). exists aux, ax. auto.
    + destruct (wr_spaces W) as (-> & _). exists sp, ms. split; [reflexivity|]. split; [reflexivity|now symmetry].
    + exists tp. auto.
    + rewrite K1. exists (TDict conf), t7. auto.
Qed.

Lemma lift_ok S B (r : res B) (b : B) (s : S) : r = Ok b -> lift r s = (Ok b, s).
Proof. now intros ->. Qed.
Lemma int_attr (z : Z) k A D : fits64 z -> attr_int (E := E) k z (st A D) = (Ok tt, st (dset A k (HInt z)) D).
Proof.
  intros F. unfold attr_int. assert (int64 z = true) as ->; [|reflexivity].
  unfold int64, fits64 in *. apply andb_true_intro. split; lia.
Qed.
Lemma ascii_ok s : is_ascii s = true -> np_string s = Ok s.
Proof. intros H. unfold np_string. now rewrite H. Qed.

Ltac nx H := rewrite (bind_ok _ _ _ H); cbn [app].
Ltac ds k v := match goal with |- context [bind (dataset k v) _ (st ?A ?D)] => nx (ds_ok A D k v eq_refl eq_refl eq_refl) end.
Ltac at_ k v := match goal with |- context [bind (attr k v) _ (st ?A ?D)] =>
  nx (eq_refl : attr (E := E) k v (st A D) = (Ok tt, st (dset A k v) D)) end.

Lemma write_facts a p nm aux sp conf : pop_new a = Ok p -> writable a nm aux sp conf ->
  exists A D, writeto p = (Ok tt, st A D) /\ facts a nm aux sp conf A D.
Proof.
  intros H W. destruct (new_faithful _ _ _ H) as (PA & (L1 & _) & (L2 & _) & (L3 & _) & (L4 & _) & (L5 & L6 & _) & L7 & _).
  unfold writeto, write_pop. rewrite PA, L1, L2, L3, L4, L5, L6. clear L1 L2 L3 L4 L5 L6.
  change (nil, nil) with (st nil nil).
  destruct (wr_sppar W) as (S1 & S2). nx (params_ok nil nil "spatial_params" _ eq_refl eq_refl eq_refl S1 S2).
  destruct (wr_truth W) as (T1 & T2 & T3). destruct (wr_graph W) as (G1 & G2 & G3). destruct (wr_conf W) as (K1 & K2 & K3).
  destruct (wr_aux W) as (X1 & X2). destruct (wr_spaces W) as (M1 & M2).
  assert (LF := wr_lf W). destruct (pa_lfpar a) as [lfd|] eqn:LFP;
    [destruct LF as (Y1 & Y2 & lff & Y3 & Y4);
     rewrite (bind_ok _ _ _ (s1 := st [("lf_form", HBytes lff); ("has_lf", HBool true)] [("spatial_params", pgroup (pa_sppar a)); ("lf_params", pgroup lfd)]) (a := tt));
     [|nx (params_ok nil [("spatial_params", pgroup (pa_sppar a))] "lf_params" _ eq_refl eq_refl eq_refl Y1 Y2);
       rewrite Y3; rewrite (bind_ok _ _ _ (lift_ok _ _ _ _ _ (ascii_ok _ Y4))); reflexivity]
    |rewrite (bind_ok _ _ _ (s1 := st [("has_lf", HBool false)] [("spatial_params", pgroup (pa_sppar a))]) (a := tt)); [|reflexivity]];
  rewrite (wr_name W); rewrite (bind_ok _ _ _ (lift_ok _ _ _ _ _ (ascii_ok _ (wr_name_ascii W))));
  at_ "name" (@HBytes V nm);
  rewrite (bind_ok _ _ _ (lift_ok _ _ _ _ _ (ascii_ok _ (wr_form W))));
  at_ "spatial_form" (@HBytes V (pa_spform a)); at_ "flux_sigma" (HNum (pa_sigma a));
  (match goal with |- context [bind (attr_int "n_model" ?z) _ (st ?A ?D)] => nx (int_attr z "n_model" A D (wr_nmodel W)) end);
  at_ "r_max" (HNum (pa_rmax a));
  (match goal with |- context [bind (attr_int "seed" ?z) _ (st ?A ?D)] => nx (int_attr z "seed" A D (wr_seed W)) end);
  (destruct (p_prob p) as [q|];
   [ds "probabilty" (HArr (sv_obs q))
   |match goal with |- context [bind (ret tt) _ ?s] => nx (eq_refl : ret tt s = (Ok tt, s)) end]);
  ds "luminosities" (HArr (pa_lum a)); ds "distances" (HArr (pa_dist a)); ds "known_distances" (HArr (pa_known a));
  ds "known_distance_idx" (@HIdx V (pa_kidx a)); ds "unknown_distance_idx" (@HIdx V (pa_uidx a));
  ds "fluxes" (HArr (pa_flux a)); ds "flux_obs" (HArr (pa_fobs a)); ds "selection" (@HMask V (pa_sel a));
  ds "theta" (HArr (pa_theta a)); ds "phi" (HArr (pa_phi a));
  (match goal with |- context [bind (create_group ?k) _ (st ?A ?D)] => rewrite (bind_ok _ _ _ (cg_ok A D k eq_refl eq_refl eq_refl)) end);
  rewrite X1; rewrite (bind_ok _ _ _ (lift_ok _ _ _ _ _ (eq_refl : of_opt AttributeError (Some aux) = Ok aux)));
  (match goal with |- context [st ?A (?D ++ [("auxiliary_quantities", _)])%list] =>
     rewrite (bind_ok _ _ _ (aux_ok A D "auxiliary_quantities" aux eq_refl eq_refl eq_refl X2)); cbn [app] end);
  (match goal with |- context [bind (create_group ?k) _ (st ?A ?D)] => rewrite (bind_ok _ _ _ (cg_ok A D k eq_refl eq_refl eq_refl)) end);
  rewrite M1; rewrite (bind_ok _ _ _ (lift_ok _ _ _ _ _ (eq_refl : of_opt AttributeError (Some sp) = Ok sp)));
  (match goal with |- context [st ?A (?D ++ [("model_spaces", _)])%list] =>
     rewrite (bind_ok _ _ _ (spaces_ok A D "model_spaces" sp eq_refl eq_refl eq_refl M2)); cbn [app] end);
  (match goal with |- context [bind (on_links (save "truth" ?d)) _ (st ?A ?D)] =>
     rewrite (bind_ok _ _ _ (saved_ok A D "truth" d eq_refl eq_refl eq_refl (truth_storable _ T2 T3) ltac:(destruct (pa_truth a); [contradiction|discriminate]))); cbn [app] end);
  rewrite (bind_ok _ _ _ (lift_ok _ _ _ _ _ (fill_adjacency V (pa_graph a))));
  (match goal with |- context [bind (on_links (save "graph" ?d)) _ (st ?A ?D)] =>
     rewrite (bind_ok _ _ _ (saved_ok A D "graph" d eq_refl eq_refl eq_refl (filled_storable V _ G2 G3)
        ltac:(unfold filled; destruct (gr_nodes (pa_graph a)); [contradiction|discriminate]))); cbn [app] end);
  rewrite K1; rewrite (bind_ok _ _ _ (lift_ok _ _ _ _ _ (eq_refl : of_opt AttributeError (Some (TDict conf)) = Ok (TDict conf))));
  (match goal with |- context [on_links (save "popsynth" ?d) (st ?A ?D)] =>
     rewrite (saved_ok A D "popsynth" d eq_refl eq_refl eq_refl K3 K2); cbn [app] end);
  (eexists _, _; split; [reflexivity|]; split; try reflexivity; rewrite LFP;
   first [reflexivity | split; [reflexivity|split; [reflexivity|exists lff; split; [exact Y3|reflexivity]]]]).
Qed.

Lemma pop_again a nm aux sp conf p b : pop_new a = Ok p -> writable a nm aux sp conf -> reread a nm b -> exists p', pop_new b = Ok p' /\ p_args p' = b.
Proof.
  intros H W (S & LO). assert (C := new_consistent _ _ _ H). destruct C as ((A1 & A2 & A3 & A4 & A5 & A6 & _ & A8) & DA & SF).
  assert (FR := new_free _ _ _ H).
  destruct (sc_aux S) as (x & y & X & Y & P). destruct (sc_spaces S) as (x2 & y2 & X2 & Y2 & P2).
  assert (FB : free_names b).
  { intros z k v Z I. rewrite Y in Z. injection Z as <-. apply (FR x k v X). now apply (Permutation_in _ P). }
  destruct (proj1 (new_iff_consistent _ b FB)) as (p' & HP).
  - split; [|split].
    + unfold aligned. rewrite (sc_lum S), (sc_dist S), (sc_theta S), (sc_phi S), (sc_fobs S), (sc_flux S), (sc_sel S), (wl_prob LO).
      repeat split; auto; try discriminate; rewrite Y in H0; injection H0 as <-; apply (Permutation_in _ P) in H1; now apply (A8 x k t o X H1).
    + unfold distances_add_up in *. now rewrite (sc_known S), (sc_uidx S), (sc_sel S).
    + intros z k l Z I. rewrite Y2 in Z. injection Z as <-. rewrite (sc_nmodel S). apply (SF x2 k l X2). now apply (Permutation_in _ P2).
  - exists p'. split; [exact HP|]. now destruct (new_faithful _ _ _ HP).
Qed.

Lemma pop_round_trip (a : popargs E) (p : population E) nm aux sp conf : pop_new a = Ok p -> writable a nm aux sp conf ->
  exists g (p' : population E), writeto p = (Ok tt, g) /\ load_pop utf8 g = Ok p' /\ same_content utf8 a (p_args p') /\ with_losses a (p_args p') nm.
Proof.
  intros H W. destruct (write_facts a p nm aux sp conf H W) as (A & D & WR & F).
  destruct (load_facts _ _ _ _ _ _ _ W F) as (b & LA & R).
  destruct (pop_again _ _ _ _ _ _ _ H W R) as (p' & HP & PA).
  exists (st A D), p'. split; [exact WR|]. split; [unfold load_pop; now rewrite LA|]. rewrite PA. exact R.
Qed.

(** *** Groups of a file *)
Lemma upd_replace (p : list string) k X Y (f f1 f2 : dict h5) : h5_upd p (addl k X) f = Ok f1 -> h5_upd p (addl k Y) f = Ok f2 ->
  h5_upd p (fun l => Ok (dset l k Y)) f1 = Ok f2.
Proof.
  revert f f1 f2; induction p as [|c p IH]; intros f f1 f2 H1 H2; cbn in *.
  - unfold addl in *. destruct (dget f k) eqn:D; [discriminate|]. injection H1 as <-. injection H2 as <-. now rewrite dset_hins.
  - destruct (dget f c) as [[|x g0]|] eqn:D; [discriminate| |];
      (match type of H1 with rbind ?m _ = _ => destruct m as [g1|] eqn:Q1 end; [|discriminate]);
      (match type of H2 with rbind ?m _ = _ => destruct m as [g2|] eqn:Q2 end; [|discriminate]);
      injection H1 as <-; injection H2 as <-.
    + rewrite dget_dset_eq, (IH _ _ _ Q1 Q2). cbn. now rewrite dset_dset.
    + rewrite dget_hins_eq by assumption. rewrite (IH _ _ _ Q1 Q2). cbn. now rewrite dset_hins.
Qed.
Lemma addto_ok (p : population E) g name (f : dict h5) : writeto p = (Ok tt, g) -> no_nul name -> vacant (comps name) f ->
  exists f', addto p name f = (Ok tt, f') /\ from_group E utf8 name f' = load_pop utf8 g /\ extends f f'.
Proof.
  intros WR N VA. destruct (comps_last _ _ VA) as (q & k & C). apply nul_iff in N. rewrite C in VA.
  destruct (vacant_add q k (HGroup nil nil) f VA) as (f1 & U1).
  destruct (vacant_add q k (HGroup (fst g) (snd g)) f VA) as (f2 & U2).
  exists f2. split; [|split; [|eapply extends_added; exact U2]].
  - unfold addto. rewrite (hlink_eq _ _ _ _ _ C N), U1. unfold writeto in WR. rewrite WR, C, rev_app_distr. cbn [rev app].
    rewrite rev_involutive, (upd_replace _ _ _ _ _ _ _ U1 U2). reflexivity.
  - unfold from_group. rewrite C, (lookup_added _ _ _ _ _ U2). cbn. now destruct g.
Qed.
Lemma addto_taken (p : population E) name q k (f : dict h5) : comps name = (q ++ [k])%list -> no_nul name -> (exists n, lookup (q ++ [k]) f = Ok n) ->
  exists f', addto p name f = (Err ValueError, f').
Proof.
  intros C N (n & L). apply nul_iff in N. unfold addto. rewrite (hlink_eq _ _ _ _ _ C N).
  assert (X : h5_upd q (addl k (HGroup nil nil)) f = Err ValueError).
  { clear - L. revert f L. induction q as [|c q IH]; intros f L.
    - cbn in *. unfold addl. destruct (dget f k); [reflexivity|discriminate].
    - assert (NE : exists x r, (q ++ [k])%list = x :: r) by (destruct q; cbn; eauto). destruct NE as (x & r & NE).
      cbn in *. rewrite NE in *. destruct (dget f c) as [[|y g0]|]; [discriminate L| |discriminate L]. now rewrite (IH g0 L). }
  rewrite X. eauto.
Qed.

(** *** What cannot be written *)
Ltac peel H := repeat (let x := fresh in let y := fresh in let z := fresh in apply bind_inv_ok in H as (x & y & z & H)).
Lemma write_needs_conf (p : population E) g : writeto p = (Ok tt, g) -> exists d, pa_popsynth (p_args p) = Some (TDict d) /\ ~ unsupported (TDict d).
Proof.
  unfold writeto, write_pop. intros H.
  do 23 (let x := fresh in let y := fresh in let z := fresh in apply bind_inv_ok in H as (x & y & z & H)).
  repeat (let x := fresh in let y := fresh in let z := fresh "Z" in apply bind_inv_ok in H as (x & y & z & H)).
  match type of H with match ?c with _ => _ end _ = _ => destruct c as [| | | | | | | | |d]; try discriminate H end.
  match goal with X : lift (of_opt AttributeError (pa_popsynth (p_args p))) _ = _ |- _ => rename X into LF end.
  destruct (pa_popsynth (p_args p)) as [t|]; [|discriminate LF]. cbn in LF. injection LF as -> _.
  exists d. split; [reflexivity|]. intros U. unfold on_links in H.
  match type of H with (let (_, _) := save _ _ ?l in _) = _ => assert (X := unsupported_save d U "popsynth" l); destruct (save "popsynth" d l) as [r l'] end.
  injection H as -> _. now apply X.
Qed.
Lemma bool_unsupported (t t' : tree V) : has_bool t -> comes_back utf8 t t' -> unsupported t'.
Proof.
  intros HB. revert t'. induction HB as [b|d k t I HB IH]; intros t' CB; inversion CB as [| | | | | | | |? d1 d' F P O]; subst; [constructor|].
  destruct (Forall2_In_l _ _ _ _ _ _ F I) as ([k' y] & J & Q & C). cbn in *. subst k'.
  apply us_dict with (k := k) (t := y); [now apply (Permutation_in _ P)|now apply IH].
Qed.
Lemma write_once (a : popargs E) (p : population E) nm aux sp conf : pop_new a = Ok p -> writable a nm aux sp conf -> has_bool (TDict conf) ->
  exists g (p' : population E), writeto p = (Ok tt, g) /\ load_pop utf8 g = Ok p' /\ fst (writeto p') <> Ok tt.
Proof.
  intros H W HB. destruct (pop_round_trip _ _ _ _ _ _ H W) as (g & p' & WR & L & S & _). exists g, p'. split; [exact WR|]. split; [exact L|].
  intros X. destruct (writeto p') as [r g'] eqn:Q. cbn in X. subst r. destruct (write_needs_conf _ _ Q) as (d & PD & NU).
  destruct (sc_conf S) as (x & y & X1 & X2 & CB). destruct (wr_conf W) as (K & _). rewrite K in X1. injection X1 as <-.
  rewrite X2 in PD. injection PD as ->. apply NU. eapply bool_unsupported; eassumption.
Qed.
Lemma sub_not_writable b (p q : population E) : sub_population b p = Ok q -> fst (writeto q) <> Ok tt.
Proof.
  intros H X. destruct (writeto q) as [r g] eqn:Q. cbn in X. subst r. destruct (write_needs_conf _ _ Q) as (d & PD & _).
  unfold sub_population in H.
  repeat (first [match type of H with rbind ?m _ = _ => destruct m; [|discriminate H]; cbn [rbind] in H end | match type of H with (match ?x with (_, _) => _ end) = _ => destruct x end]).
  destruct (new_faithful _ _ _ H) as (PA & _). rewrite PA in PD. discriminate PD.
Qed.
End PopFile.

(** *** Text *)
Lemma esc_length q s : (String.length s <= String.length (esc_all q s))%nat.
Proof.
  induction s as [|c s IH]; cbn; [lia|].
  assert (A : forall a b, String.length (a ++ b) = (String.length a + String.length b)%nat).
  { clear. intros a b. induction a; cbn; auto. }
  rewrite A. assert (1 <= String.length (esc q c))%nat; [|lia].
  unfold esc. repeat match goal with |- context [if ?b then _ else _] => destruct b end; cbn; lia.
Qed.
Lemma repr_longer s : (String.length s < String.length (bytes_repr s))%nat.
Proof.
  unfold bytes_repr. cbn.
  assert (A : forall a b, String.length (a ++ b) = (String.length a + String.length b)%nat).
  { clear. intros a b. induction a; cbn; auto. }
  rewrite A. cbn. match goal with |- context [esc_all ?q s] => assert (X := esc_length q s) end. lia.
Qed.
