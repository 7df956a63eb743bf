(** Proofs: reading the dependency graph again changes nothing. *)
From Verif Require Import Base BaseFacts Env ParamModel SelModel SimVarModel DistModel AuxModel AuxSpec AuxProofs AuxProps
  PopModel SynthModel SynthSpec SynthGraph GraphSpec GraphProofs.
Open Scope nat_scope.

(** ** Sequences of operations on a graph *)
Inductive op := ONode (k : string) (b : option bool) | OEdge (u v : string).
Definition nset (k : string) (b : option bool) (d : dict (option bool)) : dict (option bool) :=
  match b, dget d k with None, Some _ => d | _, _ => dset d k b end.
Definition eset (e : string * string) (l : list (string * string)) : list (string * string) :=
  if existsb (edge_eqb e) l then l else l ++ [e].
Definition nop (d : dict (option bool)) (o : op) : dict (option bool) :=
  match o with ONode k b => nset k b d | OEdge u v => nset v None (nset u None d) end.
Definition eop (l : list (string * string)) (o : op) : list (string * string) :=
  match o with ONode _ _ => l | OEdge u v => eset (u, v) l end.
Definition act (g : graph) (o : op) : graph := match o with ONode k b => add_node k b g | OEdge u v => add_edge u v g end.
Definition acts (ops : list op) (g : graph) : graph := fold_left act ops g.

Lemma add_node_parts k b g : add_node k b g = Graph (nset k b (gr_nodes g)) (gr_edges g).
Proof. unfold add_node, nset. destruct b; [reflexivity|]. destruct (dget (gr_nodes g) k); [now destruct g|reflexivity]. Qed.
Lemma act_parts g o : act g o = Graph (nop (gr_nodes g) o) (eop (gr_edges g) o).
Proof. destruct o as [k b|u v]; cbn [act nop eop]; [apply add_node_parts|]. unfold add_edge. now rewrite !add_node_parts. Qed.
Lemma acts_parts ops : forall g, acts ops g = Graph (fold_left nop ops (gr_nodes g)) (fold_left eop ops (gr_edges g)).
Proof. induction ops as [|o ops IH]; intros g; cbn [acts fold_left]; [now destruct g|]. fold (acts ops (act g o)). now rewrite IH, act_parts. Qed.

(** ** Nodes *)
Inductive form := FId | FFill | FConst (b : bool).
Definition ev (f : form) (v : option (option bool)) : option (option bool) :=
  match f with FId => v | FFill => match v with None => Some None | Some x => Some x end | FConst b => Some (Some b) end.
Definition fnode (b : option bool) (f : form) : form :=
  match b with Some b => FConst b | None => match f with FConst b => FConst b | _ => FFill end end.
Definition fset (x k : string) (b : option bool) (f : form) : form := if String.eqb x k then fnode b f else f.
Definition fop (x : string) (f : form) (o : op) : form :=
  match o with ONode k b => fset x k b f | OEdge u v => fset x v None (fset x u None f) end.

Lemma nset_get k b d x f v : dget d x = ev f v -> dget (nset k b d) x = ev (fset x k b f) v.
Proof.
  intros H. unfold nset, fset. destruct (String.eqb_spec x k) as [->|N].
  - destruct b as [b|]; [now rewrite dget_dset_eq|]. destruct (dget d k) eqn:D.
    + rewrite D. destruct f; cbn in *; try easy; now rewrite <- H.
    + rewrite dget_dset_eq. destruct f; cbn in *; try easy; [now rewrite <- H|destruct v; discriminate].
  - destruct b as [b|]; [now rewrite dget_dset_neq|]. destruct (dget d k); [easy|now rewrite dget_dset_neq].
Qed.
Lemma nops_get x ops : forall d f v, dget d x = ev f v -> dget (fold_left nop ops d) x = ev (fold_left (fop x) ops f) v.
Proof.
  induction ops as [|o ops IH]; intros d f v H; cbn [fold_left]; [easy|]. apply IH.
  destruct o as [k b|u w]; cbn [nop fop]; [now apply nset_get|]. now apply nset_get, nset_get.
Qed.
Lemma ev_twice f v : ev f (ev f v) = ev f v.
Proof. destruct f, v; reflexivity. Qed.

Lemma nset_nodup k b d : NoDup (dkeys d) -> NoDup (dkeys (nset k b d)).
Proof. intros H. unfold nset. destruct b; [now apply NoDup_dset|]. destruct (dget d k); [easy|now apply NoDup_dset]. Qed.
Lemma nops_nodup ops : forall d, NoDup (dkeys d) -> NoDup (dkeys (fold_left nop ops d)).
Proof. induction ops as [|[k b|u v] ops IH]; intros d H; cbn [fold_left nop]; [easy| |]; apply IH; repeat apply nset_nodup; easy. Qed.

Definition ends (o : op) : list string := match o with ONode k _ => [k] | OEdge u v => [u; v] end.
Lemma nset_keys k b d : dkeys (nset k b d) = if dmem d k then dkeys d else dkeys d ++ [k].
Proof. unfold nset. destruct b; [apply dkeys_dset|]. destruct (dget d k) eqn:D; [unfold dmem; now rewrite D|apply dkeys_dset]. Qed.
Lemma nset_keys_in k b d x : In x (dkeys (nset k b d)) <-> In x (dkeys d) \/ x = k.
Proof.
  rewrite nset_keys. unfold dmem. destruct (dget d k) eqn:D; [|rewrite in_app_iff; cbn; intuition].
  split; [auto|]. intros [?| ->]; [easy|]. apply dget_Some_In_keys. eauto.
Qed.
Lemma nops_keep ops : forall d x, In x (dkeys d) -> In x (dkeys (fold_left nop ops d)).
Proof.
  induction ops as [|[k b|u v] ops IH]; intros d x H; cbn [fold_left nop]; [easy| |]; apply IH; rewrite !nset_keys_in; auto.
Qed.
Lemma nops_ends ops : forall d o x, In o ops -> In x (ends o) -> In x (dkeys (fold_left nop ops d)).
Proof.
  induction ops as [|o' ops IH]; intros d o x I E; [destruct I|]. cbn [fold_left]. destruct I as [->|I]; [|now apply (IH _ o)].
  apply nops_keep. destruct o as [k b|u v]; cbn [nop ends] in *; rewrite !nset_keys_in; destruct E as [<-|E]; auto; [destruct E|].
  destruct E as [<-|[]]. auto.
Qed.
Lemma nset_same_keys k b d : In k (dkeys d) -> dkeys (nset k b d) = dkeys d.
Proof. intros H. rewrite nset_keys. unfold dmem. apply dget_Some_In_keys in H. destruct H as (v & ->). reflexivity. Qed.
Lemma nops_same_keys ops : forall d, (forall o x, In o ops -> In x (ends o) -> In x (dkeys d)) -> dkeys (fold_left nop ops d) = dkeys d.
Proof.
  induction ops as [|o ops IH]; intros d H; cbn [fold_left]; [easy|].
  assert (Q : dkeys (nop d o) = dkeys d).
  { destruct o as [k b|u v]; cbn [nop].
    - apply nset_same_keys. apply (H (ONode k b)); [now left|now left].
    - assert (U : In u (dkeys d)) by (apply (H (OEdge u v)); cbn; auto).
      assert (V : In v (dkeys d)) by (apply (H (OEdge u v)); cbn; auto).
      rewrite nset_same_keys; rewrite nset_same_keys; auto. }
  rewrite IH, Q; [easy|]. intros o' x I E. rewrite Q. apply (H o'); [now right|easy].
Qed.
Lemma dict_ext (d e : dict (option bool)) : NoDup (dkeys d) -> dkeys d = dkeys e -> (forall x, dget d x = dget e x) -> d = e.
Proof.
  revert e. induction d as [|[k v] d IH]; intros [|[k' v'] e] N K G; try discriminate; [easy|].
  cbn in K. injection K as K1 K2. subst k'. inversion N as [|? ? N1 N2]; subst. f_equal.
  - specialize (G k). cbn in G. rewrite String.eqb_refl in G. now injection G as ->.
  - apply IH; [easy|exact K2|]. intros x. specialize (G x). cbn in G. destruct (String.eqb_spec x k) as [EQ|NE]; [|easy]. rewrite EQ.
    assert (A : dget d k = None) by now apply dget_None. assert (B : dget e k = None) by (apply dget_None; unfold dkeys; now rewrite <- K2).
    now rewrite A, B.
Qed.
Lemma nops_twice ops d : NoDup (dkeys d) -> fold_left nop ops (fold_left nop ops d) = fold_left nop ops d.
Proof.
  intros N. apply dict_ext.
  - now apply nops_nodup, nops_nodup.
  - apply nops_same_keys. intros o x. apply nops_ends.
  - intros x. assert (F := nops_get x ops d FId (dget d x) eq_refl).
    rewrite (nops_get x ops _ FId _ eq_refl), F. apply ev_twice.
Qed.

(** ** Edges *)
Lemma eset_in e l x : In x (eset e l) <-> In x l \/ x = e.
Proof.
  unfold eset. destruct (existsb (edge_eqb e) l) eqn:X; [|rewrite in_app_iff; cbn; intuition].
  split; [auto|]. intros [?| ->]; [easy|]. apply existsb_exists in X. destruct X as (f & I & Q). apply edge_eqb_spec in Q. now subst.
Qed.
Lemma eset_same e l : In e l -> eset e l = l.
Proof.
  intros I. unfold eset. assert (X : existsb (edge_eqb e) l = true) by (apply existsb_exists; exists e; split; [easy|now apply edge_eqb_spec]).
  now rewrite X.
Qed.
Lemma eops_keep ops : forall l x, In x l -> In x (fold_left eop ops l).
Proof. induction ops as [|[k b|u v] ops IH]; intros l x H; cbn [fold_left eop]; auto. apply IH, eset_in. now left. Qed.
Lemma eops_in ops : forall l u v, In (OEdge u v) ops -> In (u, v) (fold_left eop ops l).
Proof.
  induction ops as [|o ops IH]; intros l u v I; [destruct I|]. cbn [fold_left]. destruct I as [->|I]; cbn [eop]; [|now apply IH]. apply eops_keep, eset_in. now right.
Qed.
Lemma eops_same ops : forall l, (forall u v, In (OEdge u v) ops -> In (u, v) l) -> fold_left eop ops l = l.
Proof.
  induction ops as [|[k b|u v] ops IH]; intros l H; cbn [fold_left eop]; [easy| |].
  - apply IH. intros a b' I. apply H. now right.
  - rewrite eset_same; [|apply H; now left]. apply IH. intros a b I. apply H. now right.
Qed.

Lemma acts_twice ops g : NoDup (dkeys (gr_nodes g)) -> acts ops (acts ops g) = acts ops g.
Proof.
  intros N. rewrite !acts_parts. cbn [gr_nodes gr_edges]. f_equal; [now apply nops_twice|]. apply eops_same. intros u v. apply eops_in.
Qed.

Section P.
Variable E : env.
Notation world := (world E).
Notation synth := (synth E).

(** ** What a program does to the graph does not depend on the graph *)
Definition traced (m : GM unit) : Prop :=
  (exists ops, forall g, m g = (Ok tt, acts ops g)) \/ (forall g u g', m g <> (Ok u, g')).

Lemma traced_ret : traced (ret tt).
Proof. left. exists nil. reflexivity. Qed.
Lemma traced_node k b : traced (gnode k b).
Proof. left. exists [ONode k b]. reflexivity. Qed.
Lemma traced_edge u v : traced (gedge u v).
Proof. left. exists [OEdge u v]. reflexivity. Qed.
Lemma acts_app a b g : acts b (acts a g) = acts (a ++ b) g.
Proof. unfold acts. now rewrite fold_left_app. Qed.
Lemma traced_seq m k : traced m -> traced k -> traced (m ;; k).
Proof.
  intros [(a & A)|A] [(b & B)|B].
  - left. exists (a ++ b). intros g. rewrite (bind_ok _ _ _ (A g)), B. now rewrite acts_app.
  - right. intros g u g' H. apply bind_inv_ok in H. destruct H as (x & g1 & _ & H). exact (B _ _ _ H).
  - right. intros g u g' H. apply bind_inv_ok in H. destruct H as (x & g1 & H & _). exact (A _ _ _ H).
  - right. intros g u g' H. apply bind_inv_ok in H. destruct H as (x & g1 & H & _). exact (A _ _ _ H).
Qed.
Lemma traced_if (b : bool) m : traced m -> traced (if b then m else ret tt).
Proof. destruct b; [easy|]. intros _. apply traced_ret. Qed.
Lemma traced_iter {A} (f : A -> GM unit) l : (forall x, traced (f x)) -> traced (iterM f l).
Proof. intros H. induction l as [|x l IH]; cbn [iterM]; [apply traced_ret|]. now apply traced_seq. Qed.
Lemma traced_gaux (w : world) i (k : sampler E -> GM unit) : (forall a, traced (k a)) -> traced (let! x := gaux (w_auxs w) i in k x).
Proof.
  intros H. destruct (nth_error (w_auxs w) i) as [a|] eqn:A.
  - destruct (H a) as [(o & O)|N].
    + left. exists o. intros g. rewrite (gaux_bind E w i a k g A). apply O.
    + right. intros g u g'. rewrite (gaux_bind E w i a k g A). apply N.
  - right. intros g u g' Q. apply gaux_inv in Q. destruct Q as (a & A' & _). unfold at_ in A'. congruence.
Qed.
Lemma traced_assert b : traced (lift (rassert b)).
Proof. destruct b; [left; exists nil; reflexivity|right]. intros g u g' H. discriminate. Qed.

Definition touches (b : sampler E) (k p : string) : list op :=
  [ONode k (Some false); OEdge k p] ++ (if a_observed (a_st b) then [ONode (obs_name_of b) (Some false); OEdge k (obs_name_of b)] else []).
Lemma touch_acts b k p g : touch E b k p g = acts (touches b k p) g.
Proof. unfold touch, touches. now destruct (a_observed (a_st b)). Qed.

Lemma props_traced fuel : forall (w : world) i p,
  (exists ops s, forall g, sec_props fuel (w_auxs w) i p (Some g) = (Ok s, Some (acts ops g))) \/
  (forall g s G', sec_props fuel (w_auxs w) i p (Some g) <> (Ok s, G')).
Proof.
  induction fuel as [|fuel IH]; intros w i p; [right; intros g s G' H; discriminate|].
  destruct (nth_error (w_auxs w) i) as [a|] eqn:A; [|right; intros g s G' H; rewrite sec_props_eq, A in H; discriminate].
  assert (X : forall l acc, (exists ops s, forall g, foldM (prop_step E fuel (w_auxs w) p) acc l (Some g) = (Ok s, Some (acts ops g))) \/
    (forall g s G', foldM (prop_step E fuel (w_auxs w) p) acc l (Some g) <> (Ok s, G'))).
  { induction l as [|[k j] l IHl]; intros acc; cbn [foldM]; [left; exists nil, acc; reflexivity|].
    destruct (nth_error (w_auxs w) j) as [b|] eqn:B.
    2:{ right. intros g s G' H. apply bind_inv_ok in H. destruct H as (x & G1 & H & _). apply prop_step_inv in H.
        destruct H as (b & t & B' & _). unfold at_ in B'. congruence. }
    assert (ST : forall g, prop_step E fuel (w_auxs w) p acc (k, j) (Some g) =
      if a_usesd (a_st b) then (Err AttributeError, Some (touch E b k p g))
      else (let! s := sec_props fuel (w_auxs w) j k in ret (st_add acc s)) (Some (touch E b k p g))).
    { intros g. exact (prop_step_eq E fuel w p acc k j (Some g) b B). }
    destruct (a_usesd (a_st b)).
    { right. intros g s G' H. apply bind_inv_ok in H. destruct H as (x & G1 & H & _). rewrite ST in H. discriminate. }
    destruct (IH w j k) as [(o1 & t & O1)|N].
    2:{ right. intros g s G' H. apply bind_inv_ok in H. destruct H as (x & G1 & H & _). rewrite ST in H.
        apply bind_inv_ok in H. destruct H as (y & G2 & H & _). exact (N _ _ _ H). }
    assert (ST2 : forall g, prop_step E fuel (w_auxs w) p acc (k, j) (Some g) = (Ok (st_add acc t), Some (acts o1 (acts (touches b k p) g)))).
    { intros g. rewrite ST, (bind_ok _ _ _ (O1 _)), touch_acts. reflexivity. }
    destruct (IHl (st_add acc t)) as [(o2 & s & O2)|N].
    - left. exists ((touches b k p ++ o1) ++ o2), s. intros g. rewrite (bind_ok _ _ _ (ST2 g)), O2. do 2 f_equal. now rewrite <- !acts_app.
    - right. intros g s G' H. rewrite (bind_ok _ _ _ (ST2 g)) in H. exact (N _ _ _ H). }
  destruct (X (a_sec (a_ln a)) nil) as [(o & s & O)|N].
  - left. eexists o, _. intros g. rewrite sec_props_eq, A, (bind_ok _ _ _ (O g)). reflexivity.
  - right. intros g s G' H. rewrite sec_props_eq, A in H. apply bind_inv_ok in H. destruct H as (x & G1 & H & _). exact (N _ _ _ H).
Qed.
Lemma traced_props rl (w : world) i p : traced (gprops rl (w_auxs w) i p).
Proof.
  destruct (props_traced rl w i p) as [(o & s & O)|N].
  - left. exists o. intros g. unfold gprops. now rewrite O.
  - right. intros g u g' H. unfold gprops in H. destruct (sec_props rl (w_auxs w) i p (Some g)) as [[s|x] G] eqn:Q; [exact (N _ _ _ Q)|].
    destruct G; discriminate.
Qed.

Lemma traced_build rl (w : world) spn lumn der aux : traced (build_graph rl (w_auxs w) spn lumn der aux).
Proof.
  unfold build_graph. apply traced_seq; [apply traced_node|]. apply traced_seq; [apply traced_edge|]. apply traced_seq.
  - destruct der as [i|].
    + apply traced_gaux. intros a. apply traced_seq; [apply traced_node|]. apply traced_seq; [apply traced_edge|].
      apply traced_seq; [apply traced_if, traced_edge|]. apply traced_iter. intros kv.
      apply traced_seq; [apply traced_node|]. apply traced_seq; [apply traced_edge|]. apply traced_props.
    + destruct lumn as [l|]; [apply traced_edge|]. right. intros g u g' H. discriminate.
  - apply traced_iter. intros [k i]. apply traced_gaux. intros a. apply traced_seq; [apply traced_assert|].
    apply traced_seq; [apply traced_node|]. apply traced_seq.
    + apply traced_if. apply traced_seq; [apply traced_node|]. apply traced_seq; [apply traced_edge|]. apply traced_if, traced_edge.
    + apply traced_iter. intros kv. apply traced_gaux. intros b. apply traced_seq; [apply traced_edge|]. apply traced_seq; [apply traced_node|].
      apply traced_seq; [apply traced_if, traced_edge|]. apply traced_seq; [|apply traced_props].
      apply traced_if. apply traced_seq; [apply traced_node|apply traced_edge].
Qed.

Theorem graph_twice rl (y : synth) g y' : read_graph rl y = (Ok g, y') -> NoDup (dkeys (gr_nodes (y_graph y))) ->
  read_graph rl y' = (Ok g, y').
Proof.
  intros H N. unfold read_graph in H.
  destruct (traced_build rl (y_w y) (sd_name (y_sp y)) (option_map (fun l => ld_name l) (y_lum y)) (y_der y) (y_aux y)) as [(o & O)|X].
  - rewrite O in H. cbn in H. injection H as <- <-. unfold read_graph. cbn [y_w y_sp y_lum y_der y_aux y_graph with_graph].
    rewrite O, (acts_twice o _ N). reflexivity.
  - exfalso. destruct (build_graph _ _ _ _ _ _ _) as [[u|x] g1] eqn:Q; [exact (X _ _ _ Q)|discriminate].
Qed.
End P.
