(** Populations after they were returned (C75). *)
From Coq Require Import ZArith List String Lia.
From Verif Require Import Base BaseFacts Keeps Env ParamModel SelModel DistModel DistSpec DistProofs AuxModel AuxSpec AuxProofs SimVarModel PopModel SynthModel SynthSpec SynthFrame SynthInv ShareModel ShareSpec.
From Verif Require SurveyPop SurveyProofs SurveyTop SurveyRuns.
Import ListNotations.
Open Scope list_scope.

(** ** Graphs *)
Inductive gop := ONode (k : string) (b : option bool) | OEdge (u v : string).
Definition gdo (o : gop) (g : graph) : graph := match o with ONode k b => add_node k b g | OEdge u v => add_edge u v g end.
Definition gdos (l : list gop) (g : graph) : graph := fold_left (fun g o => gdo o g) l g.
Lemma gdos_app l1 l2 g : gdos (l1 ++ l2) g = gdos l2 (gdos l1 g). Proof. apply fold_left_app. Qed.

Lemma node_get k b g j : dget (gr_nodes (add_node k b g)) j =
  if String.eqb j k then Some (match b with Some x => Some x | None => match dget (gr_nodes g) k with Some x => x | None => None end end) else dget (gr_nodes g) j.
Proof.
  unfold add_node. destruct b as [x|].
  - cbn [gr_nodes]. rewrite dget_dset. destruct (String.eqb_spec j k); reflexivity.
  - destruct (dget (gr_nodes g) k) as [x|] eqn:D.
    + destruct (String.eqb_spec j k) as [->|]; [exact D|reflexivity].
    + cbn [gr_nodes]. rewrite dget_dset. destruct (String.eqb_spec j k); reflexivity.
Qed.
Lemma node_edges k b g : gr_edges (add_node k b g) = gr_edges g.
Proof. unfold add_node. destruct b, (dget (gr_nodes g) k); reflexivity. Qed.
(** The nodes and edges an action mentions. *)
Definition mentions (o : gop) (k : string) : Prop := match o with ONode j _ => k = j | OEdge u v => k = u \/ k = v end.
Definition has_node (g : graph) k := exists x, dget (gr_nodes g) k = Some x.
Definition has_edge (g : graph) u v := existsb (edge_eqb (u, v)) (gr_edges g) = true.
Lemma edge_get u v g j : dget (gr_nodes (add_edge u v g)) j = if String.eqb j u || String.eqb j v then Some (match dget (gr_nodes g) j with Some x => x | None => None end) else dget (gr_nodes g) j.
Proof.
  unfold add_edge. cbn [gr_nodes]. rewrite !node_get. destruct (String.eqb_spec j v) as [<-|NV].
  - destruct (String.eqb_spec j u) as [<-|NU]; reflexivity.
  - rewrite Bool.orb_false_r. destruct (String.eqb_spec j u) as [<-|NU]; reflexivity.
Qed.
Lemma edge_edges u v g : gr_edges (add_edge u v g) = if existsb (edge_eqb (u, v)) (gr_edges g) then gr_edges g else gr_edges g ++ [(u, v)].
Proof. unfold add_edge. cbn [gr_edges]. now rewrite !node_edges. Qed.
(** The attribute the actions give to a node. *)
Fixpoint given (l : list gop) (k : string) : option bool :=
  match l with
  | [] => None
  | o :: r => match given r k with
              | Some b => Some b
              | None => match o with ONode j (Some b) => if String.eqb k j then Some b else None | _ => None end
              end
  end.
Lemma has_do o g k : has_node g k -> has_node (gdo o g) k.
Proof.
  intros (x & H). unfold has_node. destruct o as [j b|u v]; cbn [gdo]; rewrite ?node_get, ?edge_get.
  - destruct (String.eqb k j); eauto.
  - destruct (_ || _)%bool; eauto.
Qed.
Lemma has_done o g k : mentions o k -> has_node (gdo o g) k.
Proof.
  unfold has_node. destruct o as [j b|u v]; cbn [mentions gdo]; rewrite ?node_get, ?edge_get.
  - intros ->. rewrite String.eqb_refl. eauto.
  - intros [->| ->]; rewrite String.eqb_refl, ?Bool.orb_true_r; cbn; eauto.
Qed.
Lemma has_dos l : forall g k, has_node g k \/ (exists o, In o l /\ mentions o k) -> has_node (gdos l g) k.
Proof.
  induction l as [|o l IH]; intros g k H; cbn.
  - destruct H as [H|(o & [] & _)]. exact H.
  - apply IH. destruct H as [H|(o' & [->|I] & M)]; [left; now apply has_do|left; now apply has_done|right; eauto].
Qed.
Lemma edge_in u v l : existsb (edge_eqb (u, v)) l = true <-> In (u, v) l.
Proof.
  rewrite existsb_exists. unfold edge_eqb. cbn [fst snd]. split.
  - intros ([a b] & I & H). apply Bool.andb_true_iff in H. destruct H as [H1 H2]. cbn in *. apply String.eqb_eq in H1, H2. now subst.
  - intros I. exists (u, v). cbn. now rewrite !String.eqb_refl.
Qed.
Lemma edges_do o g e : In e (gr_edges g) -> In e (gr_edges (gdo o g)).
Proof. destruct o; cbn [gdo]; rewrite ?node_edges, ?edge_edges; [easy|]. destruct (existsb _ _); [easy|]. rewrite in_app_iff. tauto. Qed.
Lemma edges_dos l : forall g u v, In (u, v) (gr_edges g) \/ In (OEdge u v) l -> In (u, v) (gr_edges (gdos l g)).
Proof.
  induction l as [|o l IH]; intros g u v H; cbn.
  - destruct H as [H|[]]. exact H.
  - apply IH. destruct H as [H|[->|I]]; [left; now apply edges_do| |now right]. left. cbn [gdo]. rewrite edge_edges.
    destruct (existsb _ _) eqn:X; [now apply edge_in|]. rewrite in_app_iff. right. now left.
Qed.
(** Attributes after the actions. *)
Lemma attr_dos l : forall g k, has_node g k ->
  dget (gr_nodes (gdos l g)) k = match given l k with Some b => Some (Some b) | None => dget (gr_nodes g) k end.
Proof.
  induction l as [|o l IH]; intros g k H; cbn [gdos fold_left given]; [reflexivity|]. fold (gdos l (gdo o g)). rewrite (IH _ _ (has_do o g k H)).
  destruct (given l k) as [b|]; [reflexivity|]. destruct H as (x & H). destruct o as [j [b|]|u v]; cbn [gdo]; rewrite ?node_get, ?edge_get, ?H.
  - destruct (String.eqb_spec k j) as [->|]; reflexivity.
  - destruct (String.eqb_spec k j) as [->|]; [now rewrite H|reflexivity].
  - destruct (_ || _)%bool; reflexivity.
Qed.
Lemma attr_given l : forall g k b, given l k = Some b -> dget (gr_nodes (gdos l g)) k = Some (Some b).
Proof.
  induction l as [|o l IH]; intros g k b H; cbn [gdos fold_left given] in *; [discriminate|]. fold (gdos l (gdo o g)).
  destruct (given l k) as [b'|] eqn:G; [injection H as <-; now apply IH|]. destruct o as [j [b0|]|u v]; try discriminate H.
  destruct (String.eqb_spec k j) as [->|]; [|discriminate H]. injection H as ->.
  rewrite attr_dos by (apply has_done; reflexivity). rewrite G. cbn [gdo]. rewrite node_get, String.eqb_refl. reflexivity.
Qed.
Lemma edges_stay l : forall g, (forall u v, In (OEdge u v) l -> In (u, v) (gr_edges g)) -> gr_edges (gdos l g) = gr_edges g.
Proof.
  induction l as [|o l IH]; intros g H; cbn [gdos fold_left]; [reflexivity|]. fold (gdos l (gdo o g)).
  assert (Q : gr_edges (gdo o g) = gr_edges g).
  { destruct o as [j b|u v]; cbn [gdo]; [apply node_edges|]. rewrite edge_edges. rewrite (proj2 (edge_in u v _)); [reflexivity|]. apply H. now left. }
  rewrite IH; [exact Q|]. intros u v I. rewrite Q. apply H. now right.
Qed.
Lemma nodes_stay l : forall g k, (exists o, In o l /\ mentions o k) \/ ~ (exists o, In o l /\ mentions o k) -> (forall o, In o l -> mentions o k -> has_node g k) -> ~ has_node g k ->
  dget (gr_nodes (gdos l g)) k = dget (gr_nodes g) k.
Proof.
  induction l as [|o l IH]; intros g k DEC H N; cbn [gdos fold_left]; [reflexivity|]. fold (gdos l (gdo o g)).
  assert (NM : ~ mentions o k) by (intros M; apply N; eapply H; [now left|exact M]).
  assert (Q : dget (gr_nodes (gdo o g)) k = dget (gr_nodes g) k).
  { destruct o as [j b|u v]; cbn [gdo mentions] in *; rewrite ?node_get, ?edge_get.
    - destruct (String.eqb_spec k j); [easy|reflexivity].
    - destruct (String.eqb_spec k u), (String.eqb_spec k v); cbn; tauto || reflexivity. }
  rewrite IH; [exact Q| | |].
  - right. intros (o' & I & M). apply N. eapply H; [right; exact I|exact M].
  - intros o' I M. exfalso. apply N. eapply H; [right; exact I|exact M].
  - unfold has_node. rewrite Q. exact N.
Qed.
(** Doing it again changes nothing. *)
Lemma gdos_twice l g : same_graph (gdos l g) (gdos l (gdos l g)).
Proof.
  split.
  - intros k. destruct (dget (gr_nodes (gdos l g)) k) as [x|] eqn:D.
    + rewrite attr_dos by (exists x; exact D). destruct (given l k) as [b|] eqn:G; [|now rewrite D]. rewrite (attr_given _ _ _ _ G) in D. now injection D as <-.
    + rewrite nodes_stay; [now rewrite D| | |].
      * right. intros (o & I & M). destruct (has_dos l g k (or_intror (ex_intro _ o (conj I M)))) as (x & X). congruence.
      * intros o I M. apply has_dos. right. eauto.
      * intros (x & X). congruence.
  - symmetry. apply edges_stay. intros u v I. apply edges_dos. now right.
Qed.
Lemma same_graph_refl g : same_graph g g. Proof. split; reflexivity. Qed.
Lemma same_graph_trans a b c : same_graph a b -> same_graph b c -> same_graph a c.
Proof. intros [A1 A2] [B1 B2]. split; [intros k; now rewrite A1|congruence]. Qed.
Lemma gdo_same o g g' : same_graph g g' -> same_graph (gdo o g) (gdo o g').
Proof.
  intros [A B]. split; destruct o; cbn [gdo]; intros; rewrite ?node_get, ?edge_get, ?node_edges, ?edge_edges, <- ?A, <- ?B; reflexivity.
Qed.
Lemma gdos_same l : forall g g', same_graph g g' -> same_graph (gdos l g) (gdos l g').
Proof. induction l as [|o l IH]; intros g g' H; cbn; [exact H|]. apply IH. now apply gdo_same. Qed.

Section Build.
Variable E : env.
Definition wires (h : list (sampler E)) := map (fun a => (a_st a, a_ln a)) h.
(** What the computation does depends on the wiring only. *)
Definition fixed_actions (f : list (sampler E) -> GM unit) (h : list (sampler E)) : Prop :=
  exists r l, forall h', wires h' = wires h -> forall g, f h' g = (r, gdos l g).
Lemma fx_ret h (f : list (sampler E) -> GM unit) : (forall h', f h' = ret tt) -> fixed_actions f h. Proof. intros H. exists (Ok tt), []. intros h' _ g. rewrite H. reflexivity. Qed.
Lemma fx_raise h e : fixed_actions (fun _ => raise e) h. Proof. exists (Err e), []. reflexivity. Qed.
Lemma fx_node h k b : fixed_actions (fun _ => gnode k b) h. Proof. exists (Ok tt), [ONode k b]. reflexivity. Qed.
Lemma fx_edge h u v : fixed_actions (fun _ => gedge u v) h. Proof. exists (Ok tt), [OEdge u v]. reflexivity. Qed.
Lemma fx_lift h (r : res unit) : fixed_actions (fun _ => lift r) h. Proof. exists r, []. reflexivity. Qed.
Lemma fx_seq h (f k : list (sampler E) -> GM unit) : fixed_actions f h -> fixed_actions k h -> fixed_actions (fun h => f h ;; k h) h.
Proof.
  intros (r & l & F) (r2 & l2 & K). destruct r as [[]|e].
  - exists r2, (l ++ l2). intros h' W g. unfold bind. rewrite (F h' W), gdos_app. apply K. exact W.
  - exists (Err e), l. intros h' W g. unfold bind. now rewrite (F h' W).
Qed.
Lemma fx_if h (b : bool) (f k : list (sampler E) -> GM unit) : fixed_actions f h -> fixed_actions k h -> fixed_actions (fun h => if b then f h else k h) h.
Proof. now destruct b. Qed.
Lemma fx_iter h {A} (f : list (sampler E) -> A -> GM unit) xs : (forall x, fixed_actions (fun h => f h x) h) -> fixed_actions (fun h => iterM (f h) xs) h.
Proof. intros F. induction xs as [|x xs IH]; cbn [iterM]; [now apply fx_ret|]. apply (fx_seq h (fun h => f h x) (fun h => iterM (f h) xs)); [apply F|exact IH]. Qed.
Lemma wires_nth h h' i : wires h' = wires h ->
  match nth_error h i, nth_error h' i with
  | Some a, Some a' => a_st a' = a_st a /\ a_ln a' = a_ln a
  | None, None => True
  | _, _ => False
  end.
Proof.
  intros W. assert (X := f_equal (fun l => nth_error l i) W). cbn in X. unfold wires in X. rewrite !nth_error_map in X.
  destruct (nth_error h i), (nth_error h' i); cbn in X; try discriminate; [injection X; auto|exact I].
Qed.
Lemma fx_aux h i (k : sampler E -> list (sampler E) -> GM unit) :
  (forall a a', a_st a' = a_st a -> a_ln a' = a_ln a -> k a' = k a) -> (forall a, fixed_actions (k a) h) ->
  fixed_actions (fun h => bind (gaux h i) (fun a => k a h)) h.
Proof.
  intros K F. destruct (nth_error h i) as [a|] eqn:N.
  - destruct (F a) as (r & l & Q). exists r, l. intros h' W g. assert (X := wires_nth _ _ i W). rewrite N in X. unfold gaux, bind, lift.
    destruct (nth_error h' i) as [a'|]; [|easy]. cbn [of_opt]. rewrite (K a a' (proj1 X) (proj2 X)). apply Q. exact W.
  - exists (Err Unmodelled), []. intros h' W g. assert (X := wires_nth _ _ i W). rewrite N in X. unfold gaux, bind, lift. destruct (nth_error h' i); [easy|reflexivity].
Qed.

(** [sec_props] with a graph. *)
Lemma props_actions rl : forall h i pr, exists (ok : res unit) l, forall h', wires h' = wires h -> forall g,
  exists r, sec_props rl h' i pr (Some g) = (r, Some (gdos l g)) /\ rmap (fun _ => tt) r = ok.
Proof.
  induction rl as [|rl IH]; intros h i pr.
  - exists (Err RecursionError), []. intros h' W g. eexists. split; reflexivity.
  - destruct (nth_error h i) as [a|] eqn:N.
    + pose (step := fun (h' : list (sampler E)) (acc : storage E) (kv : string * nat) =>
            let (k, j) := kv in
            match nth_error h' j with
            | None => raise Unmodelled
            | Some b =>
                bind get (fun g => bind (match g with
                | None => ret tt
                | Some g =>
                    let g1 := add_edge k pr (add_node k (Some false) g) in
                    let g2 := if a_observed (a_st b)
                              then add_edge k (obs_name_of b) (add_node (obs_name_of b) (Some false) g1)
                              else g1 in
                    put (Some g2) ;;
                    (if a_usesd (a_st b) then raise AttributeError else ret tt)
                end) (fun _ => bind (sec_props rl h' j k) (fun s => ret (st_add acc s))))
            end : M (option graph) (storage E)).
      assert (LOOP : forall secs, exists (ok : res unit) l, forall h', wires h' = wires h -> forall acc g,
                exists r, foldM (step h') acc secs (Some g) = (r, Some (gdos l g)) /\ rmap (fun _ => tt) r = ok).
      { induction secs as [|[k j] secs IHs].
        - exists (Ok tt), []. intros h' W acc g. eexists. split; reflexivity.
        - destruct IHs as (ok & l & IHs). destruct (nth_error h j) as [b|] eqn:NJ.
          + pose (l0 := [ONode k (Some false); OEdge k pr] ++ (if a_observed (a_st b) then [ONode (obs_name_of b) (Some false); OEdge k (obs_name_of b)] else [])).
            destruct (a_usesd (a_st b)) eqn:UD.
            * exists (Err AttributeError), l0. intros h' W acc g. assert (X := wires_nth _ _ j W). rewrite NJ in X. cbn [foldM]. unfold bind, step at 1.
              destruct (nth_error h' j) as [b'|]; [|easy]. destruct X as [X1 X2]. unfold obs_name_of. rewrite X1, UD. cbv beta zeta. unfold bind, get, put, raise. exists (Err AttributeError). split; [|reflexivity].
              unfold l0, obs_name_of. destruct (a_observed (a_st b)); reflexivity.
            * destruct (IH h j k) as (okj & lj & IHj). destruct okj as [[]|e].
              -- exists ok, (l0 ++ lj ++ l). intros h' W acc g. assert (X := wires_nth _ _ j W). rewrite NJ in X. cbn [foldM]. unfold bind, step at 1.
                 destruct (nth_error h' j) as [b'|]; [|easy]. destruct X as [X1 X2]. unfold obs_name_of. rewrite X1, UD. cbv beta zeta. unfold bind, get, put, ret.
                 destruct (IHj h' W (gdos l0 g)) as (r & HR & RR). rewrite !gdos_app.
                 assert (HR' := HR). unfold l0, obs_name_of in HR'. 
                 replace (if a_observed (a_st b) then add_edge k (a_name (a_st b) ++ "_obs")%string (add_node (a_name (a_st b) ++ "_obs")%string (Some false) (add_edge k pr (add_node k (Some false) g))) else add_edge k pr (add_node k (Some false) g))
                   with (gdos l0 g) by (unfold l0, obs_name_of; destruct (a_observed (a_st b)); reflexivity).
                 rewrite HR. destruct r as [s|]; [|discriminate RR]. apply (IHs h' W).
              -- exists (Err e), (l0 ++ lj). intros h' W acc g. assert (X := wires_nth _ _ j W). rewrite NJ in X. cbn [foldM]. unfold bind, step at 1.
                 destruct (nth_error h' j) as [b'|]; [|easy]. destruct X as [X1 X2]. unfold obs_name_of. rewrite X1, UD. cbv beta zeta. unfold bind, get, put, ret.
                 destruct (IHj h' W (gdos l0 g)) as (r & HR & RR). rewrite !gdos_app.
                 replace (if a_observed (a_st b) then add_edge k (a_name (a_st b) ++ "_obs")%string (add_node (a_name (a_st b) ++ "_obs")%string (Some false) (add_edge k pr (add_node k (Some false) g))) else add_edge k pr (add_node k (Some false) g))
                   with (gdos l0 g) by (unfold l0, obs_name_of; destruct (a_observed (a_st b)); reflexivity).
                 rewrite HR. destruct r as [s|e']; [discriminate RR|]. eexists. split; [reflexivity|exact RR].
          + exists (Err Unmodelled), []. intros h' W acc g. assert (X := wires_nth _ _ j W). rewrite NJ in X. cbn [foldM]. unfold bind, step at 1.
            destruct (nth_error h' j); [easy|]. eexists. split; reflexivity. }
      destruct (LOOP (a_sec (a_ln a))) as (ok & l & HL). exists ok, l. intros h' W g. assert (X := wires_nth _ _ i W). rewrite N in X. cbn [sec_props].
      destruct (nth_error h' i) as [a'|]; [|easy]. destruct X as [X1 X2]. rewrite X2.
      destruct (HL h' W [] g) as (r & HR & RR). unfold bind. change (foldM _ nil (a_sec (a_ln a)) (Some g)) with (foldM (step h') [] (a_sec (a_ln a)) (Some g)).
      rewrite HR. destruct r as [s|e]; eexists; (split; [reflexivity|]); exact RR.
    + exists (Err Unmodelled), []. intros h' W g. assert (X := wires_nth _ _ i W). rewrite N in X. cbn [sec_props]. destruct (nth_error h' i); [easy|]. eexists. split; reflexivity.
Qed.
Lemma fx_props rl h i pr : fixed_actions (fun h => gprops rl h i pr) h.
Proof.
  destruct (props_actions rl h i pr) as (ok & l & H). exists ok, l. intros h' W g. destruct (H h' W g) as (r & HR & RR). unfold gprops. rewrite HR. now rewrite RR.
Qed.
Lemma build_actions rl h spn lumn der aux : fixed_actions (fun h => build_graph rl h spn lumn der aux) h.
Proof.
  unfold build_graph. apply fx_seq; [apply fx_node|]. apply fx_seq; [apply fx_edge|]. apply fx_seq.
  - destruct der as [i|].
    + unfold graph_derived. apply (fx_aux h i (fun a h => gnode (name_of a) None ;; gedge (name_of a) "obs_flux" ;; (if a_usesd (a_st a) then gedge spn (name_of a) else ret tt) ;;
        iterM (fun kv => gnode (fst kv) None ;; gedge (fst kv) (name_of a) ;; gprops rl h (snd kv) (fst kv)) (a_sec (a_ln a)))).
      * intros a a' S L. unfold name_of. now rewrite S, L.
      * intros a. apply fx_seq; [apply fx_node|]. apply fx_seq; [apply fx_edge|]. apply fx_seq; [apply fx_if; [apply fx_edge|now apply fx_ret]|].
        apply (fx_iter h (fun h kv => gnode (fst kv) None ;; gedge (fst kv) (name_of a) ;; gprops rl h (snd kv) (fst kv))). intros kv.
        apply fx_seq; [apply fx_node|]. apply fx_seq; [apply fx_edge|]. apply fx_props.
    + destruct lumn; [apply fx_edge|apply fx_raise].
  - apply (fx_iter h (fun h kv => graph_aux rl h spn kv)). intros kv. unfold graph_aux.
    apply (fx_aux h (snd kv) (fun a h => lift (rassert (negb (a_issec (a_ln a)))) ;; gnode (fst kv) (Some false) ;;
      (if a_observed (a_st a) then gnode (obs_name_of a) (Some false) ;; gedge (fst kv) (obs_name_of a) ;; (if a_usesd (a_st a) then gedge spn (fst kv) else ret tt) else ret tt) ;;
      iterM (fun kv2 => bind (gaux h (snd kv2)) (fun b => gedge (fst kv2) (fst kv) ;; gnode (fst kv2) (Some false) ;; (if a_usesd (a_st b) then gedge spn (fst kv2) else ret tt) ;;
        (if a_observed (a_st b) then gnode (obs_name_of b) (Some true) ;; gedge (fst kv2) (obs_name_of b) else ret tt) ;; gprops rl h (snd kv2) (fst kv2))) (a_sec (a_ln a)))).
    + intros a a' S L. unfold obs_name_of. now rewrite S, L.
    + intros a. apply fx_seq; [apply fx_lift|]. apply fx_seq; [apply fx_node|]. apply fx_seq.
      * apply fx_if; [|now apply fx_ret]. apply fx_seq; [apply fx_node|]. apply fx_seq; [apply fx_edge|]. apply fx_if; [apply fx_edge|now apply fx_ret].
      * apply (fx_iter h (fun h kv2 => bind (gaux h (snd kv2)) (fun b => gedge (fst kv2) (fst kv) ;; gnode (fst kv2) (Some false) ;; (if a_usesd (a_st b) then gedge spn (fst kv2) else ret tt) ;;
          (if a_observed (a_st b) then gnode (obs_name_of b) (Some true) ;; gedge (fst kv2) (obs_name_of b) else ret tt) ;; gprops rl h (snd kv2) (fst kv2)))). intros kv2.
        apply (fx_aux h (snd kv2) (fun b h => gedge (fst kv2) (fst kv) ;; gnode (fst kv2) (Some false) ;; (if a_usesd (a_st b) then gedge spn (fst kv2) else ret tt) ;;
          (if a_observed (a_st b) then gnode (obs_name_of b) (Some true) ;; gedge (fst kv2) (obs_name_of b) else ret tt) ;; gprops rl h (snd kv2) (fst kv2))).
        -- intros b b' S L. unfold obs_name_of. now rewrite S.
        -- intros b. apply fx_seq; [apply fx_edge|]. apply fx_seq; [apply fx_node|]. apply fx_seq; [apply fx_if; [apply fx_edge|now apply fx_ret]|].
           apply fx_seq; [|apply fx_props]. apply fx_if; [|now apply fx_ret]. apply fx_seq; [apply fx_node|apply fx_edge].
Qed.
End Build.

(** ** Surveys *)
Section Survey.
Variable E : env.
Definition same_g (y y' : synth E) : Prop := y_graph y' = y_graph y.
Lemma sgr y : same_g y y. Proof. reflexivity. Qed.
Lemma sgt a b c : same_g a b -> same_g b c -> same_g a c. Proof. unfold same_g. congruence. Qed.
Lemma in_w_sg A (m : AM E A) : keeps same_g (in_w m).
Proof. intros y. unfold in_w. destruct (m (y_w y)). reflexivity. Qed.
Lemma in_sp_sg A (m : DM E A) : keeps same_g (in_sp m).
Proof. intros y. unfold in_sp. destruct (m (y_sp y, w_g (y_w y))) as [r [d g]]. reflexivity. Qed.
Lemma in_lum_sg A (m : LM E A) : keeps same_g (in_lum m).
Proof. intros y. unfold in_lum. destruct (y_lum y); [|reflexivity]. destruct (m _) as [r [d g]]. reflexivity. Qed.
Lemma in_g_sg A (m : M (Rst E) A) : keeps same_g (in_g m).
Proof. intros y. unfold in_g. destruct (m (w_g (y_w y))). reflexivity. Qed.
Hint Resolve in_w_sg in_sp_sg in_lum_sg in_g_sg : sg.
Ltac kg := repeat first
  [ match goal with
    | |- keeps _ (bind _ _) => apply keeps_bind; [exact sgt| |intros ?]
    | |- keeps _ (iterM _ _) => apply keeps_iter; [exact sgr|exact sgt|intros ?]
    | |- keeps _ (foldM _ _ _) => apply keeps_fold; [exact sgr|exact sgt|intros ? ?]
    | |- keeps _ (ret _) => apply keeps_ret; exact sgr
    | |- keeps _ (raise _) => apply keeps_raise; exact sgr
    | |- keeps _ (lift _) => apply keeps_lift; exact sgr
    | |- keeps _ get => apply keeps_get; exact sgr
    | |- keeps _ (gets _) => apply keeps_gets; exact sgr
    end
  | solve [trivial with sg]
  | match goal with
    | |- keeps _ (let _ := _ in _) => cbv zeta
    | |- keeps _ (match ?x with _ => _ end) => destruct x
    | |- keeps _ (if ?x then _ else _) => destruct x
    | |- keeps _ (let (_, _) := ?x in _) => destruct x
    end ].
Lemma size_sg ns norm : keeps same_g (@survey_size E ns norm).
Proof. unfold survey_size. kg. intros y. reflexivity. Qed.
Lemma times_sg p q : keeps same_g (@times E p q). Proof. unfold times. kg. Qed.
Hint Resolve times_sg : sg.
Lemma add_truth_sg i t : keeps same_g (@add_truth E i t). Proof. unfold add_truth, sampler_truth. kg. Qed.
Lemma get_sp_sg : keeps same_g (@get_sp E). Proof. unfold get_sp. kg. Qed.
Lemma props_sg rl i : keeps same_g (@props E rl i). Proof. unfold props. kg. Qed.
Lemma check_len_sg n i : keeps same_g (@check_len E n i). Proof. unfold check_len. kg. Qed.
Hint Resolve add_truth_sg get_sp_sg props_sg check_len_sg : sg.
Lemma lum_sg prog rl n p t : keeps same_g (@survey_lum E prog rl n p t). Proof. unfold survey_lum. kg. Qed.
Lemma aux_sg prog rl n l acc kv : keeps same_g (@survey_aux E prog rl n l acc kv). Proof. unfold survey_aux. kg. Qed.
Lemma flux_sg sg l10 n f : keeps same_g (@survey_flux E sg l10 n f). Proof. unfold survey_flux. kg. Qed.
Lemma step_sg prog n s2 ss : keeps same_g (spatial_step E prog n s2 ss). Proof. unfold spatial_step. kg. Qed.
Lemma sg_ok A (m : YM E A) y r y1 : keeps same_g m -> m y = (r, y1) -> same_g y y1.
Proof. intros K H. specialize (K y). now rewrite H in K. Qed.

Section One.
Variables (prog : bool) (fuel rl : nat) (fs : option (V E)) (l10 : bool) (ns : option nat) (norm : bool) (y : synth E) (p : population E) (y' : synth E).
Hypothesis H : draw_survey prog fuel rl fs l10 ns norm y = (Ok p, y').
Lemma graph_end : exists z g, same_g y z /\ yframe E y z /\ read_graph rl z = (Ok g, y') /\ pa_graph (p_args p) = g.
Proof.
  destruct (survey_steps _ _ _ _ _ _ _ _ _ _ _ H) as (t & S). exists (tr_rmd E t), (tr_g E t).
  assert (G := sp_g _ _ _ _ _ _ _ _ _ _ _ _ S).
  destruct (sp_fsel _ _ _ _ _ _ _ _ _ _ _ _ S) as (y1 & H1 & H2).
  assert (A1 := sg_ok _ _ _ _ _ (size_sg _ _) (sp_size _ _ _ _ _ _ _ _ _ _ _ _ S)).
  assert (A2 := sg_ok _ _ _ _ _ (in_sp_sg _ _) (sp_dist _ _ _ _ _ _ _ _ _ _ _ _ S)).
  assert (A3 := sg_ok _ _ _ _ _ (in_sp_sg _ _) (sp_sky _ _ _ _ _ _ _ _ _ _ _ _ S)).
  assert (A4 := sg_ok _ _ _ _ _ (lum_sg _ _ _ _ _) (sp_lum _ _ _ _ _ _ _ _ _ _ _ _ S)).
  assert (A5 : same_g (tr_lumd E t) (tr_auxd E t)).
  { eapply sg_ok; [|exact (sp_aux _ _ _ _ _ _ _ _ _ _ _ _ S)]. apply (keeps_fold sgr sgt). intros. apply aux_sg. }
  assert (A6 := sg_ok _ _ _ _ _ (flux_sg _ _ _ _) (sp_fobs _ _ _ _ _ _ _ _ _ _ _ _ S)).
  assert (A7 := sg_ok _ _ _ _ _ (in_w_sg _ _) H1). assert (A8 := sg_ok _ _ _ _ _ (in_w_sg _ _) H2).
  assert (A9 := sg_ok _ _ _ _ _ (step_sg _ _ _ _) (sp_s3 _ _ _ _ _ _ _ _ _ _ _ _ S)).
  assert (A10 := sg_ok _ _ _ _ _ (in_w_sg _ _) (sp_dsel _ _ _ _ _ _ _ _ _ _ _ _ S)).
  assert (A11 := sg_ok _ _ _ _ _ (in_sp_sg _ _) (sp_rm _ _ _ _ _ _ _ _ _ _ _ _ S)).
  split; [unfold same_g in *; congruence|]. split.
  - assert (K7 := SurveyPop.fsel_frame _ _ _ _ _ _ _ _ _ _ _ _ S).
    assert (K9 : yframe E (tr_fsel E t) (tr_ssel E t)).
    { assert (H17 := sp_s3 _ _ _ _ _ _ _ _ _ _ _ _ S). clear - H17. unfold spatial_step in H17. destruct (y_ssel y) as [i|]; [|unfold ret in H17; injection H17 as _ ->; apply yframe_refl].
      apply bind_inv_ok in H17. destruct H17 as (sp' & z1 & A & H17). apply get_sp_inv in A. destruct A as [-> A].
      apply bind_inv_ok in H17. destruct H17 as (s & z1 & B & H17). apply in_w_get_sel in B. destruct B as [-> B].
      apply bind_inv_ok in H17. destruct H17 as (s' & z1 & C & H17). apply lift_inv in C. destruct C as [C ->].
      apply bind_inv_ok in H17. destruct H17 as ([] & z2 & D & H17).
      apply bind_inv_ok in H17. destruct H17 as ([] & z3 & F & H17).
      apply bind_inv_ok in H17. destruct H17 as (s'' & z4 & G & H17). apply in_w_get_sel in G. destruct G as [-> G].
      apply lift_inv in H17. destruct H17 as [_ Q]. rewrite Q.
      assert (K1 : yframe E (tr_fsel E t) z2).
      { unfold in_w, put_sel, modify in D. cbn in D. injection D as <-. split; [|reflexivity]. split; [reflexivity|].
        cbn. apply map_lset with (x := s); [exact B|]. unfold set_spatial_distribution in C.
        destruct (is_spatial (s_kind s)); [|discriminate]. injection C as <-. reflexivity. }
      assert (K2 := in_w_keeps _ _ _ (on_sel_keeps _ _ i _ (sel_select_keeps _ prog (tr_n E t))) z2). rewrite F in K2. cbn in K2.
      eapply yframe_trans; eauto. }
    assert (K10 := in_w_keeps _ _ _ (on_sel_keeps _ _ (y_dsel y) _ (sel_select_keeps _ prog (count (tr_mask E t)))) (tr_ssel E t)). rewrite (sp_dsel _ _ _ _ _ _ _ _ _ _ _ _ S) in K10. cbn in K10.
    assert (K11 := in_sp_keeps _ _ _ (rd_rmax_keeps _) (tr_dsel E t)). rewrite (sp_rm _ _ _ _ _ _ _ _ _ _ _ _ S) in K11. cbn in K11.
    exact (yframe_trans _ _ _ _ K7 (yframe_trans _ _ _ _ K9 (yframe_trans _ _ _ _ K10 K11))).
  - split; [exact G|]. assert (P := sp_pop _ _ _ _ _ _ _ _ _ _ _ _ S). apply SurveyProofs.pop_new_built in P. now rewrite (SurveyProofs.bu_args _ _ _ P).
Qed.
(** Right after the survey nothing differs. *)
Lemma shows_id (y2 : synth E) (q : population E) : pa_lfpar (p_args q) = option_map (fun l => po_store (ld_par l)) (y_lum y2) -> pa_sppar (p_args q) = po_store (sd_par (y_sp y2)) ->
  pa_spaces (p_args q) = Some (y_spaces y2) -> pa_graph (p_args q) = y_graph y2 -> shows y2 q = q.
Proof. intros A B C D. unfold shows. rewrite <- A, <- B, <- C, <- D. now destruct q as [[] ? ? ? ? ? ? ? ? ? ? ?]. Qed.
Lemma returned_as_shown : shows y' p = p.
Proof.
  destruct (survey_steps _ _ _ _ _ _ _ _ _ _ _ H) as (t & S). assert (P := sp_pop _ _ _ _ _ _ _ _ _ _ _ _ S). apply SurveyProofs.pop_new_built in P. assert (B := SurveyProofs.bu_args _ _ _ P).
  destruct graph_end as (z & g & SG & F & RG & PG).
  assert (GR : y_graph y' = g /\ y_spaces y' = y_spaces y).
  { unfold read_graph in RG. destruct (build_graph _ _ _ _ _ _ _) as [r g1]. injection RG as R <-. destruct r; [|discriminate R]. injection R as ->. split; [reflexivity|].
    destruct F as [_ Q]. unfold conf_static in Q. cbn [y_spaces with_graph]. injection Q; intros; congruence. }
  destruct GR as [G1 G2]. apply shows_id; rewrite B; cbn [pa_lfpar pa_sppar pa_spaces pa_graph]; try reflexivity; [now rewrite G2|]. now rewrite G1, <- PG, B.
Qed.
Lemma wf_end : wf_par E (sc_params (sd_cls (y_sp y))) (sd_par (y_sp y)) -> (norm = true -> ns = None -> norm_value E (sd_par (y_sp y))) ->
  wf_par E (sc_params (sd_cls (y_sp y'))) (sd_par (y_sp y')).
Proof.
  intros W NV. destruct (survey_steps _ _ _ _ _ _ _ _ _ _ _ H) as (t & S).
  destruct (SurveyPop.size_ok _ _ _ _ _ _ W NV (sp_size _ _ _ _ _ _ _ _ _ _ _ _ S)) as (o1 & Q1 & S1 & W1).
  assert (HD := sp_dist _ _ _ _ _ _ _ _ _ _ _ _ S). apply SurveyPop.in_sp_inv in HD. destruct HD as (d & g' & HD & Q2 & _ & QG). rewrite Q1 in HD.
  destruct (draw_distance_ok E prog fuel (tr_n E t) norm (with_spar (y_sp y) o1) _ _ _ W1 HD) as (rs & ps & o2 & D & Q3 & S2 & W2).
  change (sd_cls (with_spar (y_sp y) o1)) with (sd_cls (y_sp y)) in *.
  assert (G := sp_sky _ _ _ _ _ _ _ _ _ _ _ _ S). apply SurveyPop.in_sp_inv in G. destruct G as (d3 & g3 & G & Q4 & _ & _). rewrite Q2 in G.
  apply SurveyPop.sky_inv in G. destruct G as (G1 & G2 & _).
  destruct (SurveyPop.tail_dists _ _ _ _ _ _ _ _ _ _ _ _ S) as [TD _]. rewrite (proj1 (SurveyPop.lumd_dists _ _ _ _ _ _ _ _ _ _ _ _ S)), Q4 in TD.
  assert (R := sp_rm _ _ _ _ _ _ _ _ _ _ _ _ S). apply SurveyPop.in_sp_inv in R. destruct R as (d4 & g4 & R & R1 & _ & _).
  assert (RG := sp_g _ _ _ _ _ _ _ _ _ _ _ _ S). unfold read_graph in RG. destruct (build_graph _ _ _ _ _ _ _) as [r gg]. injection RG as _ <-. cbn [y_sp with_graph]. rewrite R1.
  apply DistProofs.rd_rmax_inv in R. destruct R as (o & PR & -> & _). rewrite TD in *. cbn [sd_cls sd_par with_spar] in *.
  assert (C : sd_cls d3 = sd_cls (y_sp y)) by (rewrite G1, Q3; reflexivity). assert (P3 : sd_par d3 = o2) by (rewrite G2, Q3; reflexivity).
  rewrite C, P3 in *. assert (X := wf_pread E (sc_params (sd_cls (y_sp y))) "r_max" o2 W2). rewrite PR in X. exact X.
Qed.
Lemma lum_end : match y_lum y, y_lum y' with
  | Some l, Some l' => ld_cls l' = ld_cls l /\ same_reads E (lc_params (ld_cls l)) (ld_par l) (ld_par l')
  | None, None => True
  | _, _ => False
  end.
Proof.
  destruct (survey_steps _ _ _ _ _ _ _ _ _ _ _ H) as (t & S). destruct (y_der y) as [i|] eqn:DE.
  - rewrite (SurveyPop.end_lum_unused _ _ _ _ _ _ _ _ _ _ _ _ S) by congruence. destruct (y_lum y); [|exact I]. split; [reflexivity|apply same_refl].
  - assert (DE0 := SurveyFinal.sky_der _ _ _ _ _ _ _ _ _ _ _ _ S). rewrite DE in DE0.
    destruct (SurveyPop.lum_source _ _ _ _ _ _ _ _ _ _ _ _ DE0 (sp_lum _ _ _ _ _ _ _ _ _ _ _ _ S))
      as (l0 & l' & x & vals & g & g' & dv & Y1 & Y2 & LN & LC & SR & _).
    rewrite (proj1 (SurveyPop.sky_dists _ _ _ _ _ _ _ _ _ _ _ _ S)) in Y1. rewrite Y1.
    destruct (SurveyPop.end_dists _ _ _ _ _ _ _ _ _ _ _ _ S) as (o & _ & _ & ->). rewrite Y2. now split.
Qed.
End One.

(** ** Later *)
Definition shape (y : synth E) := (wires E (w_auxs (y_w y)), sd_name (y_sp y), option_map (fun l => ld_name l) (y_lum y), y_der y, y_aux y).
Lemma shape_frame y z : yframe E y z -> shape z = shape y.
Proof.
  intros [[W _] C]. unfold shape, wires. unfold same_wiring in W. rewrite W. unfold conf_static in C. injection C; intros. unfold lum_static in *.
  assert (L : option_map (fun l => ld_name l) (y_lum z) = option_map (fun l => ld_name l) (y_lum y)).
  { destruct (y_lum z), (y_lum y); cbn in *; congruence. }
  congruence.
Qed.
Lemma graph_actions rl y : exists (ok : res unit) l, forall z, shape z = shape y ->
  read_graph rl z = (rmap (fun _ => gdos l (y_graph z)) ok, with_graph z (gdos l (y_graph z))).
Proof.
  destruct (build_actions E rl (w_auxs (y_w y)) (sd_name (y_sp y)) (option_map (fun l => ld_name l) (y_lum y)) (y_der y) (y_aux y)) as (ok & l & B).
  exists ok, l. intros z SH. unfold shape in SH. injection SH as S1 S2 S3 S4 S5. unfold read_graph. rewrite S2, S3, S4, S5, (B _ S1). reflexivity.
Qed.
Record still (rl : nat) (p : population E) (y1 y : synth E) (l : list gop) : Prop := Still {
  st_shape : shape y = shape y1;
  st_graph : same_graph (y_graph y1) (y_graph y);
  st_done : same_graph (y_graph y) (gdos l (y_graph y));
  st_spaces : y_spaces y = y_spaces y1;
  st_cls : sd_cls (y_sp y) = sd_cls (y_sp y1);
  st_wf : wf_par E (sc_params (sd_cls (y_sp y))) (sd_par (y_sp y));
  st_sp : same_reads E (sc_params (sd_cls (y_sp y1))) (sd_par (y_sp y1)) (sd_par (y_sp y));
  st_lum : match y_lum y1, y_lum y with
           | Some l, Some l' => ld_cls l' = ld_cls l /\ same_reads E (lc_params (ld_cls l)) (ld_par l) (ld_par l')
           | None, None => True
           | _, _ => False
           end }.
Lemma still_later rl p y1 l : (forall z, shape z = shape y1 -> exists ok : res unit, read_graph rl z = (rmap (fun _ => gdos l (y_graph z)) ok, with_graph z (gdos l (y_graph z)))) ->
  forall y z, later rl y z -> still rl p y1 y l -> still rl p y1 z l.
Proof.
  intros ACT y z L. induction L as [y|y prog fuel fs l10 ns norm q y2 z H NV L IH|y g y2 z H L IH|y x y2 z H L IH|y x y2 z H L IH|y x y2 z H L IH]; intros ST; [exact ST| | | | |]; apply IH; clear IH L.
  - destruct (graph_end _ _ _ _ _ _ _ _ _ _ H) as (w & g & SG & F & RG & _).
    assert (SH := shape_frame _ _ F). destruct (ACT w) as (ok & A); [rewrite SH; apply ST|]. rewrite A in RG. injection RG as RG <-.
    destruct (SurveyTop.spatial_kept _ _ _ _ _ _ _ _ _ _ _ H (st_wf _ _ _ _ _ ST) NV) as (C & SR & _). assert (WE := wf_end _ _ _ _ _ _ _ _ _ _ H (st_wf _ _ _ _ _ ST) NV).
    assert (LE := lum_end _ _ _ _ _ _ _ _ _ _ H). cbn [y_sp y_lum with_graph y_graph y_spaces] in *. unfold same_g in SG. rewrite SG in *. split; cbn [y_sp y_lum with_graph y_graph y_spaces].
    + exact (eq_trans SH (st_shape _ _ _ _ _ ST)).
    + eapply same_graph_trans; [apply ST|apply ST].
    + apply gdos_twice.
    + destruct F as [_ Q]. unfold conf_static in Q. injection Q; intros. rewrite <- (st_spaces _ _ _ _ _ ST). congruence.
    + rewrite C. apply ST.
    + exact WE.
    + rewrite (st_cls _ _ _ _ _ ST) in SR. exact (same_trans _ _ _ _ _ (st_sp _ _ _ _ _ ST) SR).
    + assert (S1 := st_lum _ _ _ _ _ ST). destruct (y_lum y1) as [a|], (y_lum y) as [b|], (y_lum w) as [c|]; try easy. destruct S1 as [S1 S2], LE as [L1 L2]. split; [congruence|].
      rewrite S1 in L2. exact (same_trans _ _ _ _ _ S2 L2).
  - destruct (ACT y (st_shape _ _ _ _ _ ST)) as (ok & A). rewrite A in H. injection H as _ <-. destruct ST. split; cbn [y_sp y_lum with_graph y_graph y_spaces]; auto.
    + eapply same_graph_trans; eassumption.
    + apply gdos_twice.
  - destruct x as [i|]; [|discriminate H]. injection H as <-. destruct ST. split; auto.
  - destruct x as [i|]; [|discriminate H]. injection H as <-. destruct ST. split; auto.
  - destruct x as [i|]; [|discriminate H]. injection H as <-. destruct ST. split; auto.
Qed.
Lemma reads_store c (o : pobj (V E)) k : reading E c o k = reading E c (PObj (po_store o) None) k.
Proof. unfold reading, pread. destruct (dget c k) as [d|]; [|reflexivity]. unfold param_get, touch_norm. destruct (pd_norm d); cbn [po_store]; destruct (dget _ k) as [[v|]|]; try reflexivity; destruct (pd_default d); reflexivity. Qed.
Lemma same_store c (o o' : pobj (V E)) : same_reads E c o o' -> same_parameters E c (po_store o) (po_store o').
Proof. intros H k. rewrite <- !reads_store. apply H. Qed.

Theorem later_unchanged rl prog fuel fs l10 ns norm (y : synth E) p y1 z :
  draw_survey prog fuel rl fs l10 ns norm y = (Ok p, y1) -> wf_par E (sc_params (sd_cls (y_sp y))) (sd_par (y_sp y)) ->
  (norm = true -> ns = None -> norm_value E (sd_par (y_sp y))) -> later rl y1 z ->
  same_record (sc_params (sd_cls (y_sp y))) (option_map (fun l => lc_params (ld_cls l)) (y_lum y)) p (shows z p).
Proof.
  intros H W NV L. destruct (graph_end _ _ _ _ _ _ _ _ _ _ H) as (w & g & SG & F & RG & PG). assert (SH := shape_frame _ _ F).
  destruct (graph_actions rl w) as (ok & l & A). assert (RG' := RG). rewrite (A w eq_refl) in RG'. injection RG' as R1 R2.
  assert (SH1 : shape y1 = shape w) by (rewrite <- R2; reflexivity).
  assert (ST0 : still rl p y1 y1 l).
  { split; [reflexivity|apply same_graph_refl| |reflexivity|reflexivity| |apply same_refl|].
    - rewrite <- R2. cbn [y_graph with_graph]. apply gdos_twice.
    - exact (wf_end _ _ _ _ _ _ _ _ _ _ H W NV).
    - destruct (y_lum y1); [|exact I]. split; [reflexivity|apply same_refl]. }
  assert (ST : still rl p y1 z l).
  { eapply still_later; [|exact L|exact ST0]. intros z0 Z. exists ok. apply A. congruence. }
  clear ST0 A. assert (PS := returned_as_shown _ _ _ _ _ _ _ _ _ _ H). destruct (SurveyTop.spatial_kept _ _ _ _ _ _ _ _ _ _ _ H W NV) as (C & SR & _).
  assert (LE := lum_end _ _ _ _ _ _ _ _ _ _ H). destruct ST as [SA SB SC SD SE SF SP SL].
  rewrite <- PS at 1. unfold same_record, shows. cbn [p_args pa_lum pa_dist pa_known pa_kidx pa_uidx pa_flux pa_fobs pa_sel pa_theta pa_phi pa_aux pa_prob pa_truth pa_popsynth pa_sigma pa_rmax pa_seed pa_name
    p_lum p_dist p_flux p_theta p_phi p_prob p_aux p_nobj p_ndet p_nnon pa_spaces pa_nmodel pa_sppar pa_lfpar pa_graph].
  split; [tauto|]. split; [tauto|]. split; [now rewrite SD|]. split; [reflexivity|]. split; [rewrite <- C; now apply same_store|]. split.
  - destruct (y_lum y) as [a|], (y_lum y1) as [b|], (y_lum z) as [c|]; try easy. cbn [option_map]. destruct LE as [L1 L2], SL as [L3 L4]. rewrite <- L1. now apply same_store.
  - exact SB.
Qed.

(** What does change. *)
Theorem spatial_follows prog fuel rl fs l10 ns norm (y : synth E) p y1 k v y2 : draw_survey prog fuel rl fs l10 ns norm y = (Ok p, y1) ->
  set_spatial k v y1 = (Ok tt, y2) -> dget (pa_sppar (p_args (shows y2 p))) k = Some (Some v) /\ pa_truth (p_args (shows y2 p)) = pa_truth (p_args p) /\ sv_lat (p_dist (shows y2 p)) = sv_lat (p_dist p).
Proof.
  intros _ H. unfold set_spatial in H. destruct (dget _ k) as [d|]; [|discriminate]. unfold param_set in H. destruct (pd_free d); [|discriminate].
  destruct (rbind _ _); [|discriminate]. injection H as <-. split; [|split; reflexivity]. cbn. apply dget_dset_eq.
Qed.
Theorem luminosity_follows prog fuel rl fs l10 ns norm (y : synth E) p y1 k v y2 : draw_survey prog fuel rl fs l10 ns norm y = (Ok p, y1) ->
  set_luminosity k v y1 = (Ok tt, y2) -> (exists d, pa_lfpar (p_args (shows y2 p)) = Some d /\ dget d k = Some (Some v)) /\ pa_truth (p_args (shows y2 p)) = pa_truth (p_args p) /\
    sv_lat (p_lum (shows y2 p)) = sv_lat (p_lum p).
Proof.
  intros _ H. unfold set_luminosity in H. destruct (y_lum y1) as [l|]; [|discriminate]. destruct (dget _ k) as [d|]; [|discriminate]. unfold param_set in H. destruct (pd_free d); [|discriminate].
  destruct (rbind _ _); [|discriminate]. injection H as <-. split; [|split; reflexivity]. eexists. split; [reflexivity|]. apply dget_dset_eq.
Qed.
Theorem space_follows prog fuel rl fs l10 ns norm (y : synth E) p y1 nm a b lg y2 : draw_survey prog fuel rl fs l10 ns norm y = (Ok p, y1) ->
  add_space nm a b lg y1 = (Ok tt, y2) -> exists sp l, pa_spaces (p_args (shows y2 p)) = Some sp /\ dget sp nm = Some l.
Proof.
  intros _ H. unfold add_space, modify in H. injection H as <-. eexists. eexists. split; [reflexivity|]. cbn [y_spaces with_spaces]. apply dget_dset_eq.
Qed.
End Survey.
