(** C84: the nodes of the dependency graph and their marks. *)
From Verif Require Import Base BaseFacts Env ParamModel SelModel SimVarModel DistModel AuxModel AuxSpec PopModel SynthModel SynthSpec
  Toy SynthExamples HdfSpec GraphSpec GraphProofs GraphTwice GraphExamples.
Open Scope nat_scope.

(** The nodes are the ones that were there, the ends of the edges, and the registered
    samplers, also those without any edge. *)
Theorem C84_nodes : forall E rl (y : synth E), keyed (y_w y) -> named y -> well_formed (y_graph y) ->
  forall g y', read_graph rl y = (Ok g, y') ->
  forall k, In k (dkeys (gr_nodes g)) <-> In k (dkeys (gr_nodes (y_graph y))) \/ graph_node y k.
Proof. intros E rl y K N W g y' H. now apply (graph_nodes E y rl K N g y'). Qed.

(** No node twice, no edge twice, no edge without its ends: the graph meets what saving a
    population asks of it. *)
Theorem C84_storable : forall E rl (y : synth E), keyed (y_w y) -> named y -> sound_graph (y_graph y) ->
  forall g y', read_graph rl y = (Ok g, y') -> sound_graph g.
Proof.
  intros E rl y K N [W1 W2 W3] g y' H.
  assert (W : well_formed (y_graph y)) by now constructor.
  destruct (graph_well_formed E y rl K N g y' H W) as [G1 G2 G3]. now constructor.
Qed.

(** A node is marked only as an observed quantity, or only as a plain one, if the synth
    says so or if it was marked so before. *)
Theorem C84_marks_only : forall E rl (y : synth E), keyed (y_w y) -> named y ->
  forall g y', read_graph rl y = (Ok g, y') ->
  forall k b, mark_of g k = Some b -> mark_of (y_graph y) k = Some b \/ marked y b k.
Proof. intros E rl y K N g y' H. now apply (graph_marks E y rl K N g y'). Qed.

(** The observed flux and the observed values of direct secondaries are marked, unless
    another quantity goes by the same name. *)
Theorem C84_observed_marked : forall E rl (y : synth E), keyed (y_w y) -> named y ->
  forall g y', read_graph rl y = (Ok g, y') ->
  forall k, marked_observed y k -> ~ marked_plain y k -> mark_of g k = Some true.
Proof. intros E rl y K N g y' H. now apply (graph_observed E y rl K N g y'). Qed.

(** Reading the graph again, which starts from the graph of the first time, changes
    nothing. *)
Theorem C84_read_again : forall E rl (y : synth E) g y', NoDup (dkeys (gr_nodes (y_graph y))) ->
  read_graph rl y = (Ok g, y') -> read_graph rl y' = (Ok g, y').
Proof. intros E rl y g y' N H. now apply (graph_twice E rl y g y'). Qed.

Example C84_meets : keyed (y_w seen_synth) /\ named seen_synth /\ well_formed (y_graph seen_synth) /\
  (exists g y', read_graph 10 seen_synth = (Ok g, y') /\ mark_of g "y_obs" = Some true) /\
  marked_observed seen_synth "y_obs" /\ graph_node seen_synth "z_obs".
Proof.
  destruct seen_meets as (K & N & W). destruct seen_graph as (g & y' & H & Q).
  split; [exact K|]. split; [exact N|]. split; [exact W|]. split; [|split].
  - exists g, y'. split; [exact H|]. unfold mark_of. rewrite Q. reflexivity.
  - assert (B : exists b, at_ (y_w seen_synth) 1 b /\ a_observed (a_st b) = true /\ obs_name_of b = "y_obs") by (eexists; repeat split; reflexivity).
    destruct B as (b & B & O & <-).
    eapply (mo_sec seen_synth "x" 0 1); [left; reflexivity|do 2 eexists; split; [reflexivity|left; reflexivity]|exact B|exact O].
  - left. exists ("z", "z_obs"). split; [|now right].
    assert (B : exists b, at_ (y_w seen_synth) 2 b /\ a_observed (a_st b) = true /\ name_of b = "z" /\ obs_name_of b = "z_obs") by (eexists; repeat split; reflexivity).
    destruct B as (b & B & O & NB & OB). rewrite <- NB, <- OB at 1.
    eapply (@ge_obs toy seen_synth "x" 0 2); [left; reflexivity| |exact B|exact O].
    eapply reaches_step with 1; [do 2 eexists; split; [reflexivity|left; reflexivity]|].
    eapply reaches_step with 2; [do 2 eexists; split; [reflexivity|left; reflexivity]|constructor].
Qed.

(** The observed value of a registered sampler, and of a secondary of a secondary, is
    marked as not observed; that of a direct secondary is marked as observed. *)
Theorem C84_observed_not_marked_refuted : exists g y', read_graph 10 seen_synth = (Ok g, y') /\
  (forall j b, at_ (y_w seen_synth) j b -> a_observed (a_st b) = true) /\
  mark_of g "x_obs" = Some false /\ mark_of g "y_obs" = Some true /\ mark_of g "z_obs" = Some false.
Proof.
  destruct seen_graph as (g & y' & H & Q). exists g, y'. split; [exact H|]. unfold mark_of. rewrite Q. split; [|repeat split].
  assert (T : map (fun a => a_observed (a_st a)) (w_auxs (y_w seen_synth)) = [true; true; true]) by reflexivity.
  intros j b B. assert (X : nth_error [true; true; true] j = Some (a_observed (a_st b))) by (rewrite <- T; unfold at_ in B; now rewrite nth_error_map, B).
  destruct j as [|[|[|j]]]; cbn in X; try (now injection X as <-). destruct j; discriminate.
Qed.

(** The observed value of a secondary of the sampler the luminosity is computed from has
    no node at all. *)
Theorem C84_observed_missing_refuted : exists (y : synth toy) g y' b, y = plain_synth unseen [0] /\ y_der y = Some 0 /\
  depends (y_w y) 0 1 /\ at_ (y_w y) 1 b /\ a_observed (a_st b) = true /\ obs_name_of b = "z_obs" /\
  read_graph 10 y = (Ok g, y') /\ In "z" (dkeys (gr_nodes g)) /\ ~ In "z_obs" (dkeys (gr_nodes g)).
Proof.
  destruct unseen_graph as (g & y' & H & Q). do 4 eexists. split; [reflexivity|]. split; [reflexivity|].
  split; [do 2 eexists; split; [reflexivity|left; reflexivity]|]. split; [reflexivity|]. split; [reflexivity|]. split; [reflexivity|].
  split; [exact H|]. rewrite Q. cbn. split; [auto|]. intuition discriminate.
Qed.

Print Assumptions C84_nodes.
Print Assumptions C84_storable.
Print Assumptions C84_marks_only.
Print Assumptions C84_observed_marked.
Print Assumptions C84_read_again.
Print Assumptions C84_observed_not_marked_refuted.
Print Assumptions C84_observed_missing_refuted.
