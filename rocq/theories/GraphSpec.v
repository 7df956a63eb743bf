(** Vocabulary for the nodes of the dependency graph: which ones there are and which
    are marked as observed quantities. *)
From Verif Require Import Base BaseFacts Env ParamModel SelModel SimVarModel DistModel AuxModel AuxSpec PopModel SynthModel SynthSpec.
Open Scope nat_scope.

Section G.
Context {E : env}.
Implicit Types y : synth E.

(** The nodes a synth calls for: the ends of its edges and the registered samplers. *)
Definition graph_node y (k : string) : Prop :=
  (exists e, graph_edge y e /\ (k = fst e \/ k = snd e)) \/ exists i, In (k, i) (y_aux y).

(** The nodes marked [observed=True]: the observed flux, and the observed values of the
    direct secondaries of registered samplers. *)
Inductive marked_observed y : string -> Prop :=
  | mo_flux : marked_observed y "obs_flux"
  | mo_sec k i c b : In (k, i) (y_aux y) -> depends (y_w y) i c -> at_ (y_w y) c b ->
      a_observed (a_st b) = true -> marked_observed y (obs_name_of b).

(** The nodes marked [observed=False]. *)
Inductive marked_plain y : string -> Prop :=
  | mp_top k i : In (k, i) (y_aux y) -> marked_plain y k
  (* although it is an observed value *)
  | mp_top_obs k i a : In (k, i) (y_aux y) -> at_ (y_w y) i a -> a_observed (a_st a) = true -> marked_plain y (obs_name_of a)
  | mp_sec k i c b : In (k, i) (y_aux y) -> depends (y_w y) i c -> at_ (y_w y) c b -> marked_plain y (name_of b)
  (* secondaries of secondaries, also below a derived luminosity *)
  | mp_deep p c d b : part y p -> depends (y_w y) p c -> depends (y_w y) c d -> at_ (y_w y) d b -> marked_plain y (name_of b)
  | mp_deep_obs p c d b : part y p -> depends (y_w y) p c -> depends (y_w y) c d -> at_ (y_w y) d b ->
      a_observed (a_st b) = true -> marked_plain y (obs_name_of b).

Definition marked y (b : bool) : string -> Prop := if b then marked_observed y else marked_plain y.

(** The attribute [observed] of a node. *)
Definition mark_of (g : graph) (k : string) : option bool := match dget (gr_nodes g) k with Some b => b | None => None end.

(** A directed graph as networkx keeps it: no node twice, no edge twice, and the
    ends of every edge are nodes. *)
Record well_formed (g : graph) : Prop := {
  wf_nodes : NoDup (dkeys (gr_nodes g));
  wf_edges : NoDup (gr_edges g);
  wf_ends : forall u v, In (u, v) (gr_edges g) -> In u (dkeys (gr_nodes g)) /\ In v (dkeys (gr_nodes g)) }.
End G.
