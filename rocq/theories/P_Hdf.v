(** C42, C44, C45: HDF5 files. *)
From Coq Require Import Ascii Permutation Sorted.
From Verif Require Import Base BaseFacts Env AuxModel Tree SimVarModel PopModel PopSpec HdfModel HdfSpec LiteralSpec Toy PopExamples HdfExamples.
From Verif Require HdfProofs HdfPop PopProofs LiteralProofs.
Open Scope string_scope.
Open Scope nat_scope.

(** ** C44: dictionaries *)
(** A storable dictionary that is not empty, saved where nothing is yet, is read back;
    everything else in the file stays as it was. *)
Theorem C44_round_trip : forall V (utf8 : string -> bool) (d : dict (tree V)) path f,
  storable (TDict d) -> d <> nil -> no_nul path -> vacant (comps path) f ->
  exists f' d', save path d f = (Ok tt, f') /\ load utf8 path f' = Ok (TDict d') /\
    comes_back utf8 (TDict d) (TDict d') /\ extends f f'.
Proof. exact @HdfProofs.dict_round_trip. Qed.
(** A value of another type is never saved; the error is [ValueError]. *)
Theorem C44_others_never_saved : forall V (d : dict (tree V)), unsupported (TDict d) ->
  forall path f, fst (save path d f) <> Ok tt.
Proof. exact @HdfProofs.unsupported_save. Qed.
Theorem C44_others_value_error : forall V (d : dict (tree V)) path f,
  clean_but_types (TDict d) -> unsupported (TDict d) -> no_nul path -> vacant (comps path) f ->
  exists f', save path d f = (Err ValueError, f').
Proof. intros V. exact (@HdfProofs.save_refuses V (fun _ => true)). Qed.
(** An empty dictionary cannot be read back. *)
Theorem C44_empty_refuted : forall V (utf8 : string -> bool) path (f : dict (h5 V)), vacant (comps path) f ->
  save path nil f = (Ok tt, f) /\ load utf8 path f = Err KeyError.
Proof. exact @HdfProofs.empty_lost. Qed.
(** The string used for empty dictionaries comes back as one. *)
Theorem C44_fill_value_refuted : forall V (utf8 : string -> bool) path key (f : dict (h5 V)), plain_name key -> no_nul path -> vacant (comps path) f ->
  exists f', save path [(key, TStr "FILL_VALUE")] f = (Ok tt, f') /\ load utf8 path f' = Ok (TDict [(key, TDict nil)]).
Proof. exact @HdfProofs.fill_value_lost. Qed.
(** A key with a slash comes back as nested dictionaries. *)
Theorem C44_slash_refuted : forall V (utf8 : string -> bool) path k1 k2 v (f : dict (h5 V)), plain_name k1 -> plain_name k2 -> no_nul path -> vacant (comps path) f ->
  exists f', save path [(k1 ++ "/" ++ k2, TNum v)] f = (Ok tt, f') /\ load utf8 path f' = Ok (TDict [(k1, TDict [(k2, TNum v)])]).
Proof. exact @HdfProofs.slash_back. Qed.
(** A bool comes back as a value that cannot be saved. *)
Theorem C44_bool_refuted : forall V (utf8 : string -> bool) path key b (f : dict (h5 V)), plain_name key -> no_nul path -> vacant (comps path) f ->
  exists f', save path [(key, TBool b)] f = (Ok tt, f') /\ load utf8 path f' = Ok (TDict [(key, TNpb b)]) /\
    forall path2 f2, fst (save path2 [(key, TNpb b : tree V)] f2) = Err ValueError.
Proof.
  intros V utf8 path key b f P N VA. destruct (HdfProofs.bool_back utf8 path key b f P N VA) as (f' & A & B).
  exists f'. auto.
Qed.

(** ** C45: graphs *)
Theorem C45_clean_fill : forall V (fv : tree V) (d : dict (tree V)), (forall e, fv <> TDict e) -> all_dicts (TDict d) ->
  exists d', fill_graph fv d = Ok d' /\ clean_graph d' = d.
Proof. exact @HdfProofs.fill_clean. Qed.
Theorem C45_adjacency : forall V g,
  exists d', fill_graph (TInt 1) (adjacency V g) = Ok d' /\ clean_graph d' = adjacency V g.
Proof. intros V g. apply HdfProofs.fill_clean; [discriminate|apply HdfPop.adjacency_dicts]. Qed.
(** The graph that is read back: nodes and edges are there, directions are not. *)
Theorem C45_undirected : forall E (utf8 : string -> bool) (a : popargs E) p nm aux sp conf, pop_new a = Ok p -> writable a nm aux sp conf ->
  exists g p', writeto p = (Ok tt, g) /\ load_pop utf8 g = Ok p' /\ forgets_direction (pa_graph a) (pa_graph (p_args p')).
Proof.
  intros E utf8 a p nm aux sp conf H W. destruct (HdfPop.pop_round_trip E utf8 a p nm aux sp conf H W) as (g & p' & WR & L & _ & LO).
  exists g, p'. split; [exact WR|]. split; [exact L|exact (wl_graph LO)].
Qed.
(** So an edge comes back with its reverse. *)
Theorem C45_direction_refuted : forall E (utf8 : string -> bool) (a : popargs E) p nm aux sp conf u v, pop_new a = Ok p -> writable a nm aux sp conf ->
  In (u, v) (gr_edges (pa_graph a)) -> ~ In (v, u) (gr_edges (pa_graph a)) ->
  exists g p', writeto p = (Ok tt, g) /\ load_pop utf8 g = Ok p' /\ In (v, u) (gr_edges (pa_graph (p_args p'))).
Proof.
  intros E utf8 a p nm aux sp conf u v H W I _. destruct (HdfPop.pop_round_trip E utf8 a p nm aux sp conf H W) as (g & p' & WR & L & _ & LO).
  exists g, p'. split; [exact WR|]. split; [exact L|]. apply (fd_edges (wl_graph LO)). now right.
Qed.

(** ** C42: populations *)
Theorem C42_round_trip_partial : forall E (utf8 : string -> bool) (a : popargs E) p nm aux sp conf, pop_new a = Ok p -> writable a nm aux sp conf ->
  exists g p', writeto p = (Ok tt, g) /\ load_pop utf8 g = Ok p' /\ same_content utf8 a (p_args p') /\ with_losses a (p_args p') nm.
Proof. exact HdfPop.pop_round_trip. Qed.
(** The same through a group of a file, whose other contents stay. *)
Theorem C42_group_partial : forall E (utf8 : string -> bool) (a : popargs E) p nm aux sp conf name f, pop_new a = Ok p -> writable a nm aux sp conf ->
  no_nul name -> vacant (comps name) f ->
  exists f' p', addto p name f = (Ok tt, f') /\ from_group E utf8 name f' = Ok p' /\ extends f f' /\
    same_content utf8 a (p_args p') /\ with_losses a (p_args p') nm.
Proof.
  intros E utf8 a p nm aux sp conf name f H W N VA.
  destruct (HdfPop.pop_round_trip E utf8 a p nm aux sp conf H W) as (g & p' & WR & L & S & LO).
  destruct (HdfPop.addto_ok E utf8 p g name f WR N VA) as (f' & A & B & X). exists f', p'. rewrite B. auto.
Qed.
(** A group that exists is not overwritten. *)
Theorem C42_group_in_use : forall E (p : population E) name q k f, comps name = (q ++ [k])%list -> no_nul name ->
  (exists n, lookup (q ++ [k]) f = Ok n) -> exists f', addto p name f = (Err ValueError, f').
Proof. exact HdfPop.addto_taken. Qed.
(** The probabilities are lost, the forms are changed. *)
Theorem C42_probability_refuted : forall E (utf8 : string -> bool) (a : popargs E) p nm aux sp conf q, pop_new a = Ok p -> writable a nm aux sp conf ->
  pa_prob a = Some q -> exists g p', writeto p = (Ok tt, g) /\ load_pop utf8 g = Ok p' /\ p_prob p' = None /\
    pa_spform (p_args p') <> pa_spform a /\ pa_name (p_args p') <> pa_name a.
Proof.
  intros E utf8 a p nm aux sp conf q H W _. destruct (HdfPop.pop_round_trip E utf8 a p nm aux sp conf H W) as (g & p' & WR & L & S & LO).
  exists g, p'. split; [exact WR|]. split; [exact L|]. split.
  - unfold load_pop in L. destruct (load_args utf8 g) as [b|]; [|discriminate]. cbn in L.
    destruct (PopProofs.new_faithful _ _ _ L) as (PA & _ & _ & _ & _ & _ & X & _). rewrite <- PA in X. rewrite (wl_prob LO) in X.
    destruct (p_prob p'); [contradiction|reflexivity].
  - split.
    + rewrite (wl_spform LO). intros Q. assert (X := HdfPop.repr_longer (pa_spform a)). rewrite Q in X. now apply Nat.lt_irrefl in X.
    + rewrite (wl_name LO), (wr_name W). discriminate.
Qed.
(** A population that was read back cannot be written if its configuration holds a
    bool; a sub-population never can. *)
Theorem C42_written_once : forall E (utf8 : string -> bool) (a : popargs E) p nm aux sp conf, pop_new a = Ok p -> writable a nm aux sp conf ->
  has_bool (TDict conf) ->
  exists g (p' : population E), writeto p = (Ok tt, g) /\ load_pop utf8 g = Ok p' /\ fst (writeto p') <> Ok tt.
Proof. exact HdfPop.write_once. Qed.
Theorem C42_sub_population_refuted : forall E b (p q : population E), sub_population b p = Ok q -> fst (writeto q) <> Ok tt.
Proof. exact HdfPop.sub_not_writable. Qed.

(** What a form has become is Python's literal of it, in printable characters: nothing of
    the form is lost, and nobody sees it as it was. *)
Theorem C42_forms_become_literals : forall E (utf8 : string -> bool) (a : popargs E) p nm aux sp conf, pop_new a = Ok p -> writable a nm aux sp conf ->
  exists g p', writeto p = (Ok tt, g) /\ load_pop utf8 g = Ok p' /\
    literal_of (pa_spform a) (pa_spform (p_args p')) /\
    Forall printable (list_ascii_of_string (pa_spform (p_args p'))) /\
    forall l, pa_lfform a = Some l -> exists l', pa_lfform (p_args p') = Some l' /\ literal_of l l' /\
      Forall printable (list_ascii_of_string l').
Proof.
  intros E utf8 a p nm aux sp conf H W. destruct (HdfPop.pop_round_trip E utf8 a p nm aux sp conf H W) as (g & p' & WR & L & S & LO).
  exists g, p'. rewrite (wl_spform LO), (wl_lfform LO). split; [exact WR|]. split; [exact L|]. split; [apply LiteralProofs.repr_literal|].
  split; [apply LiteralProofs.repr_printable|]. intros l Q. rewrite Q. exists (bytes_repr l). split; [reflexivity|].
  split; [apply LiteralProofs.repr_literal|apply LiteralProofs.repr_printable].
Qed.

Print Assumptions C44_round_trip.
Print Assumptions C44_others_never_saved.
Print Assumptions C44_others_value_error.
Print Assumptions C44_empty_refuted.
Print Assumptions C44_fill_value_refuted.
Print Assumptions C44_slash_refuted.
Print Assumptions C44_bool_refuted.
Print Assumptions C45_clean_fill.
Print Assumptions C45_adjacency.
Print Assumptions C45_undirected.
Print Assumptions C45_direction_refuted.
Print Assumptions C42_round_trip_partial.
Print Assumptions C42_group_partial.
Print Assumptions C42_group_in_use.
Print Assumptions C42_probability_refuted.
Print Assumptions C42_written_once.
Print Assumptions C42_sub_population_refuted.
Print Assumptions C42_forms_become_literals.
