(** Specification vocabulary for HDF5 files. *)
From Coq Require Import Ascii Permutation Sorted.
From Verif Require Import Base Env SimVarModel AuxModel Tree PopModel HdfModel.
Set Implicit Arguments.
Open Scope string_scope.

Definition no_nul (s : string) : Prop := ~ In "000"%char (list_ascii_of_string s).
(** A name that HDF5 stores as it is: not empty, not ["."], no slash, no NUL. *)
Definition plain_name (k : string) : Prop :=
  k <> "" /\ k <> "." /\ ~ In "/"%char (list_ascii_of_string k) /\ no_nul k.
Definition fits64 (z : Z) : Prop := (- 2 ^ 63 <= z < 2 ^ 63)%Z.

(** Names in the order of their bytes. *)
Definition before (a b : string) : Prop := String.compare a b = Lt.
Definition in_order {A} (d : list (string * A)) : Prop := StronglySorted before (dkeys d).

Section S.
Variable V : Type.
Notation tree := (tree V).
Variable utf8 : string -> bool.

(** Values that can be stored and recognised again. *)
Fixpoint storable (t : tree) : Prop :=
  match t with
  | TNum _ | TBool _ | TArr _ => True
  | TInt z => fits64 z
  | TStr s => no_nul s /\ s <> "FILL_VALUE"
  | TBytes s => s <> "" /\ no_nul s /\ s <> "FILL_VALUE"
  | TList l => (fix all l := match l with
                             | nil => True
                             | TStr s :: r => plain_name s /\ all r
                             | _ :: _ => False
                             end) l
  | TDict d => NoDup (dkeys d) /\ (fix all d := match d with
                                                | nil => True
                                                | (k, t') :: r => plain_name k /\ storable t' /\ all r
                                                end) d
  | TNone | TNpb _ => False
  end.

(** What a stored value is when it is read back: numbers, strings and arrays as they
    were; a python bool as a numpy one; bytes as a string if they are text; a list of
    strings as a dictionary of empty dictionaries with those keys; a dictionary as a
    dictionary with the same entries, each read back, in the order of the keys. *)
Inductive comes_back : tree -> tree -> Prop :=
| cb_num v : comes_back (TNum v) (TNum v)
| cb_int z : comes_back (TInt z) (TInt z)
| cb_bool b : comes_back (TBool b) (TNpb b)
| cb_str s : comes_back (TStr s) (TStr s)
| cb_text s : utf8 s = true -> comes_back (TBytes s) (TStr s)
| cb_bytes s : utf8 s = false -> comes_back (TBytes s) (TBytes s)
| cb_arr l : comes_back (TArr l) (TArr l)
| cb_list l d : in_order d -> (forall s, In s (dkeys d) <-> In (TStr s) l) ->
    (forall s t, In (s, t) d -> t = TDict nil) -> comes_back (TList l) (TDict d)
| cb_dict d d1 d' : Forall2 (fun x y => fst x = fst y /\ comes_back (snd x) (snd y)) d d1 ->
    Permutation d1 d' -> in_order d' -> comes_back (TDict d) (TDict d').

(** A value of a type that cannot be stored occurs somewhere. *)
Inductive unsupported : tree -> Prop :=
| us_none : unsupported TNone
| us_npb b : unsupported (TNpb b)
| us_list l x : In x l -> (forall s, x <> TStr s) -> unsupported (TList l)
| us_dict d k t : In (k, t) d -> unsupported t -> unsupported (TDict d).

(** A python bool occurs somewhere. *)
Inductive has_bool : tree -> Prop :=
| hb_bool b : has_bool (TBool b)
| hb_dict d k t : In (k, t) d -> has_bool t -> has_bool (TDict d).

(** A dictionary whose leaves are storable or of an unsupported type. *)
Fixpoint clean_but_types (t : tree) : Prop :=
  match t with
  | TDict d => NoDup (dkeys d) /\ (fix all d := match d with
                                                | nil => True
                                                | (k, t') :: r => plain_name k /\ clean_but_types t' /\ all r
                                                end) d
  | _ => storable t \/ unsupported t
  end.

(** Nothing is stored under the path yet, and no dataset is in the way. *)
Fixpoint vacant (p : list string) (g : dict (h5 V)) : Prop :=
  match p with
  | nil => False
  | k :: r => match dget g k with
              | None => True
              | Some (HGroup _ g1) => vacant r g1
              | Some (HData _) => False
              end
  end.
(** Every dataset of [f] is still there, unchanged, in [f']. *)
Definition extends (f f' : dict (h5 V)) : Prop :=
  forall p v, lookup p f = Ok (HData v) -> lookup p f' = Ok (HData v).

(** An adjacency dictionary: dictionaries all the way down. *)
Fixpoint all_dicts (t : tree) : Prop :=
  match t with
  | TDict d => (fix all d := match d with nil => True | (_, t') :: r => all_dicts t' /\ all r end) d
  | _ => False
  end.
End S.

(** A graph as networkx keeps it: nodes and edges once, edges between nodes. *)
Record sound_graph (g : graph) : Prop := {
  sg_nodes : NoDup (dkeys (gr_nodes g));
  sg_edges : NoDup (gr_edges g);
  sg_ends : forall u v, In (u, v) (gr_edges g) -> In u (dkeys (gr_nodes g)) /\ In v (dkeys (gr_nodes g)) }.
(** [g'] has the nodes of [g], without attributes, and the edges of [g] without their
    direction. *)
Record forgets_direction (g g' : graph) : Prop := {
  fd_nodes : forall k, In k (dkeys (gr_nodes g')) <-> In k (dkeys (gr_nodes g));
  fd_attrs : forall k b, In (k, b) (gr_nodes g') -> b = None;
  fd_edges : forall u v, In (u, v) (gr_edges g') <-> In (u, v) (gr_edges g) \/ In (v, u) (gr_edges g) }.

Section P.
Variable E : env.
Variable utf8 : string -> bool.

(** All names of a dictionary are distinct and can be stored. *)
Definition plain_names {A} (d : list (string * A)) : Prop :=
  NoDup (dkeys d) /\ forall k, In k (dkeys d) -> plain_name k.

(** Populations that the library can store: names are plain, forms and the name are
    ASCII, no parameter is [None], the truth, graph and configuration are not empty. *)
Record writable (a : popargs E) (nm : string) (aux : dict (list (V E) * list (V E))) (sp : dict (list (V E)))
                (conf : dict (tree (V E))) : Prop := {
  wr_name : pa_name a = PyStr nm;
  wr_name_ascii : is_ascii nm = true;
  wr_form : is_ascii (pa_spform a) = true;
  wr_sppar : plain_names (pa_sppar a) /\ (forall k, ~ In (k, None) (pa_sppar a));
  wr_lf : match pa_lfpar a with
          | None => pa_lfform a = None
          | Some d => plain_names d /\ (forall k, ~ In (k, None) d) /\
                      exists f, pa_lfform a = Some f /\ is_ascii f = true
          end;
  wr_nmodel : fits64 (Z.of_nat (pa_nmodel a));
  wr_seed : fits64 (pa_seed a);
  wr_aux : pa_aux a = Some aux /\ plain_names aux;
  wr_spaces : pa_spaces a = Some sp /\ plain_names sp;
  wr_truth : pa_truth a <> nil /\ plain_names (pa_truth a) /\
             forall k d, In (k, d) (pa_truth a) -> plain_names d;
  wr_graph : gr_nodes (pa_graph a) <> nil /\ sound_graph (pa_graph a) /\
             forall k, In k (dkeys (gr_nodes (pa_graph a))) -> plain_name k;
  wr_conf : pa_popsynth a = Some (TDict conf) /\ conf <> nil /\ storable (TDict conf) }.

(** What is preserved: all arrays, the mask, the numbers; dictionaries as sets of
    entries. *)
Record same_content (a b : popargs E) : Prop := {
  sc_lum : pa_lum b = pa_lum a;
  sc_dist : pa_dist b = pa_dist a;
  sc_known : pa_known b = pa_known a;
  sc_kidx : pa_kidx b = pa_kidx a;
  sc_uidx : pa_uidx b = pa_uidx a;
  sc_flux : pa_flux b = pa_flux a;
  sc_fobs : pa_fobs b = pa_fobs a;
  sc_sel : pa_sel b = pa_sel a;
  sc_sigma : pa_sigma b = pa_sigma a;
  sc_rmax : pa_rmax b = pa_rmax a;
  sc_nmodel : pa_nmodel b = pa_nmodel a;
  sc_seed : pa_seed b = pa_seed a;
  sc_theta : pa_theta b = pa_theta a;
  sc_phi : pa_phi b = pa_phi a;
  sc_sppar : Permutation (pa_sppar b) (pa_sppar a);
  sc_lfpar : match pa_lfpar a, pa_lfpar b with
             | None, None => True
             | Some d, Some d' => Permutation d' d
             | _, _ => False
             end;
  sc_aux : exists x y, pa_aux a = Some x /\ pa_aux b = Some y /\ Permutation y x;
  sc_spaces : exists x y, pa_spaces a = Some x /\ pa_spaces b = Some y /\ Permutation y x;
  sc_truth : exists t, Permutation (pa_truth b) t /\
             Forall2 (fun x y => fst x = fst y /\ Permutation (snd y) (snd x)) (pa_truth a) t;
  sc_conf : exists x y, pa_popsynth a = Some x /\ pa_popsynth b = Some y /\ comes_back utf8 x y }.

(** What changes: the probabilities are gone, the name is bytes, the forms are the
    representation of bytes, the graph has lost its directions and attributes. *)
Record with_losses (a b : popargs E) (nm : string) : Prop := {
  wl_prob : pa_prob b = None;
  wl_name : pa_name b = PyBytes nm;
  wl_spform : pa_spform b = bytes_repr (pa_spform a);
  wl_lfform : pa_lfform b = option_map bytes_repr (pa_lfform a);
  wl_graph : forgets_direction (pa_graph a) (pa_graph b) }.
End P.
