(** Model of [popsynth/auxiliary_sampler.py]. *)
From Verif Require Import Base Env ParamModel SelModel DistModel.
Set Implicit Arguments.
Open Scope string_scope.

Section Aux.
Variable E : env.
Notation V := (V E).
Notation Rst := (Rst E).
Notation Nst := (Nst E).
Notation selector := (selector E).

(** The two generators a sampler may consume: numpy's and numba's. *)
Definition gens : Type := (Rst * Nst)%type.

(** What a sampler's methods can look at besides its parameters: the spatial
    values and luminosities it was given ([None]: attribute absent), its own true
    values, and the true and observed values of its secondaries by name. *)
Record view := View {
  vw_sp : option (spvals E);
  vw_lum : option (list V);
  vw_true : option (list V);
  vw_obs : option (list V);
  vw_sec : dict (option (list V) * option (list V)) }.

(** A sampler class, given by its methods.  [k_true] and [k_obs] are [true_sampler]
    and [observation_sampler]; [Ok None] means that the method returned without
    assigning [_true_values] ([_obs_values]).  [k_prob] is [_compute_probability]
    ([None] is python's [None], the default), [k_lum] is [compute_luminosity] of a
    derived-luminosity class.
    Simplifications: the parameters a method uses are read before it runs, in the
    order given; methods change nothing but the generators and the one attribute. *)
Record akind := AKind {
  k_params : pclass V;
  k_treads : list string;
  k_true : list V -> view -> nat -> gens -> res (option (list V)) * gens;
  k_oreads : list string;
  k_obs : list V -> view -> nat -> gens -> res (option (list V)) * gens;
  k_preads : list string;
  k_prob : list V -> view -> res (option (list V));
  k_lreads : list string;
  k_lum : option (list V -> view -> res (list V)) }.

(** Attributes fixed at construction (auxiliary_sampler.py:173-213). *)
Record astat := AStat {
  a_name : string;
  a_type : string;                 (* registered class name *)
  a_kind : akind;
  a_observed : bool;
  a_usesd : bool;
  a_usesl : bool;
  a_usesp : bool }.
(** Attributes changed while wiring samplers together. [_has_secondary] is true
    exactly when [a_sec] is not empty (318) and is not kept separately. *)
Record alink := ALink {
  a_sec : dict nat;                (* _secondary_samplers *)
  a_issec : bool;
  a_parents : list string;
  a_sel : nat }.                   (* _selector *)
(** Attributes changed by drawing. *)
Record adyn := ADyn {
  a_par : pobj V;
  a_sampled : bool;
  a_true : option (list V);
  a_obs : option (list V);
  a_prob : option (list V);
  a_lum : option (list V);
  a_sp : option (spvals E) }.
Record sampler := Sampler { a_st : astat; a_ln : alink; a_dy : adyn }.

Definition name_of (a : sampler) : string := a_name (a_st a).
(** auxiliary_sampler.py:192 *)
Definition obs_name_of (a : sampler) : string := a_name (a_st a) ++ "_obs".
Definition kind_of (a : sampler) : akind := a_kind (a_st a).

(** A new sampler, whose selector (a new UnitySelection) is object [sel]. *)
Definition new_sampler (nm ty : string) (k : akind) (observed ud ul up : bool) (sel : nat) : sampler :=
  Sampler (AStat nm ty k observed ud ul up) (ALink nil false nil sel)
          (ADyn (pobj_new V) false None None None None None).

Definition upd_dy (f : adyn -> adyn) (a : sampler) : sampler := Sampler (a_st a) (a_ln a) (f (a_dy a)).
Definition upd_ln (f : alink -> alink) (a : sampler) : sampler := Sampler (a_st a) (f (a_ln a)) (a_dy a).

Definition dy_par (o : pobj V) (d : adyn) : adyn :=
  ADyn o (a_sampled d) (a_true d) (a_obs d) (a_prob d) (a_lum d) (a_sp d).
Definition dy_sampled (b : bool) (d : adyn) : adyn :=
  ADyn (a_par d) b (a_true d) (a_obs d) (a_prob d) (a_lum d) (a_sp d).
Definition dy_true (x : option (list V)) (d : adyn) : adyn :=
  ADyn (a_par d) (a_sampled d) x (a_obs d) (a_prob d) (a_lum d) (a_sp d).
Definition dy_obs (x : option (list V)) (d : adyn) : adyn :=
  ADyn (a_par d) (a_sampled d) (a_true d) x (a_prob d) (a_lum d) (a_sp d).
Definition dy_prob (x : option (list V)) (d : adyn) : adyn :=
  ADyn (a_par d) (a_sampled d) (a_true d) (a_obs d) x (a_lum d) (a_sp d).
Definition dy_lum (x : list V) (d : adyn) : adyn :=
  ADyn (a_par d) (a_sampled d) (a_true d) (a_obs d) (a_prob d) (Some x) (a_sp d).
Definition dy_sp (x : spvals E) (d : adyn) : adyn :=
  ADyn (a_par d) (a_sampled d) (a_true d) (a_obs d) (a_prob d) (a_lum d) (Some x).

(** All sampler and selector objects, the generators, and a ghost record of the
    samplers whose [true_sampler] was called, in order. *)
Record world := World {
  w_g : Rst;
  w_n : Nst;
  w_sels : list selector;
  w_auxs : list sampler;
  w_log : list nat }.

Definition AM := M world.

Definition w_set_sels (x : list selector) (w : world) : world := World (w_g w) (w_n w) x (w_auxs w) (w_log w).
Definition w_set_auxs (x : list sampler) (w : world) : world := World (w_g w) (w_n w) (w_sels w) x (w_log w).
Definition w_set_gens (g : gens) (w : world) : world := World (fst g) (snd g) (w_sels w) (w_auxs w) (w_log w).
Definition w_add_log (i : nat) (w : world) : world := World (w_g w) (w_n w) (w_sels w) (w_auxs w) (w_log w ++ [i]).

(** Dereference; references are always valid in python, so a dangling one is
    outside the model. *)
Definition get_aux (i : nat) : AM sampler := fun w => (of_opt Unmodelled (nth_error (w_auxs w) i), w).
Definition get_sel (i : nat) : AM selector := fun w => (of_opt Unmodelled (nth_error (w_sels w) i), w).
Definition put_aux (i : nat) (a : sampler) : AM unit := modify (fun w => w_set_auxs (lset (w_auxs w) i a) w).
Definition put_sel (i : nat) (s : selector) : AM unit := modify (fun w => w_set_sels (lset (w_sels w) i s) w).
Definition upd_aux (i : nat) (f : adyn -> adyn) : AM unit := let! a := get_aux i in put_aux i (upd_dy f a).
Definition upd_sel (i : nat) (f : selector -> selector) : AM unit := let! s := get_sel i in put_sel i (f s).
(** Run a method of selector [i]. *)
Definition on_sel {A} (i : nat) (m : SM E A) : AM A :=
  let! s := get_sel i in
  fun w => let '(r, (s', g')) := m (s, w_g w) in
           (r, w_set_gens (g', w_n w) (w_set_sels (lset (w_sels w) i s') w)).

(** ** Wiring *)

(** [set_secondary_sampler] and [make_secondary] (auxiliary_sampler.py:295-318, 440-450). *)
Definition set_secondary (parent child : nat) : AM unit :=
  let! p := get_aux parent in
  let! c := get_aux child in
  put_aux child (upd_ln (fun l => ALink (a_sec l) true (a_parents l ++ [name_of p]) (a_sel l)) c) ;;
  let! p' := get_aux parent in
  put_aux parent (upd_ln (fun l => ALink (dset (a_sec l) (name_of c) child) (a_issec l) (a_parents l) (a_sel l)) p').

(** [set_selection_probability] with an object that is a selector (271-286). *)
Definition set_selection (i sel : nat) : AM unit :=
  let! a := get_aux i in
  put_aux i (upd_ln (fun l => ALink (a_sec l) (a_issec l) (a_parents l) sel) a).

(** [set_luminosity], [set_spatial_values] (246-269). *)
Definition set_lum (i : nat) (l : list V) : AM unit := upd_aux i (dy_lum l).
Definition set_sp (i : nat) (s : spvals E) : AM unit := upd_aux i (dy_sp s).

(** ** Drawing *)
Fixpoint sec_values (h : list sampler) (l : dict nat) : dict (option (list V) * option (list V)) :=
  match l with
  | nil => nil
  | (k, j) :: r =>
      (k, match nth_error h j with Some b => (a_true (a_dy b), a_obs (a_dy b)) | None => (None, None) end)
      :: sec_values h r
  end.
Definition view_of (h : list sampler) (a : sampler) : view :=
  View (a_sp (a_dy a)) (a_lum (a_dy a)) (a_true (a_dy a)) (a_obs (a_dy a)) (sec_values h (a_sec (a_ln a))).

(** Read parameters of sampler [i]. *)
Definition aux_reads (i : nat) (ks : list string) : AM (list V) :=
  let! a := get_aux i in
  let (r, o) := preads E (k_params (kind_of a)) ks (a_par (a_dy a)) in
  upd_aux i (dy_par o) ;; lift r.

(** [self.true_sampler(size)] *)
Definition run_true (i size : nat) : AM unit :=
  let! a := get_aux i in
  modify (w_add_log i) ;;
  let! vals := aux_reads i (k_treads (kind_of a)) in
  let! a' := get_aux i in
  let! x := (fun w => let (r, g) := k_true (kind_of a) vals (view_of (w_auxs w) a') size (w_g w, w_n w) in
                      (r, w_set_gens g w)) in
  match x with None => ret tt | Some l => upd_aux i (dy_true (Some l)) end.

(** [self.observation_sampler(size)] *)
Definition run_obs (i size : nat) : AM unit :=
  let! a := get_aux i in
  let! vals := aux_reads i (k_oreads (kind_of a)) in
  let! a' := get_aux i in
  let! x := (fun w => let (r, g) := k_obs (kind_of a) vals (view_of (w_auxs w) a') size (w_g w, w_n w) in
                      (r, w_set_gens g w)) in
  match x with None => ret tt | Some l => upd_aux i (dy_obs (Some l)) end.

(** [self._probability = self._compute_probability()] *)
Definition run_prob (i : nat) : AM unit :=
  let! a := get_aux i in
  let! vals := aux_reads i (k_preads (kind_of a)) in
  let! a' := get_aux i in
  let! w := get in
  let! x := lift (k_prob (kind_of a) vals (view_of (w_auxs w) a')) in
  upd_aux i (dy_prob x).

(** [v is not None and len(v) == size] *)
Definition has_len (size : nat) (v : option (list V)) : bool :=
  match v with None => false | Some l => Nat.eqb (length l) size end.

(** [self._selector.set_observed_value(self._obs_values)] (377); the values may be
    [None]. *)
Definition sel_set_obs (v : option (list V)) (s : selector) : selector :=
  with_data s (SelData (d_oflux (s_data s)) v (d_dist (s_data s)) (d_lum (s_data s)) (d_sp (s_data s))).

(** The part of [draw] before the secondaries (auxiliary_sampler.py:337-349): hand
    distances and luminosities to the selector; a missing luminosity is ignored. *)
Definition aux_pre (a : sampler) : AM unit :=
  (if a_usesd (a_st a) then
     match a_sp (a_dy a) with
     | None => raise AttributeError
     | Some sp => upd_sel (a_sel (a_ln a)) (fun s => set_distance s (sv_dist sp))
     end
   else ret tt) ;;
  match a_lum (a_dy a) with
  | None => ret tt
  | Some l => upd_sel (a_sel (a_ln a)) (fun s => SelModel.set_luminosity s l)
  end.

(** The part after the secondaries (365-401): sample, observe, check, select. *)
Definition aux_finish (prog : bool) (i size : nat) : AM unit :=
  run_true i size ;;
  let! a1 := get_aux i in
  (if a_observed (a_st a1) then run_obs i size
   else upd_aux i (dy_obs (a_true (a_dy a1)))) ;;
  let! a2 := get_aux i in
  upd_sel (a_sel (a_ln a2)) (sel_set_obs (a_obs (a_dy a2))) ;;
  lift (rassert (has_len size (a_true (a_dy a2)))) ;;
  lift (rassert (has_len size (a_obs (a_dy a2)))) ;;
  upd_aux i (dy_sampled true) ;;
  on_sel (a_sel (a_ln a2)) (@sel_draw E prog size) ;;
  run_prob i.

(** [draw(size)] (auxiliary_sampler.py:320-401).  [fuel] is python's recursion
    limit, counted in nested calls of [draw]. *)
Fixpoint aux_draw (prog : bool) (fuel i size : nat) : AM unit :=
  match fuel with
  | O => raise RecursionError
  | S n =>
      let! a := get_aux i in
      if a_sampled (a_dy a) then ret tt
      else
        aux_pre a ;;
        iterM (fun kv =>
          let! b := get_aux (snd kv) in
          if a_issec (a_ln b) then
            match a_sp (a_dy a) with
            | None => raise AttributeError
            | Some sp => set_sp (snd kv) sp ;; aux_draw prog n (snd kv) size
            end
          else raise RuntimeError) (a_sec (a_ln a)) ;;
        aux_finish prog i size
  end.

(** [reset()] (auxiliary_sampler.py:417-438). *)
Fixpoint aux_reset (fuel i : nat) : AM unit :=
  match fuel with
  | O => raise RecursionError
  | S n =>
      let! a := get_aux i in
      (if a_sampled (a_dy a) then
         upd_aux i (fun d => ADyn (a_par d) false None None (a_prob d) (a_lum d) (a_sp d)) ;;
         upd_sel (a_sel (a_ln a)) (@sel_reset E)
       else ret tt) ;;
      iterM (fun kv => aux_reset n (snd kv)) (a_sec (a_ln a))
  end.

(** ** Collecting properties *)

(** [SecondaryContainer] (23-119): the values at the moment of collection and a
    reference to the selector. *)
Record container := Container {
  c_true : option (list V);
  c_obs : option (list V);
  c_sel : nat;
  c_prob : option (list V) }.

(** [probability] (406-415).  [np.ones_like(None)] is a scalar that no code
    consumes; it is [None] here. *)
Definition probability_of (a : sampler) : option (list V) :=
  match a_prob (a_dy a) with
  | Some p => Some p
  | None => option_map (fun t => repeat (vofnat E 1) (length t)) (a_true (a_dy a))
  end.
Definition container_of (a : sampler) : container :=
  Container (a_true (a_dy a)) (a_obs (a_dy a)) (a_sel (a_ln a)) (probability_of a).

Definition storage := dict container.

(** [DotMap.empty()]: no key is truthy. *)
Definition st_empty (s : storage) : bool := forallb (fun kv => String.eqb (fst kv) "") s.
(** [SecondaryStorage.__add__] (145-160). *)
Definition st_add (s o : storage) : storage :=
  if st_empty s then o else if st_empty o then s else dupdate s o.

(** A directed graph as networkx keeps it: nodes with their attribute [observed]
    (absent if only mentioned by an edge), and edges. *)
Record graph := Graph { gr_nodes : dict (option bool); gr_edges : list (string * string) }.
Definition g_empty : graph := Graph nil nil.
(** [add_node(k, observed=b)] / [add_node(k)] *)
Definition add_node (k : string) (b : option bool) (g : graph) : graph :=
  match b, dget (gr_nodes g) k with
  | None, Some _ => g
  | _, _ => Graph (dset (gr_nodes g) k b) (gr_edges g)
  end.
Definition edge_eqb (e f : string * string) : bool := String.eqb (fst e) (fst f) && String.eqb (snd e) (snd f).
(** [add_edge(u, v)] *)
Definition add_edge (u v : string) (g : graph) : graph :=
  let g1 := add_node v None (add_node u None g) in
  Graph (gr_nodes g1) (if existsb (edge_eqb (u, v)) (gr_edges g1) then gr_edges g1 else gr_edges g1 ++ [(u, v)]).

(** [get_secondary_properties(graph, primary, spatial_distribution)] (452-504).
    The graph, if any, is the state.  A sampler has no attribute [_graph] (486). *)
Fixpoint sec_props (fuel : nat) (h : list sampler) (i : nat) (primary : string) : M (option graph) storage :=
  match fuel with
  | O => raise RecursionError
  | S n =>
      match nth_error h i with
      | None => raise Unmodelled
      | Some a =>
          let! acc := foldM (fun acc kv =>
            let (k, j) := kv : string * nat in
            match nth_error h j with
            | None => raise Unmodelled
            | Some b =>
                let! g := get in
                match g with
                | None => ret tt
                | Some g =>
                    let g1 := add_edge k primary (add_node k (Some false) g) in
                    let g2 := if a_observed (a_st b)
                              then add_edge k (obs_name_of b) (add_node (obs_name_of b) (Some false) g1)
                              else g1 in
                    put (Some g2) ;;
                    (if a_usesd (a_st b) then raise AttributeError else ret tt)
                end ;;
                let! s := sec_props n h j k in
                ret (st_add acc s)
            end) nil (a_sec (a_ln a)) in
          ret (dset acc (name_of a) (container_of a))
      end
  end.

End Aux.
