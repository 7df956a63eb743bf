(** Specification vocabulary for population synths and surveys. *)
From Verif Require Import Base Env ParamModel SelModel SelSpec SimVarModel DistModel DistSpec AuxModel AuxSpec Tree PopModel SynthModel.
From Coq Require Export Sorting.Sorted.
Set Implicit Arguments.
Open Scope string_scope.
Open Scope list_scope.

(** Object [k] is the [i]-th (from zero) of those selected by [m]. *)
Definition ith_selected (m : list bool) (i k : nat) : Prop :=
  nth_error m k = Some true /\ count (firstn k m) = i.

(** Mask [m] accepts object [i]; a mask of length one stands for all objects
    (numpy repeats it). *)
Definition accepts (m : list bool) (i : nat) : Prop :=
  nth (if Nat.eqb (length m) 1 then 0 else i) m false = true.

Section Spec.
Variable E : env.
Notation V := (V E).
Notation Rst := (Rst E).
Notation world := (world E).
Notation synth := (synth E).
Notation population := (population E).

(** Sampler [j] takes part in the survey: it is registered, or the source of the
    luminosities, or a direct or indirect secondary of such a sampler. *)
Definition part (y : synth) (j : nat) : Prop :=
  (exists k i, In (k, i) (y_aux y) /\ reaches (y_w y) i j) \/
  (exists i, y_der y = Some i /\ reaches (y_w y) i j).

(** The participants have distinct, non-empty names. *)
Definition distinct_names (y : synth) : Prop :=
  (forall j b, part y j -> at_ (y_w y) j b -> name_of b <> "") /\
  (forall j j' b b', part y j -> part y j' -> at_ (y_w y) j b -> at_ (y_w y) j' b' ->
     name_of b = name_of b' -> j = j').

(** Selector object [i] has mask [m]. *)
Definition mask_at (w : world) (i : nat) (m : list bool) : Prop :=
  exists s, nth_error (w_sels w) i = Some s /\ s_mask s = Some m.

(** Selector object [k] lets object [i] pass: it is a UnitySelection, or its mask
    accepts [i]. *)
Definition passes (w : world) (k i : nat) : Prop := exists s, nth_error (w_sels w) k = Some s /\
  (is_unity (s_kind s) = true \/ exists m, s_mask s = Some m /\ accepts m i).

(** The spatial and distance selectors are objects of their own. *)
Definition selectors_apart (y : synth) : Prop :=
  (forall k, y_ssel y = Some k -> k <> y_dsel y /\ k <> y_flux y /\ forall j b, part y j -> at_ (y_w y) j b -> a_sel (a_ln b) <> k) /\
  y_dsel y <> y_flux y /\ (forall j b, part y j -> at_ (y_w y) j b -> a_sel (a_ln b) <> y_dsel y).
(** So is the flux selector. *)
Definition flux_apart (y : synth) : Prop := forall j b, part y j -> at_ (y_w y) j b -> a_sel (a_ln b) <> y_flux y.

(** No sampler was drawn from since its creation or reset. *)
Definition never_drawn (w : world) : Prop := forall j, ~ sampled w j.
(** The secondaries of a drawn sampler are drawn: kept by every survey and draw. *)
Definition well_drawn (w : world) : Prop := forall i j, sampled w i -> depends w i j -> sampled w j.

(** A selector with the same class, name, flags and parameters. *)
Definition set_up (s s' : selector E) : Prop :=
  s_kind s' = s_kind s /\ s_type s' = s_type s /\ s_name s' = s_name s /\
  s_fobs s' = s_fobs s /\ s_fdist s' = s_fdist s /\ s_flum s' = s_flum s /\ s_fflux s' = s_fflux s /\
  forall k v, par_is s k v <-> par_is s' k v.

(** [truth] is asked for these samplers: the luminosity source, the registered ones
    and their direct secondaries. *)
Definition listed (y : synth) (j : nat) : Prop :=
  (exists i, y_der y = Some i /\ (j = i \/ depends (y_w y) i j)) \/
  (exists k i, In (k, i) (y_aux y) /\ (j = i \/ depends (y_w y) i j)).

(** The normalisation parameter, if used already, holds a number. *)
Definition norm_value (o : pobj V) : Prop := forall k, po_norm o = Some k -> dget (po_store o) k <> Some None.

(** All per-object arrays of the population have length [n]. *)
Record sized (n : nat) (p : population) : Prop := Sized {
  sz_nobj : p_nobj p = n;
  sz_counts : p_ndet p + p_nnon p = n;
  sz_ndet : p_ndet p = length (np_where (pa_sel (p_args p)));
  sz_sel : length (pa_sel (p_args p)) = n;
  sz_lum : length (sv_obs (p_lum p)) = n /\ length (sv_lat (p_lum p)) = n;
  sz_dist : length (sv_obs (p_dist p)) = n /\ length (sv_lat (p_dist p)) = n;
  sz_flux : length (sv_obs (p_flux p)) = n /\ length (sv_lat (p_flux p)) = n;
  sz_theta : length (sv_obs (p_theta p)) = n;
  sz_phi : length (sv_obs (p_phi p)) = n;
  sz_prob : exists q, p_prob p = Some q /\ length (sv_obs q) = n;
  sz_aux : forall k v, In (k, v) (p_aux p) -> length (sv_obs v) = n /\ length (sv_lat v) = n }.

(** The generator states and numba's generator of a synth replaced. *)
Definition set_gens (g : Rst) (k : Nst E) (y : synth) : synth := with_w y (w_set_gens (g, k) (y_w y)).

(** A sampler class that neither looks at nor changes numba's generator. *)
Definition numba_free (k : akind E) : Prop :=
  (forall vals v n g x, k_true k vals v n (g, x) =
     (fst (k_true k vals v n (g, x)), (fst (snd (k_true k vals v n (g, x))), x))) /\
  (forall vals v n g x x', fst (k_true k vals v n (g, x)) = fst (k_true k vals v n (g, x')) /\
     fst (snd (k_true k vals v n (g, x))) = fst (snd (k_true k vals v n (g, x')))) /\
  (forall vals v n g x, k_obs k vals v n (g, x) =
     (fst (k_obs k vals v n (g, x)), (fst (snd (k_obs k vals v n (g, x))), x))) /\
  (forall vals v n g x x', fst (k_obs k vals v n (g, x)) = fst (k_obs k vals v n (g, x')) /\
     fst (snd (k_obs k vals v n (g, x))) = fst (snd (k_obs k vals v n (g, x')))).

(** The [i]-th observed flux: from latent flux [f] and normal draw [e]. *)
Definition noisy (log10d : bool) (f e : V) : V :=
  if log10d then vexp10 E (vadd E (vlog10 E f) e) else vexp E (vadd E (vln E f) e).

(** Entry [i] of an array; an array of length one stands for all objects. *)
Definition value_at (q : list V) (i : nat) : option V := nth_error q (if Nat.eqb (length q) 1 then 0 else i).
(** [x] times the [i]-th entries of [qs], multiplied from left to right. *)
Definition product_at (x : option V) (qs : list (list V)) (i : nat) : option V :=
  fold_left (fun acc q => match acc, value_at q i with Some a, Some b => Some (vmul E a b) | _, _ => None end) qs x.

(** ** Registration and the dependency graph *)

(** Registered samplers exist and are filed under their names. *)
Definition named (y : synth) : Prop :=
  forall k i, In (k, i) (y_aux y) -> exists a, at_ (y_w y) i a /\ name_of a = k.

(** The luminosities come from a distribution or from a sampler. *)
Definition has_source (y : synth) : Prop := y_der y <> None \/ y_lum y <> None.

(** No secondary of a secondary depends on the distance. *)
Definition shallow (y : synth) : Prop := forall p c d b, part y p ->
  depends (y_w y) p c -> depends (y_w y) c d -> at_ (y_w y) d b -> a_usesd (a_st b) = false.

(** The edges of the dependency graph. *)
Inductive graph_edge (y : synth) : string * string -> Prop :=
  | ge_space : graph_edge y (sd_name (y_sp y), "obs_flux")
  | ge_lum l : y_der y = None -> y_lum y = Some l -> graph_edge y (ld_name l, "obs_flux")
  | ge_der i a : y_der y = Some i -> at_ (y_w y) i a -> graph_edge y (name_of a, "obs_flux")
  | ge_der_space i a : y_der y = Some i -> at_ (y_w y) i a -> a_usesd (a_st a) = true ->
      graph_edge y (sd_name (y_sp y), name_of a)
  (* every secondary, at any depth, to its parent *)
  | ge_sec p a c b : part y p -> depends (y_w y) p c -> at_ (y_w y) p a -> at_ (y_w y) c b ->
      graph_edge y (name_of b, name_of a)
  (* observed samplers to their observed values *)
  | ge_obs k i c b : In (k, i) (y_aux y) -> reaches (y_w y) i c -> at_ (y_w y) c b -> a_observed (a_st b) = true ->
      graph_edge y (name_of b, obs_name_of b)
  | ge_der_obs i j p c b : y_der y = Some i -> depends (y_w y) i j -> reaches (y_w y) j p -> depends (y_w y) p c ->
      at_ (y_w y) c b -> a_observed (a_st b) = true -> graph_edge y (name_of b, obs_name_of b)
  (* the spatial distribution to the samplers that use the distance *)
  | ge_top_space k i a : In (k, i) (y_aux y) -> at_ (y_w y) i a -> a_observed (a_st a) = true -> a_usesd (a_st a) = true ->
      graph_edge y (sd_name (y_sp y), name_of a)
  | ge_sec_space k i c b : In (k, i) (y_aux y) -> depends (y_w y) i c -> at_ (y_w y) c b -> a_usesd (a_st b) = true ->
      graph_edge y (sd_name (y_sp y), name_of b).

(** ** Cleaning *)

(** Nothing is registered: unity flux and distance selectors that were not used
    yet, no spatial selector. *)
Record bare (y : synth) : Prop := Bare {
  ba_aux : y_aux y = nil;
  ba_der : y_der y = None;
  ba_ssel : y_ssel y = None;
  ba_fset : y_fluxset y = false;
  ba_dset : y_dset y = false;
  ba_flux : nth_error (w_sels (y_w y)) (y_flux y) = Some (unity E "unity flux selector");
  ba_dist : nth_error (w_sels (y_w y)) (y_dsel y) = Some (unity E "unity distance selector") }.

(** The configuration that [clean] keeps. *)
Definition kept_conf (y y' : synth) : Prop :=
  y_sp y' = y_sp y /\ y_spm y' = y_spm y /\ y_lum y' = y_lum y /\ y_lumm y' = y_lumm y /\ y_seed y' = y_seed y /\ y_name y' = y_name y /\
  y_nmodel y' = y_nmodel y /\ y_spaces y' = y_spaces y /\ y_graph y' = y_graph y.

(** A population without its graph. *)
Definition graph_off (p : population) : population :=
  let a := p_args p in
  Pop (PopArgs E (pa_lum a) (pa_dist a) (pa_known a) (pa_kidx a) (pa_uidx a) (pa_flux a) (pa_fobs a) (pa_sel a) (pa_sigma a)
         (pa_rmax a) (pa_nmodel a) (pa_lfpar a) (pa_sppar a) (pa_spaces a) (pa_seed a) (pa_name a) (pa_spform a) (pa_lfform a)
         (pa_aux a) (pa_truth a) g_empty (pa_theta a) (pa_phi a) (pa_popsynth a) (pa_prob a))
      (p_lum p) (p_dist p) (p_theta p) (p_phi p) (p_flux p) (p_prob p) (p_nobj p) (p_ndet p) (p_nnon p) (p_nodet p) (p_aux p).

(** A history of registrations, each of which may fail. *)
Fixpoint register (l : list (registrable)) (y : synth) : synth :=
  match l with nil => y | x :: r => register r (snd (add_quantity x y)) end.

End Spec.
