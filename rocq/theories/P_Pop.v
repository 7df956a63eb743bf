(** C39, C40, C41, C43: populations. *)
From Verif Require Import Base BaseFacts Env SimVarModel SimVarSpec PopModel SynthModel SynthSpec PopSpec Toy SynthExamples PopExamples.
From Verif Require PopProofs.
Open Scope string_scope.
Open Scope list_scope.
Open Scope nat_scope.

(** ** C39: construction *)
Theorem C39_built_iff_consistent : forall E (a : popargs E), free_names a ->
  (consistent a -> exists p, pop_new a = Ok p) /\ (~ consistent a -> pop_new a = Err AssertionError).
Proof. exact PopProofs.new_iff_consistent. Qed.
(** Whatever the names: a population that could be built is consistent. *)
Theorem C39_built_is_consistent : forall E (a : popargs E) p, pop_new a = Ok p -> consistent a /\ faithful a p.
Proof. intros E a p H. split; [now apply PopProofs.new_consistent with p|now apply PopProofs.new_faithful]. Qed.
Theorem C39_counts : forall E (a : popargs E) p, pop_new a = Ok p ->
  p_nobj p = length (pa_sel a) /\ p_ndet p = count (pa_sel a) /\ p_ndet p + p_nnon p = p_nobj p /\ (p_nodet p = true <-> p_ndet p = 0).
Proof. exact PopProofs.new_counts. Qed.
Theorem C39_name_hides_wrong_space_refuted : exists a : popargs toy, ~ spaces_fit a /\ pop_new a = Err AttributeError.
Proof. exact bad_name_first. Qed.

(** ** C40: Stan data *)
Theorem C40_available : forall E (a : popargs E) p, pop_new a = Ok p -> pa_spaces a <> None -> pa_aux a <> None -> exists d, stan_data p = Ok d.
Proof. exact PopProofs.stan_available. Qed.
Theorem C40_entries : forall E (a : popargs E) p d sp ax, pop_new a = Ok p -> stan_data p = Ok d -> pa_spaces a = Some sp -> pa_aux a = Some ax ->
  stan_keys_apart E sp ax ->
  dget d "N" = Some (SNat E (count (pa_sel a))) /\
  dget d "Nz" = Some (SNat E (length (pa_known a))) /\ dget d "Nnz" = Some (SNat E (length (pa_uidx a))) /\
  dget d "z_idx" = Some (SIdx E (map S (pa_kidx a))) /\ dget d "z_nidx" = Some (SIdx E (map S (pa_uidx a))) /\
  dget d "r_idx" = dget d "z_idx" /\ dget d "r_nidx" = dget d "z_nidx" /\
  entry_is d "z_obs" (keep true (pa_dist a) (pa_sel a)) /\ entry_is d "r_obs" (keep true (pa_dist a) (pa_sel a)) /\
  entry_is d "known_z_obs" (pa_known a) /\ entry_is d "known_r_obs" (pa_known a) /\
  entry_is d "flux_obs" (keep true (pa_fobs a) (pa_sel a)) /\
  entry_is d "log_flux_obs" (map (vlog10 E) (keep true (pa_fobs a) (pa_sel a))) /\
  dget d "flux_sigma" = Some (SNum E (pa_sigma a)) /\ dget d "z_max" = Some (SNum E (pa_rmax a)) /\
  dget d "r_max" = Some (SNum E (pa_rmax a)) /\ dget d "N_model" = Some (SNat E (pa_nmodel a)) /\
  (forall k l, In (k, l) sp -> entry_is d k l) /\
  (forall k t o, In (k, (t, o)) ax -> entry_is d (k ++ "_obs")%string (keep true o (pa_sel a))).
Proof. exact PopProofs.stan_contents. Qed.
Theorem C40_lengths : forall E (a : popargs E) p d sp ax, pop_new a = Ok p -> stan_data p = Ok d -> pa_spaces a = Some sp -> pa_aux a = Some ax ->
  stan_keys_apart E sp ax ->
  exists n nz nnz, dget d "N" = Some (SNat E n) /\ dget d "Nz" = Some (SNat E nz) /\ dget d "Nnz" = Some (SNat E nnz) /\
  n = p_ndet p /\ nz + nnz = n /\
  (forall k, In k ["z_obs"; "r_obs"; "flux_obs"; "log_flux_obs"] -> exists l, entry_is d k l /\ length l = n) /\
  (forall k t o, In (k, (t, o)) ax -> exists l, entry_is d (k ++ "_obs")%string l /\ length l = n) /\
  (forall k l, In (k, l) sp -> exists m, entry_is d k l /\ dget d "N_model" = Some (SNat E m) /\ length l = m).
Proof. exact PopProofs.stan_lengths. Qed.
Theorem C40_indices_of_surveys : forall E prog fuel rl fs l10 ns norm (y : synth E) p y',
  draw_survey prog fuel rl fs l10 ns norm y = (Ok p, y') -> forall d, stan_data p = Ok d ->
  (forall sp ax, pa_spaces (p_args p) = Some sp -> pa_aux (p_args p) = Some ax -> stan_keys_apart E sp ax) ->
  exists n ki ui, dget d "N" = Some (SNat E n) /\ dget d "z_idx" = Some (SIdx E ki) /\ dget d "z_nidx" = Some (SIdx E ui) /\
    dget d "r_idx" = Some (SIdx E ki) /\ dget d "r_nidx" = Some (SIdx E ui) /\ splits_one_to n ki ui.
Proof. exact PopProofs.stan_partition. Qed.
Theorem C40_flux_overwritten_refuted : exists p d, pop_new (demo "flux") = Ok p /\ stan_data p = Ok d /\
  dget d "flux_obs" = Some (SArr toy [5; 7; 8]%Z) /\ keep true (sv_obs (p_flux p)) (pa_sel (p_args p)) = [2; 4; 5]%Z.
Proof. exact stan_overwritten. Qed.
Theorem C40_count_overwritten_refuted : exists p d, pop_new named_n = Ok p /\ stan_data p = Ok d /\ dget d "N" = Some (SArr toy [0; 1]%Z) /\ p_ndet p = 3.
Proof. exact stan_count_overwritten. Qed.
Theorem C40_indices_unchecked_refuted : exists p d, pop_new overlapping = Ok p /\ stan_data p = Ok d /\
  dget d "z_idx" = Some (SIdx toy [1; 2]) /\ dget d "z_nidx" = Some (SIdx toy [2]) /\ ~ splits_one_to 3 [1; 2] [2].
Proof. exact stan_overlap. Qed.

(** ** C41: sub-populations *)
Theorem C41_objects : forall E b (a : popargs E) p, pop_new a = Ok p -> exists q, sub_population b p = Ok q /\ sub_of b p q.
Proof. intros E b a p H. destruct (PopProofs.sub_spec E b a p H) as (q & Q & S & _). eauto. Qed.
(** What happens to the known distances: object [k] is known in the sub-population
    iff the number [k] is one of the known distances. *)
Theorem C41_known_exact : forall E b (a : popargs E) p, pop_new a = Ok p -> exists q, sub_population b p = Ok q /\
  forall k j, becomes b p k j ->
    (In j (pa_kidx (p_args q)) <-> exists d, In d (pa_known a) /\ veq E (vofnat E k) d = true) /\
    (In j (pa_uidx (p_args q)) <-> ~ exists d, In d (pa_known a) /\ veq E (vofnat E k) d = true) /\
    (forall n, nth_error (pa_kidx (p_args q)) n = Some j -> nth_error (pa_known (p_args q)) n = nth_error (pa_dist a) k).
Proof. intros E b a p H. destruct (PopProofs.sub_spec E b a p H) as (q & Q & _ & S). eauto. Qed.
Theorem C41_known_forgotten_refuted : exists p q, pop_new (demo "x") = Ok p /\ sub_population true p = Ok q /\
  distance_known p 3 /\ becomes true p 3 2 /\ ~ In 2 (pa_kidx (p_args q)).
Proof. exact sub_forgets. Qed.
Theorem C41_known_invented_refuted : exists p q, pop_new coincident = Ok p /\ sub_population true p = Ok q /\
  ~ distance_known p 2 /\ becomes true p 2 1 /\ In 1 (pa_kidx (p_args q)).
Proof. exact sub_invents. Qed.

(** ** C43: auxiliary quantities as attributes *)
(** The attributes left by the constructor.  [names] tells which values are lists of
    names, [d] is the dictionary of quantities, [o] holds all other attributes. *)
Theorem C43_attributes : forall E T (names : T -> option (list string)) (inj : simvar (V E) -> T) (a : popargs E) p x d o,
  pop_new a = Ok p -> pa_aux a = Some x -> NoDup (map fst x) -> at_prot o = Names [] ->
  exists o', finish names (map (fun kv => (fst kv, inj (snd kv))) (p_aux p)) d o = (Ok tt, o') /\
    at_prot o' = Names (map fst x) /\ forall k v, In (k, v) (p_aux p) -> dget (at_vals o') k = Some (inj v).
Proof. exact PopProofs.finish_population. Qed.
Theorem C43_protected : forall T (names : T -> option (list string)) qs d o u o' h k v0 v,
  at_prot o = Names [] -> ~ In "_protected_names" (map fst qs) -> finish names qs d o = (Ok u, o') -> In (k, v0) qs ->
  (forall op, In op h -> op_name op <> "_protected_names" /\ op <> Delete k) ->
  setattr names k v (attr_run names h o') = (Err AttributeError, attr_run names h o') /\
  dget (at_vals (attr_run names h o')) k = Some v0.
Proof. exact PopProofs.protected_always. Qed.
Theorem C43_others_assignable : forall T (names : T -> option (list string)) qs d o u o' h k v,
  at_prot o = Names [] -> ~ In "_protected_names" (map fst qs) -> finish names qs d o = (Ok u, o') ->
  (forall op, In op h -> op_name op <> "_protected_names") ->
  ~ In k (map fst qs) -> k <> "_protected_names" -> ~ In k readonly -> ~ In k special ->
  exists o'', setattr names k v (attr_run names h o') = (Ok tt, o'') /\ dget (at_vals o'') k = Some v /\
    forall k', k' <> k -> dget (at_vals o'') k' = dget (at_vals (attr_run names h o')) k'.
Proof. exact PopProofs.others_assignable. Qed.
Theorem C43_property_name_refused : forall E (a : popargs E) x k v, consistent a -> pa_aux a = Some ((k, v) :: x) -> In k readonly ->
  pop_new a = Err AttributeError.
Proof. exact PopProofs.new_property_name. Qed.
Theorem C43_construction_refuted : exists k, consistent (demo k) /\ pop_new (demo k) = Err AttributeError.
Proof. exact bad_name. Qed.
Theorem C43_unprotected_refuted : exists o o1 o2, finish value_names quants (inl 9%Z) start = (Ok tt, o) /\
  setattr value_names "_protected_names" (inr []) o = (Ok tt, o1) /\ setattr value_names "x" (inl 5%Z) o1 = (Ok tt, o2) /\
  dget (at_vals o) "x" = Some (inl 1%Z) /\ dget (at_vals o2) "x" = Some (inl 5%Z).
Proof. exact unprotected. Qed.
Theorem C43_deletable_refuted : exists o o1, finish value_names quants (inl 9%Z) start = (Ok tt, o) /\
  delattr "x" o = (Ok tt, o1) /\ dget (at_vals o) "x" = Some (inl 1%Z) /\ dget (at_vals o1) "x" = None.
Proof. exact deleted. Qed.

Print Assumptions C39_built_iff_consistent.
Print Assumptions C39_built_is_consistent.
Print Assumptions C39_counts.
Print Assumptions C39_name_hides_wrong_space_refuted.
Print Assumptions C40_available.
Print Assumptions C40_entries.
Print Assumptions C40_lengths.
Print Assumptions C40_indices_of_surveys.
Print Assumptions C40_flux_overwritten_refuted.
Print Assumptions C40_count_overwritten_refuted.
Print Assumptions C40_indices_unchecked_refuted.
Print Assumptions C41_objects.
Print Assumptions C41_known_exact.
Print Assumptions C41_known_forgotten_refuted.
Print Assumptions C41_known_invented_refuted.
Print Assumptions C43_attributes.
Print Assumptions C43_protected.
Print Assumptions C43_others_assignable.
Print Assumptions C43_property_name_refused.
Print Assumptions C43_construction_refuted.
Print Assumptions C43_unprotected_refuted.
Print Assumptions C43_deletable_refuted.
