(** C05-C11: selections. *)
From Verif Require Import Base Env ParamModel SelModel SelSpec SelProofs SelTight SelExamples.
Open Scope string_scope.

Section P.
Variable E : env.
Notation selector := (selector E).

(** C05.  Object i is selected iff value_i >= boundary. *)
Theorem C05_lower_bound_exact progress size (s : selector) g v b :
  s_kind s = KLower E -> selects_on s (Some v) -> par_is s "boundary" b ->
  exists m, draws progress size s g m g /\ mask_is m v (fun x => vle E b x = true).
Proof. exact (lower_exact E progress size s g v b). Qed.

(** C05.  Object i is selected iff value_i <= boundary. *)
Theorem C05_upper_bound_exact progress size (s : selector) g v b :
  s_kind s = KUpper E -> selects_on s (Some v) -> par_is s "boundary" b ->
  exists m, draws progress size s g m g /\ mask_is m v (fun x => vle E x b = true).
Proof. exact (upper_exact E progress size s g v b). Qed.

(** C05.  Object i is selected iff vmin <= value_i <= vmax. *)
Theorem C05_box_exact progress size (s : selector) g v lo hi :
  s_kind s = KBox E -> selects_on s (Some v) -> par_is s "vmin" lo -> par_is s "vmax" hi ->
  exists m, draws progress size s g m g /\
            mask_is m v (fun x => vle E lo x = true /\ vle E x hi = true).
Proof. exact (box_exact E progress size s g v lo hi). Qed.

(** C05.  Without any flag, an exception; a failed draw leaves no new mask. *)
Theorem C05_no_flag_raises progress size (s : selector) g :
  bound_kind E s -> no_flag s -> sel_draw progress size (s, g) = (Err NameError, (s, g)).
Proof. exact (bound_no_flag E progress size s g). Qed.

Theorem C05_flag_or_source (s : selector) : no_flag s \/ exists v, selects_on s v.
Proof. exact (selects_on_total E s). Qed.

Theorem C05_missing_input_raises progress size (s : selector) g :
  s_kind s = KLower E \/ s_kind s = KUpper E ->
  (forall v, selects_on s v -> par_unset s "boundary" ->
     fst (sel_draw progress size (s, g)) = Err AssertionError) /\
  (forall b, selects_on s None -> par_is s "boundary" b ->
     fst (sel_draw progress size (s, g)) = Err TypeError).
Proof. exact (lower_upper_errors E progress size s g). Qed.

Theorem C05_failure_keeps_mask progress size (s : selector) g e s' g' :
  bound_kind E s -> sel_draw progress size (s, g) = (Err e, (s', g')) ->
  s_mask s' = s_mask s /\ g' = g.
Proof. exact (bound_failure_keeps_mask E progress size s g e s' g'). Qed.

(** C06. *)
Theorem C06_lower_bound_monotone progress size (s1 s2 : selector) g v b1 b2 m1 m2 :
  le_trans E -> s_kind s1 = KLower E -> s_kind s2 = KLower E ->
  selects_on s1 (Some v) -> selects_on s2 (Some v) ->
  par_is s1 "boundary" b1 -> par_is s2 "boundary" b2 -> vle E b1 b2 = true ->
  draws progress size s1 g m1 g -> draws progress size s2 g m2 g -> mask_subset m2 m1.
Proof. exact (lower_monotone E progress size s1 s2 g v b1 b2 m1 m2). Qed.

Theorem C06_upper_bound_monotone progress size (s1 s2 : selector) g v b1 b2 m1 m2 :
  le_trans E -> s_kind s1 = KUpper E -> s_kind s2 = KUpper E ->
  selects_on s1 (Some v) -> selects_on s2 (Some v) ->
  par_is s1 "boundary" b1 -> par_is s2 "boundary" b2 -> vle E b2 b1 = true ->
  draws progress size s1 g m1 g -> draws progress size s2 g m2 g -> mask_subset m2 m1.
Proof. exact (upper_monotone E progress size s1 s2 g v b1 b2 m1 m2). Qed.

Theorem C06_box_monotone progress size (s1 s2 : selector) g v lo1 hi1 lo2 hi2 m1 m2 :
  le_trans E -> s_kind s1 = KBox E -> s_kind s2 = KBox E ->
  selects_on s1 (Some v) -> selects_on s2 (Some v) ->
  par_is s1 "vmin" lo1 -> par_is s1 "vmax" hi1 -> par_is s2 "vmin" lo2 -> par_is s2 "vmax" hi2 ->
  vle E lo1 lo2 = true -> vle E hi2 hi1 = true ->
  draws progress size s1 g m1 g -> draws progress size s2 g m2 g -> mask_subset m2 m1.
Proof. exact (box_monotone E progress size s1 s2 g v lo1 hi1 lo2 hi2 m1 m2). Qed.

(** C07. *)
Theorem C07_add_is_conjunction (s1 s2 : selector) m1 m2 :
  s_mask s1 = Some m1 -> s_mask s2 = Some m2 -> length m1 = length m2 ->
  exists t m, sel_add s1 s2 = Ok t /\ s_mask t = Some m /\ length m = length m1 /\
    forall i b1 b2, nth_error m1 i = Some b1 -> nth_error m2 i = Some b2 ->
                    nth_error m i = Some (b1 && b2).
Proof. exact (add_and E s1 s2 m1 m2). Qed.

Theorem C07_add_commutes (s1 s2 : selector) m1 m2 :
  s_mask s1 = Some m1 -> s_mask s2 = Some m2 -> sel_add s1 s2 = sel_add s2 s1.
Proof. exact (add_comm E s1 s2 m1 m2). Qed.

Theorem C07_add_associates (s1 s2 s3 : selector) m1 m2 m3 :
  s_mask s1 = Some m1 -> s_mask s2 = Some m2 -> s_mask s3 = Some m3 ->
  length m1 = length m2 -> length m2 = length m3 ->
  (let? t := sel_add s1 s2 in sel_add t s3) = (let? t := sel_add s2 s3 in sel_add s1 t).
Proof. exact (add_assoc E s1 s2 s3 m1 m2 m3). Qed.

Theorem C07_add_idempotent (s : selector) m : s_mask s = Some m ->
  exists t, sel_add s s = Ok t /\ s_mask t = Some m.
Proof. exact (add_idem E s m). Qed.

Theorem C07_add_length_mismatch (s1 s2 : selector) m1 m2 :
  s_mask s1 = Some m1 -> s_mask s2 = Some m2 ->
  length m1 <> length m2 -> length m1 <> 1 -> length m2 <> 1 ->
  sel_add s1 s2 = Err ValueError.
Proof. exact (add_mismatch E s1 s2 m1 m2). Qed.

Theorem C07_add_unsampled (s1 s2 : selector) : s_mask s2 = None -> sel_add s1 s2 = Err RuntimeError.
Proof. exact (add_unsampled_right E s1 s2). Qed.

(** C07.  A mask of length one is repeated to fit (why the length-one case is
    excluded above). *)
Theorem C07_add_length_one_repeats (s1 s2 : selector) m1 b :
  s_mask s1 = Some m1 -> s_mask s2 = Some [b] ->
  exists t, sel_add s1 s2 = Ok t /\ s_mask t = Some (map (fun x => x && b) m1).
Proof. exact (add_broadcast E s1 s2 m1 b). Qed.

(** C07.  A sum of any number of selectors selects i iff all of them do. *)
Theorem C07_sum_is_conjunction (l : list selector) s m :
  s_mask s = Some m ->
  (forall t, In t l -> exists mt, s_mask t = Some mt /\ length mt = length m) ->
  exists u mu, sel_sum s l = Ok u /\ s_mask u = Some mu /\ length mu = length m /\
    forall i, nth_error mu i = Some true <->
              nth_error m i = Some true /\
              forall t mt, In t l -> s_mask t = Some mt -> nth_error mt i = Some true.
Proof. exact (sum_is_forall E l s m). Qed.

(** C08.  No history without reset() changes the mask or uses the generator. *)
Theorem C08_select_is_cached p n (s : selector) g s' g' h m :
  sel_select p n (s, g) = (Ok tt, (s', g')) -> s_mask s' = Some m -> ~ In (OReset E) h ->
  s_mask (fst (selrun h (s', g'))) = Some m /\ snd (selrun h (s', g')) = g'.
Proof.
  exact (fun H M N => history_no_reset E h s' g' m N (proj1 (select_ok_sampled E p n s g s' g' H)) M).
Qed.

Theorem C08_reset_forgets p n (s : selector) g s' g' :
  sel_select p n (s, g) = (Ok tt, (s', g')) -> sel_selection (sel_reset s') = Err RuntimeError.
Proof. exact (reset_selection E p n s g s' g'). Qed.

Theorem C08_select_after_reset_is_fresh (s : selector) g p n :
  s_sampled s = true -> sel_select p n (sel_reset s, g) = sel_select p n (new_like s, g).
Proof. exact (select_after_reset E s g p n). Qed.

(** C09. *)
Theorem C09_counts_add_up (s : selector) m : s_mask s = Some m ->
  exists a b, n_selected s = Ok a /\ n_non_selected s = Ok b /\ n_objects s = Ok (length m) /\
              a + b = length m.
Proof. exact (counts E s m). Qed.

Theorem C09_indices_partition (s : selector) m : s_mask s = Some m ->
  exists a b, selection_index s = Ok a /\ non_selection_index s = Ok b /\
    StronglySorted lt a /\ StronglySorted lt b /\
    n_selected s = Ok (length a) /\ n_non_selected s = Ok (length b) /\
    (forall i, In i a <-> nth_error m i = Some true) /\
    (forall i, In i b <-> nth_error m i = Some false).
Proof. exact (indices E s m). Qed.

(** C10. *)
Theorem C10_galactic_plane_exact progress size (s : selector) g p lim :
  s_kind s = KGalactic E -> d_sp (s_data s) = Some p -> par_is s "b_limit" lim ->
  exists m, draws progress size s g m g /\
    mask_is m (combine (sv_ra p) (sv_dec p))
      (fun q => vle E lim (gal_b E (fst q) (snd q)) = true \/
                vle E (gal_b E (fst q) (snd q)) (vsub E (vofnat E 0) lim) = true).
Proof. exact (galactic_exact E progress size s g p lim). Qed.

Theorem C10_distance_exact progress size (s : selector) g p lo hi :
  s_kind s = KDistance E -> d_sp (s_data s) = Some p ->
  par_is s "min_distance" lo -> par_is s "max_distance" hi ->
  exists m, draws progress size s g m g /\
            mask_is m (sv_dist p) (fun r => vle E lo r = true /\ vle E r hi = true).
Proof. exact (distance_exact E progress size s g p lo hi). Qed.

Theorem C10_galactic_plane_monotone progress size (s1 s2 : selector) g p l1 l2 m1 m2 :
  le_trans E -> s_kind s1 = KGalactic E -> s_kind s2 = KGalactic E ->
  d_sp (s_data s1) = Some p -> d_sp (s_data s2) = Some p ->
  par_is s1 "b_limit" l1 -> par_is s2 "b_limit" l2 ->
  vle E l1 l2 = true -> vle E (vsub E (vofnat E 0) l2) (vsub E (vofnat E 0) l1) = true ->
  draws progress size s1 g m1 g -> draws progress size s2 g m2 g -> mask_subset m2 m1.
Proof. exact (galactic_monotone E progress size s1 s2 g p l1 l2 m1 m2). Qed.

Theorem C10_distance_monotone progress size (s1 s2 : selector) g p lo1 hi1 lo2 hi2 m1 m2 :
  le_trans E -> s_kind s1 = KDistance E -> s_kind s2 = KDistance E ->
  d_sp (s_data s1) = Some p -> d_sp (s_data s2) = Some p ->
  par_is s1 "min_distance" lo1 -> par_is s1 "max_distance" hi1 ->
  par_is s2 "min_distance" lo2 -> par_is s2 "max_distance" hi2 ->
  vle E lo1 lo2 = true -> vle E hi2 hi1 = true ->
  draws progress size s1 g m1 g -> draws progress size s2 g m2 g -> mask_subset m2 m1.
Proof. exact (distance_monotone E progress size s1 s2 g p lo1 hi1 lo2 hi2 m1 m2). Qed.

(** C11. *)
Theorem C11_unity_selects_all progress size (s : selector) g : s_kind s = KUnity E ->
  draws progress size s g (repeat true size) g.
Proof. exact (unity_exact E progress size s g). Qed.

(** C11.  [rdraws (r_bern E p) size g] is [size] successive Bernoulli draws. *)
Theorem C11_bernoulli_progress_irrelevant size (s : selector) g p :
  s_kind s = KBernoulli E -> par_is s "probability" p -> r_bern_ok E p = true ->
  let r := rdraws (r_bern E p) size g in
  draws true size s g (fst r) (snd r) /\ draws false size s g (fst r) (snd r) /\
  length (fst r) = size.
Proof. exact (bernoulli_paths E size s g p). Qed.

Theorem C11_soft_one_draw_per_value progress size (s : selector) g v k b :
  s_kind s = KSoft E -> selects_on s (Some v) -> par_is s "strength" k -> par_is s "boundary" b ->
  (forall x, In x v -> r_bern_ok E (vexpit E (vmul E k (vsub E (vlog10 E x) (vlog10 E b)))) = true) ->
  let r := rmapdraws (r_bern E) (map (fun x => vexpit E (vmul E k (vsub E (vlog10 E x) (vlog10 E b)))) v) g in
  draws progress size s g (fst r) (snd r) /\ length (fst r) = length v.
Proof. exact (soft_draws E progress size s g v k b). Qed.
(** C05.  The array given to a selector is the one its selection looks at. *)
Theorem C05_given_values_are_selected_on (s : selector) l :
  (s_fflux s = true -> selects_on (set_observed_flux s l) (Some l)) /\
  (s_fflux s = false -> s_flum s = true -> selects_on (set_luminosity s l) (Some l)) /\
  (s_fflux s = false -> s_flum s = false -> s_fobs s = true -> selects_on (set_observed_value s l) (Some l)) /\
  (s_fflux s = false -> s_flum s = false -> s_fobs s = false -> s_fdist s = true ->
     selects_on (set_distance s l) (Some l)).
Proof. exact (setters_feed E s l). Qed.

(** C05.  Giving a selector an array it does not look at changes nothing. *)
Theorem C05_other_values_are_ignored (s : selector) l v : selects_on s v ->
  (s_fflux s = false -> selects_on (set_observed_flux s l) v) /\
  (s_fflux s = true \/ s_flum s = false -> selects_on (set_luminosity s l) v) /\
  (s_fflux s = true \/ s_flum s = true \/ s_fobs s = false -> selects_on (set_observed_value s l) v) /\
  (s_fflux s = true \/ s_flum s = true \/ s_fobs s = true -> selects_on (set_distance s l) v).
Proof. exact (setters_independent E s l v). Qed.

(** C10 (and C07, C11).  A probability outside [0,1], a galactic latitude limit outside
    [0,90], a negative strength or a negative distance limit is refused. *)
Theorem C10_limits_outside_bounds_raise k n lo hi x o : bounded k n lo hi ->
  vle E lo x = false \/ (exists h, hi = Some h /\ vle E x h = false) ->
  exists d, dget (sel_class k) n = Some d /\
    fst (param_set (fun a b => vle E b a) (vle E) d n (Some x) o) = Err RuntimeError.
Proof. exact (selector_bounds E k n lo hi x o). Qed.

End P.

Print Assumptions C05_lower_bound_exact.
Print Assumptions C05_upper_bound_exact.
Print Assumptions C05_box_exact.
Print Assumptions C05_no_flag_raises.
Print Assumptions C05_flag_or_source.
Print Assumptions C05_missing_input_raises.
Print Assumptions C05_failure_keeps_mask.
Print Assumptions C06_lower_bound_monotone.
Print Assumptions C06_upper_bound_monotone.
Print Assumptions C06_box_monotone.
Print Assumptions C07_add_is_conjunction.
Print Assumptions C07_add_commutes.
Print Assumptions C07_add_associates.
Print Assumptions C07_add_idempotent.
Print Assumptions C07_add_length_mismatch.
Print Assumptions C07_add_unsampled.
Print Assumptions C07_add_length_one_repeats.
Print Assumptions C07_sum_is_conjunction.
Print Assumptions C08_select_is_cached.
Print Assumptions C08_reset_forgets.
Print Assumptions C08_select_after_reset_is_fresh.
Print Assumptions C09_counts_add_up.
Print Assumptions C09_indices_partition.
Print Assumptions C10_galactic_plane_exact.
Print Assumptions C10_distance_exact.
Print Assumptions C10_galactic_plane_monotone.
Print Assumptions C10_distance_monotone.
Print Assumptions C11_unity_selects_all.
Print Assumptions C11_bernoulli_progress_irrelevant.
Print Assumptions C11_soft_one_draw_per_value.
Print Assumptions C05_given_values_are_selected_on.
Print Assumptions C05_other_values_are_ignored.
Print Assumptions C10_limits_outside_bounds_raise.
