(** C30 (drawing distances) and C35-C38. *)
From Verif Require Import Base Env ParamModel DistModel DistSpec DistProofs DistExamples Toy.
Open Scope string_scope.

Section P.
Variable E : env.
Notation V := (V E).
Notation Rst := (Rst E).
Notation zero := (vofnat E 0).
Notation one := (vofnat E 1).
Notation reading := (reading E).
Notation same_reads := (same_reads E).
Notation values := (values E).
Notation unit_values := (unit_values E).

(** C30.  Every parameter reads the same after drawing distances, normalised or
    not. *)
Theorem C30_draw_distance_keeps_parameters progress fuel size normalize (d d' : sdist E) g g' :
  wf_par E (sc_params (sd_cls d)) (sd_par d) ->
  draw_distance progress fuel size normalize (d, g) = (Ok tt, (d', g')) ->
  sd_cls d' = sd_cls d /\ same_reads (sc_params (sd_cls d)) (sd_par d) (sd_par d').
Proof.
  intros W H. destruct (draw_distance_ok E _ _ _ _ _ _ _ _ W H) as (rs & ps & o' & _ & -> & S & _).
  split; [reflexivity|exact S].
Qed.

(** C35. *)
Theorem C35_distances_in_range progress fuel size normalize (d d' : sdist E) g g' rm vals uvals :
  le_lt_trans E -> unif_range E -> unif_nonneg E -> max_nonneg E -> div_nonneg E -> div_pos E ->
  wf_par E (sc_params (sd_cls d)) (sd_par d) ->
  draw_distance progress fuel size normalize (d, g) = (Ok tt, (d', g')) ->
  reading (sc_params (sd_cls d)) (sd_par d) "r_max" = Ok rm -> vlt E zero rm = true ->
  values (sc_params (sd_cls d)) (sd_par d) (sc_reads (sd_cls d)) vals ->
  unit_values (sc_params (sd_cls d)) (sd_par d) (sc_reads (sd_cls d)) uvals ->
  nonneg_fun E rm (sc_dens (sd_cls d) vals) ->
  (normalize = true -> forall i, quad E (sc_dens (sd_cls d) uvals) zero rm = Ok i -> vlt E zero i = true) ->
  exists rs, sd_dist d' = Some rs /\ length rs = size /\
    forall r, In r rs ->
      vle E zero r = true /\ vlt E r rm = true /\
      exists x, sc_dens (sd_cls d) vals r = Ok x /\ vlt E zero x = true.
Proof. exact (distances_in_range E progress fuel size normalize d g d' g' rm vals uvals). Qed.

(** C36.  Without normalisation the progress setting changes neither the result,
    the object, nor the generator. *)
Theorem C36_progress_irrelevant fuel size (d : sdist E) g :
  draw_distance true fuel size false (d, g) = draw_distance false fuel size false (d, g).
Proof. exact (progress_irrelevant E fuel size (d, g)). Qed.

(** C37.  Zero density everywhere: no number of proposals suffices. *)
Theorem C37_zero_density_never_returns progress fuel size normalize (d d' : sdist E) g g' rm vals uvals :
  le_lt_trans E -> unif_range E -> unif_nonneg E -> max_nonneg E -> div_nonneg E -> div_pos E ->
  wf_par E (sc_params (sd_cls d)) (sd_par d) ->
  reading (sc_params (sd_cls d)) (sd_par d) "r_max" = Ok rm -> vlt E zero rm = true ->
  values (sc_params (sd_cls d)) (sd_par d) (sc_reads (sd_cls d)) vals ->
  unit_values (sc_params (sd_cls d)) (sd_par d) (sc_reads (sd_cls d)) uvals ->
  nonneg_fun E rm (sc_dens (sd_cls d) vals) -> zero_upto E rm (sc_dens (sd_cls d) vals) ->
  (normalize = true -> forall i, quad E (sc_dens (sd_cls d) uvals) zero rm = Ok i -> vlt E zero i = true) ->
  0 < size ->
  draw_distance progress fuel size normalize (d, g) <> (Ok tt, (d', g')).
Proof. exact (zero_density_never_returns E progress fuel size normalize d g d' g' rm vals uvals). Qed.

(** C37.  For one object the sampler under a nowhere positive curve uses up every
    budget of proposals. *)
Theorem C37_zero_curve_exhausts fuel f ymax rmax g :
  le_lt_trans E -> unif_nonneg E -> vle E zero ymax = true -> nowhere_pos E f ->
  (forall r, exists d, f r = Ok d) ->
  fst (accept E fuel f ymax rmax g) = Err OutOfFuel.
Proof. exact (accept_diverges E fuel f ymax rmax g). Qed.

(** C37.  If from every generator state some proposal eventually lies under the
    curve the sampler compares with, the call returns. *)
Theorem C37_returns_if_proposals_accepted (progress : bool) size (normalize : bool) (d : sdist E) g rm vals uvals
    (integral : option V) ys ymax :
  wf_par E (sc_params (sd_cls d)) (sd_par d) -> norm_used (sd_cls d) ->
  (normalize = true -> norm_stored E (sc_params (sd_cls d)) (sd_par d)) ->
  reading (sc_params (sd_cls d)) (sd_par d) "r_max" = Ok rm ->
  values (sc_params (sd_cls d)) (sd_par d) (sc_reads (sd_cls d)) vals ->
  unit_values (sc_params (sd_cls d)) (sd_par d) (sc_reads (sd_cls d)) uvals ->
  (forall r, exists x, sc_dens (sd_cls d) uvals r = Ok x) ->
  (if normalize then exists i, integral = Some i /\ quad E (sc_dens (sd_cls d) uvals) zero rm = Ok i
   else integral = None) ->
  rmapM (dens_norm (sd_cls d) integral vals) (grid E rm) = Ok ys -> np_max E ys = Ok ymax ->
  (forall g0, exists k, accepts_within E k (if progress then dens_norm (sd_cls d) integral vals
                                            else sc_dens (sd_cls d) vals) ymax rm g0) ->
  exists fuel d' g', draw_distance progress fuel size normalize (d, g) = (Ok tt, (d', g')).
Proof. exact (draw_distance_returns E progress size normalize d g rm vals uvals integral ys ymax). Qed.

(** C38.  With normalisation the probability of an object is the density with unit
    normalisation at its distance, divided by the integral of that density up to
    [r_max]. *)
Theorem C38_probability_is_normalised_density progress fuel size (d d' : sdist E) g g' :
  wf_par E (sc_params (sd_cls d)) (sd_par d) ->
  draw_distance progress fuel size true (d, g) = (Ok tt, (d', g')) ->
  exists rm uvals i rs ps,
    reading (sc_params (sd_cls d)) (sd_par d) "r_max" = Ok rm /\
    unit_values (sc_params (sd_cls d)) (sd_par d) (sc_reads (sd_cls d)) uvals /\
    quad E (sc_dens (sd_cls d) uvals) zero rm = Ok i /\
    sd_dist d' = Some rs /\ sd_prob d' = Some ps /\
    Forall2 (fun r p => exists x, sc_dens (sd_cls d) uvals r = Ok x /\ p = vdiv E x i) rs ps.
Proof. exact (normalised_probability E progress fuel size d g d' g'). Qed.
End P.

(** C30.  An exception during a normalised draw leaves the normalisation parameter
    at one. *)
Theorem C30_exception_changes_parameter_refuted :
  exists (d d' : sdist toy) g g',
    wf_par toy (sc_params (sd_cls d)) (sd_par d) /\
    draw_distance false 5 1 true (d, g) = (Err AssertionError, (d', g')) /\
    reading toy (sc_params (sd_cls d)) (sd_par d) "Lambda" = Ok 7%Z /\
    reading toy (sc_params (sd_cls d')) (sd_par d') "Lambda" = Ok 1%Z.
Proof. exact exception_changes_norm. Qed.

(** C30.  A normalised draw with a normalisation parameter left at its default and
    never read raises, though the same draw without normalisation works. *)
Theorem C30_normalise_unread_default_raises_refuted :
  exists (d d' : sdist toy) g g',
    wf_par toy (sc_params (sd_cls d)) (sd_par d) /\
    reading toy (sc_params (sd_cls d)) (sd_par d) "Lambda" = Ok 5%Z /\
    draw_distance false 20 1 false (d, g) = (Ok tt, (d', g')) /\
    fst (draw_distance false 20 1 true (d, g)) = Err NameError.
Proof. exact unread_default_raises. Qed.

(** C36.  With normalisation it does change the distances. *)
Theorem C36_progress_with_normalisation_refuted :
  exists (d d1 d2 : sdist toy) g g1 g2 fuel,
    wf_par toy (sc_params (sd_cls d)) (sd_par d) /\
    draw_distance true fuel 3 true (d, g) = (Ok tt, (d1, g1)) /\
    draw_distance false fuel 3 true (d, g) = (Ok tt, (d2, g2)) /\
    sd_dist d1 <> sd_dist d2.
Proof. exact progress_matters. Qed.

Print Assumptions C30_draw_distance_keeps_parameters.
Print Assumptions C35_distances_in_range.
Print Assumptions C37_zero_density_never_returns.
Print Assumptions C37_returns_if_proposals_accepted.
Print Assumptions C38_probability_is_normalised_density.
Print Assumptions C36_progress_with_normalisation_refuted.
Print Assumptions C36_progress_irrelevant.
Print Assumptions C37_zero_curve_exhausts.
Print Assumptions C30_exception_changes_parameter_refuted.
Print Assumptions C30_normalise_unread_default_raises_refuted.
