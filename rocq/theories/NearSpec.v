(** Specification: densities that are followed up to an error (C70). *)
From Coq Require Import Reals List.
From Coquelicot Require Import Coquelicot.
From Verif Require Import Base Env ParamModel SimVarModel DistModel SizeSpec PopModel SynthModel SynthSpec RealModel LawSpec.
Open Scope R_scope.

(** Uniform points of the box that are accepted have distances with density proportional
    to [f], but for at most [eps] that is missing at any distance. *)
Definition nearly_follows (eps : R) (f F : R -> R) (H rm : R) : Prop :=
  exists c, 0 < c /\ forall a b, 0 <= a <= b /\ b <= rm -> exists A, area F H a b A /\ c * (RInt f a b - eps * (b - a)) <= A <= c * RInt f a b.

(** Within half of the step between the 500 distances [f] changes by [eps] at most. *)
Definition varies_by (eps : R) (f : R -> R) (rm : R) : Prop :=
  forall r s, 0 <= r <= rm -> 0 <= s <= rm -> Rabs (r - s) <= rm / 998 -> f r - f s <= eps.

(** As [draws_follow] and [surveys_follow]. *)
Definition draws_nearly_follow (m : machine) (eps : R) (d : sdist (real_env m)) (f : R -> R) (rm : R) : Prop :=
  forall progress fuel size normalize d' s s', (normalize = true -> progress = true) ->
    draw_distance progress fuel size normalize (d, s) = (Ok tt, (d', s')) ->
    exists rs F H, length rs = size /\ sd_dist d' = Some rs /\ each_below m F H rm s rs s' /\ nearly_follows eps f F H rm.
Definition surveys_nearly_follow (m : machine) (eps : R) (d : sdist (real_env m)) (f : R -> R) (rm : R) : Prop :=
  forall progress fuel rl fs l10 ns normalize (y : synth (real_env m)) p y', (normalize = true -> progress = true) ->
    y_sp y = d -> sc_sky (sd_cls d) = None -> (normalize = true -> ns = None -> norm_value (real_env m) (sd_par d)) ->
    draw_survey progress fuel rl fs l10 ns normalize y = (Ok p, y') ->
    exists F H s s', sized_by ns normalize d (mc_seed m (y_seed y)) (p_nobj p) s /\ length (sv_lat (p_dist p)) = p_nobj p /\
      each_below m F H rm s (sv_lat (p_dist p)) s' /\ nearly_follows eps f F H rm.
