(** Specification: the law of the drawn distances. *)
From Coq Require Import Reals List.
From Coquelicot Require Import Coquelicot.
From Verif Require Import Base Env ParamModel SimVarModel DistModel SizeSpec PopModel SynthModel SynthSpec RealModel.
Import ListNotations.
Open Scope R_scope.

Section Draws.
Variable m : machine.
Variables (F : R -> R) (H rm : R).
(** Points of the box [0, rm] x [0, H] are proposed with two uniform numbers each,
    until one lies below the curve [F]; its distance is taken. *)
Inductive first_below : mc_st m -> R -> mc_st m -> Prop :=
| hit s y s1 r s2 : mc_unif m 0 H s = (y, s1) -> mc_unif m 0 rm s1 = (r, s2) -> y < F r -> first_below s r s2
| miss s y s1 r s2 r' s' : mc_unif m 0 H s = (y, s1) -> mc_unif m 0 rm s1 = (r, s2) -> F r <= y -> first_below s2 r' s' -> first_below s r' s'.
(** One after the other. *)
Inductive each_below : mc_st m -> list R -> mc_st m -> Prop :=
| none s : each_below s [] s
| next s r s1 rs s2 : first_below s r s1 -> each_below s1 rs s2 -> each_below s (r :: rs) s2.
End Draws.

(** The part of the box that is accepted, over the distances from [a] to [b], has area
    [A]: the indicator of [y < F r] is integrated over [y], then over [r]. *)
Definition below (F : R -> R) (r y : R) : R := if Rlt_dec y (F r) then 1 else 0.
Definition area (F : R -> R) (H a b A : R) : Prop :=
  exists h, (forall r, a <= r <= b -> is_RInt (below F r) 0 H (h r)) /\ is_RInt h a b A.

(** Uniform points of the box that are accepted have distances with density
    proportional to [f]. *)
Definition follows (f F : R -> R) (H rm : R) : Prop :=
  exists c, 0 < c /\ forall a b, 0 <= a <= b /\ b <= rm -> area F H a b (c * RInt f a b).

(** The largest of the values of [f] at 500 equidistant distances. *)
Definition grid_max (f : R -> R) (rm M : R) : Prop :=
  (exists k, (k <= 499)%nat /\ f (INR k * (rm / 499)) = M) /\ forall k, (k <= 499)%nat -> f (INR k * (rm / 499)) <= M.

(** The curve and the height of the box, for a density [f] with maximum [M] on the grid
    and a normalisation integral [i]. *)
Definition curve (normalize progress : bool) (i : R) (f : R -> R) (r : R) : R := if (normalize && progress)%bool then f r / i else f r.
Definition height (normalize : bool) (i M : R) : R := if normalize then M / i else M.

(** Every successful [draw_distance] of [d] that is not normalised, or shows its
    progress, draws distances with density proportional to [f]. *)
Definition draws_follow (m : machine) (d : sdist (real_env m)) (f : R -> R) (rm : R) : Prop :=
  forall progress fuel size normalize d' s s', (normalize = true -> progress = true) ->
    draw_distance progress fuel size normalize (d, s) = (Ok tt, (d', s')) ->
    exists rs F H, length rs = size /\ sd_dist d' = Some rs /\ each_below m F H rm s rs s' /\ follows f F H rm.
(** So does every such survey, from its generator after the number of objects is known. *)
Definition surveys_follow (m : machine) (d : sdist (real_env m)) (f : R -> R) (rm : R) : Prop :=
  forall progress fuel rl fs l10 ns normalize (y : synth (real_env m)) p y', (normalize = true -> progress = true) ->
    y_sp y = d -> sc_sky (sd_cls d) = None -> (normalize = true -> ns = None -> norm_value (real_env m) (sd_par d)) ->
    draw_survey progress fuel rl fs l10 ns normalize y = (Ok p, y') ->
    exists F H s s', sized_by ns normalize d (mc_seed m (y_seed y)) (p_nobj p) s /\ length (sv_lat (p_dist p)) = p_nobj p /\
      each_below m F H rm s (sv_lat (p_dist p)) s' /\ follows f F H rm.
