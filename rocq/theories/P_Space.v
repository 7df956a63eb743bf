(** C74: model spaces. *)
From Coq Require Import Reals ZArith List String.
From Verif Require Import Base Env DistModel AuxModel PopModel PopSpec SynthModel LibPopModel LibPopSpec RealModel RealExamples RealRunSpec RunExamples SpaceSpec.
From Verif Require SpaceProofs SpaceExamples.
Import ListNotations.
Open Scope R_scope.
Open Scope string_scope.

(** The population of a survey has the model spaces asked for: under each name that of
    the last request; spaces of other names stay.  Case: [C74_applies]. *)
Theorem C74_model_spaces (m : machine) (rs : list request) (y y1 : synth (real_env m)) prog fuel rl fs l10 ns norm p y2 :
  ask rs y = (Ok tt, y1) -> draw_survey prog fuel rl fs l10 ns norm y1 = (Ok p, y2) ->
  exists sp, pa_spaces (p_args p) = Some sp /\
  (forall nm a b lg, last_request rs nm = Some (nm, a, b, lg) -> (lg = true -> 0 < a /\ 0 < b) ->
     exists l, dget sp nm = Some l /\ points_from_to lg a b (y_nmodel y) l) /\
  forall nm, last_request rs nm = None -> dget sp nm = dget (y_spaces y) nm.
Proof. exact (SpaceProofs.model_spaces m rs y y1 prog fuel rl fs l10 ns norm p y2). Qed.

(** Stan gets them under the same names, with the number of points as [N_model], if no
    other entry has the name of one of them (see [C40_count_overwritten_refuted]). *)
Theorem C74_model_spaces_for_stan (m : machine) (rs : list request) (y y1 : synth (real_env m)) prog fuel rl fs l10 ns norm p y2 d :
  ask rs y = (Ok tt, y1) -> draw_survey prog fuel rl fs l10 ns norm y1 = (Ok p, y2) -> stan_data p = Ok d ->
  (forall sp ax, pa_spaces (p_args p) = Some sp -> pa_aux (p_args p) = Some ax -> stan_keys_apart (real_env m) sp ax) ->
  dget d "N_model" = Some (SNat (real_env m) (y_nmodel y)) /\
  forall nm a b lg, last_request rs nm = Some (nm, a, b, lg) -> (lg = true -> 0 < a /\ 0 < b) ->
    exists l, entry_is d nm l /\ points_from_to lg a b (y_nmodel y) l.
Proof. exact (SpaceProofs.stan_spaces m rs y y1 prog fuel rl fs l10 ns norm p y2 d). Qed.

(** Twenty predefined populations with two grids, one of them asked for twice. *)
Example C74_applies : forall c seed rate d, snd (documented c) = Some d -> fst (documented c) <> milky_way ->
  exists y y1 fuel p y2 dt, build glib nothing c arg1 seed None rate = Ok y /\ ask SpaceExamples.grids y = (Ok tt, y1) /\
  draw_survey true fuel 10 None true (Some 5%nat) false y1 = (Ok p, y2) /\ stan_data p = Ok dt /\
  (forall sp ax, pa_spaces (p_args p) = Some sp -> pa_aux (p_args p) = Some ax -> stan_keys_apart (real_env mach) sp ax) /\ y_nmodel y = 500%nat /\
  last_request SpaceExamples.grids "lgrid" = Some ("lgrid", 2, 1000, true) /\ last_request SpaceExamples.grids "zgrid" = Some ("zgrid", 0, 7, false).
Proof. exact SpaceExamples.spaced_surveys. Qed.

Print Assumptions C74_model_spaces.
Print Assumptions C74_model_spaces_for_stan.
