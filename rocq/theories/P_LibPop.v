(** C57: the predefined populations. *)
From Verif Require Import Base Env ParamModel DistModel AuxModel SynthModel LibPopModel LibPopSpec LibPopProofs LibPopExamples.
Open Scope string_scope.

Section P.
Variable E : env.
Variable fo : formulas E.
Variable w : world E.
Notation nonneg c := (sd_nonneg (fst (documented c)) ++ lum_nonneg (snd (documented c)))%list.

(** Every class, for all arguments in range, gives the documented population: each
    argument is stored under its own name in the right distribution, and nothing
    else.  Case: [a_population]. *)
Theorem C57_sets_exactly_its_arguments c (arg : string -> V E) seed lum is_rate :
  (forall k, In k (nonneg c) -> vle E (vofnat E 0) (arg k) = true) ->
  exists y, build fo w c arg seed lum is_rate = Ok y /\ as_documented c arg seed lum is_rate y.
Proof. intros H. apply build_spec. now apply accepted_in. Qed.
(** A negative value for one of the arguments that must not be is refused.  Case:
    [a_refusal]. *)
Theorem C57_refuses_values_out_of_range c (arg : string -> V E) seed lum is_rate k :
  In k (nonneg c) -> vle E (vofnat E 0) (arg k) = false ->
  build fo w c arg seed lum is_rate = Err RuntimeError.
Proof.
  intros Hk Hv. apply build_spec. apply Bool.not_true_iff_false. intros H. rewrite accepted_in in H.
  rewrite (H k Hk) in Hv. discriminate.
Qed.
(** Nothing but the arguments of the class matters. *)
Theorem C57_depends_on_its_arguments_only c (arg arg' : string -> V E) seed lum is_rate :
  (forall k, In k (sd_args (fst (documented c))) \/
             (exists d, snd (documented c) = Some d /\ In k (lm_args d)) -> arg k = arg' k) ->
  build fo w c arg seed lum is_rate = build fo w c arg' seed lum is_rate.
Proof.
  intros H. destruct c; cbn [build];
    repeat match goal with |- context [arg ?k] => rewrite (H k) by (cbn; first [left; tauto|right; eexists; split; [reflexivity|cbn; tauto]]) end;
    reflexivity.
Qed.
End P.
Print Assumptions C57_sets_exactly_its_arguments.
Print Assumptions C57_refuses_values_out_of_range.
Print Assumptions C57_depends_on_its_arguments_only.
