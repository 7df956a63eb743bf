(** Specification: auxiliary samplers that can be drawn. *)
From Verif Require Import Base Env ParamModel SelModel SimVarModel DistModel DistSpec AuxModel PopModel SynthModel RunSpec.
Set Implicit Arguments.
Open Scope string_scope.

Section Spec.
Variable E : env.

(** Whatever it is told about the objects, the sampler draws [n] values, observes them
    if it is observed, and knows their probability. *)
Definition samples (a : sampler E) (n : nat) : Prop :=
  exists tv ov pv, values E (k_params (kind_of a)) (a_par (a_dy a)) (k_treads (kind_of a)) tv /\
    (a_observed (a_st a) = true -> values E (k_params (kind_of a)) (a_par (a_dy a)) (k_oreads (kind_of a)) ov) /\
    values E (k_params (kind_of a)) (a_par (a_dy a)) (k_preads (kind_of a)) pv /\
    forall v g, exists t g', k_true (kind_of a) tv v n g = (Ok (Some t), g') /\ length t = n /\
      forall v', vw_true v' = Some t ->
        (a_observed (a_st a) = true -> forall g1, exists o g2, k_obs (kind_of a) ov v' n g1 = (Ok (Some o), g2) /\ length o = n) /\
        exists q, k_prob (kind_of a) pv v' = Ok q.

(** A name that is not one of the population's own attributes. *)
Definition usable_name (k : string) : Prop :=
  ~ In k (readonly ++ special ++ ["_protected_names"; "_auxiliary_quantities"] ++ internal).

(** A sampler that was not drawn yet, has no secondaries, keeps every object, and can be
    drawn. *)
Definition flat_sampler (y : synth E) (n i : nat) : Prop :=
  exists a s, nth_error (w_auxs (y_w y)) i = Some a /\ a_sampled (a_dy a) = false /\ a_sec (a_ln a) = nil /\ a_issec (a_ln a) = false /\
    nth_error (w_sels (y_w y)) (a_sel (a_ln a)) = Some s /\ s_kind s = KUnity E /\
    a_sel (a_ln a) <> y_flux y /\ a_sel (a_ln a) <> y_dsel y /\ usable_name (name_of a) /\ samples a n.
(** Independent auxiliary quantities, no derived luminosity, default selections. *)
Definition flat (y : synth E) (n : nat) : Prop :=
  (forall k i, In (k, i) (y_aux y) -> flat_sampler y n i) /\ NoDup (map snd (y_aux y)) /\
  y_der y = None /\ default_selections y /\ Forall (fun kv => length (snd kv) = y_nmodel y) (y_spaces y).
End Spec.
