(** Specification: the predefined auxiliary samplers that can be drawn. *)
From Coq Require Import Reals List String.
From Verif Require Import Base Env ParamModel SelModel DistModel DistSpec AuxModel AuxSpec AuxRunSpec PopModel SynthModel RunSpec FlatSpec LibModel RealModel AuxLibModel.
Open Scope R_scope.
Open Scope string_scope.

(** Parameters with which values can be drawn.  With a lower limit of zero the
    truncated log-normal samplers cut off at a quantile [ppf] of the normal law. *)
Definition valid (ppf : R) (c : aux_class) (p : string -> R) : Prop :=
  match c with
  | Normal | LogNormal | Log10Normal => 0 <= p "tau"
  | TruncNormal => 0 < p "tau" /\ p "lower" < p "upper"
  | TruncLogNormal => 0 < p "tau" /\ 0 <= p "lower" < p "upper" /\ (p "lower" = 0 -> p "mu" + p "tau" * ppf < ln (p "upper"))
  | TruncLog10Normal => 0 < p "tau" /\ 0 < p "upper" /\
      ((1 <= p "lower" /\ Rpower 10 (ln (p "lower")) < p "upper") \/ (p "lower" = 0 /\ p "mu" + p "tau" * ppf < ln (p "upper") / ln 10))
  | Pareto => 0 < p "alpha"
  | BrokenPowerLaw => 0 < p "xmin" < p "xbreak" /\ p "xbreak" < p "xmax" /\ p "alpha" <> -1 /\ p "beta" <> -1
  | Delta | PowerLaw | RA | Dec | ViewingAngle => True
  end.
(** Samplers whose class declares [sigma] can be observed. *)
Definition observable (c : aux_class) : Prop := match c with BrokenPowerLaw | RA | Dec | ViewingAngle => False | _ => True end.

Section Spec.
Variable m : machine.
Notation E := (real_env m).
(** Truncated normal numbers lie between their bounds. *)
Definition truncated (tnorm : R -> R -> mc_st m -> R * mc_st m) : Prop :=
  forall a b g, a < b -> a <= fst (tnorm a b g) <= b.
(** All parameters are set (or have a default), to the values [p]. *)
Definition parameters_are (a : sampler E) (p : string -> R) : Prop :=
  forall k, In k (dkeys (k_params (kind_of a))) -> reads_as a k (p k).

Variable tnorm : R -> R -> mc_st m -> R * mc_st m.
Variable nunif : mc_nst m -> R * mc_nst m.
Variable ppf : R.
(** The sampler at [i] is of a predefined class, with valid parameters; it was not
    drawn yet, has no secondaries, keeps every object, and is observed only if its
    class can be. *)
Definition predefined_sampler (y : synth E) (i : nat) : Prop :=
  exists a s c p, nth_error (w_auxs (y_w y)) i = Some a /\ a_sampled (a_dy a) = false /\ a_sec (a_ln a) = nil /\ a_issec (a_ln a) = false /\
    nth_error (w_sels (y_w y)) (a_sel (a_ln a)) = Some s /\ s_kind s = KUnity E /\
    a_sel (a_ln a) <> y_flux y /\ a_sel (a_ln a) <> y_dsel y /\ usable_name (name_of a) /\
    kind_of a = aux_kind m tnorm nunif ppf c /\ parameters_are a p /\ valid ppf c p /\
    (a_observed (a_st a) = true -> observable c /\ 0 <= p "sigma").
(** All registered samplers are such, each registered once; no derived luminosity,
    default selections. *)
Definition with_predefined_samplers (y : synth E) : Prop :=
  (forall k i, In (k, i) (y_aux y) -> predefined_sampler y i) /\ NoDup (map snd (y_aux y)) /\
  y_der y = None /\ default_selections y /\ Forall (fun kv => length (snd kv) = y_nmodel y) (y_spaces y).
End Spec.
