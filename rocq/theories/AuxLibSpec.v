(** Specification for the predefined auxiliary samplers: what their documentation
    says about the values. *)
From Coq Require Import Reals List String.
From Verif Require Import Base Env ParamModel DistModel DistSpec AuxModel AuxSpec AuxRunSpec LibModel RealModel AuxLibModel.
Open Scope R_scope.
Open Scope string_scope.

(** Where the true values lie, for parameters [p].  Right ascensions, declinations and
    viewing angles are in radians, [max_angle] in degrees. *)
Definition documented_range (c : aux_class) (p : string -> R) (x : R) : Prop :=
  match c with
  | Delta => x = p "xp"
  | Normal => True
  | LogNormal | Log10Normal => 0 < x
  | TruncNormal | TruncLogNormal | TruncLog10Normal => p "lower" <= x <= p "upper"
  | Pareto => p "xmin" <= x
  | PowerLaw | BrokenPowerLaw => p "xmin" <= x <= p "xmax"
  | RA => 0 <= x < 2 * PI
  | Dec => - (PI / 2) <= x <= PI / 2
  | ViewingAngle => 0 <= x <= p "max_angle" * (PI / 180)
  end.

(** Parameters that make sense. *)
Definition sensible (c : aux_class) (p : string -> R) : Prop :=
  match c with
  | Pareto => 0 <= p "xmin"
  | PowerLaw => 0 < p "xmin" < p "xmax"
  | BrokenPowerLaw => 0 < p "xmin" < p "xbreak" /\ p "xbreak" < p "xmax"
  | ViewingAngle => 0 < p "max_angle" <= 180
  | _ => True
  end.

Section Spec.
Variable m : machine.
Notation E := (real_env m).

(** Uniform numbers lie between zero and one. *)
Definition unit_uniform (nunif : mc_nst m -> R * mc_nst m) : Prop :=
  (forall g, 0 <= fst (mc_unif m 0 1 g) < 1) /\ (forall n, 0 <= fst (nunif n) < 1).

(** [p] gives the values of the sampler's parameters. *)
Definition has_parameters (a : sampler E) (p : string -> R) : Prop := forall k v, reads_as a k v -> p k = v.

(** [o] are [t] plus [sigma] times one standard normal number each, drawn one after
    the other. *)
Definition measured_from (t o : list R) (sigma : R) : Prop :=
  exists g, length o = length t /\
    forall i x z, nth_error t i = Some x -> nth_error (fst (rdraws (mc_norm m 0 1) (length t) g)) i = Some z ->
      nth_error o i = Some (x + sigma * z).

(** A drawn sampler has [size] true values with property [P]. *)
Definition true_values_are (P : R -> Prop) (size : nat) (a : sampler E) : Prop :=
  exists t, a_true (a_dy a) = Some t /\ length t = size /\ Forall P t.
End Spec.
