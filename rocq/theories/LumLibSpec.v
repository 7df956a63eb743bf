(** Specification for the predefined luminosity distributions. *)
From Coq Require Import Reals List String.
From Coquelicot Require Import Coquelicot.
From Verif Require Import Base Env ParamModel DistModel DistSpec LibModel RealModel LumLibModel.
Open Scope R_scope.
Open Scope string_scope.

(** Where the luminosities lie, for parameters [p]. *)
Definition lum_range (c : lum_class) (p : string -> R) (x : R) : Prop :=
  match c with
  | LPareto => p "Lmin" <= x
  | LBPL | LLogUni => p "Lmin" <= x <= p "Lmax"
  | LLogNormal | LLog10Normal => 0 < x
  | LSchechter => 0 <= x
  | LDelta => x = p "Lp"
  end.
(** Parameters that make sense. *)
Definition lum_sensible (c : lum_class) (p : string -> R) : Prop :=
  match c with
  | LPareto => 0 <= p "Lmin"
  | LBPL => 0 < p "Lmin" < p "Lbreak" /\ p "Lbreak" < p "Lmax"
  | LSchechter => 0 <= p "Lmin" /\ -1 < p "alpha"
  | _ => True
  end.

(** [inc] is the regularised lower incomplete gamma function of [scipy] for the
    exponent [s], [gam] the gamma function, and [ginv] the inverse of [inc]. *)
Record incomplete_gamma (s : R) (gam : R) (inc ginv : R -> R) : Prop := {
  ig_gam : 0 < gam;
  ig_range : forall y, 0 <= y -> 0 <= inc y < 1;
  ig_zero : inc 0 = 0;
  ig_density : forall a b, 0 < a <= b -> is_RInt (fun t => Rpower t (s - 1) * exp (- t) / gam) a b (inc b - inc a);
  ig_pos : forall x, 0 <= x < 1 -> 0 <= ginv x;
  ig_inverse : forall x, 0 <= x < 1 -> inc (ginv x) = x }.

(** As [uniform_prob] of LibSpec.v, without the uniform number zero. *)
Definition open_uniform_prob (draw : R -> R) (a b p : R) : Prop :=
  exists u1 u2, 0 <= u1 /\ u1 <= u2 <= 1 /\ u2 - u1 = p /\
    forall u, 0 < u < 1 -> (u1 < u < u2 -> a <= draw u <= b) /\ (a <= draw u <= b -> u1 <= u <= u2).

(** The class a luminosity distribution of a predefined population belongs to. *)
Definition class_name (c : lum_class) : string :=
  match c with
  | LPareto => "ParetoDistribution" | LBPL => "BPLDistribution" | LLogNormal => "LogNormalDistribution"
  | LLog10Normal => "Log10NormalDistribution" | LSchechter => "SchechterDistribution"
  | LDelta => "DeltaDistribution" | LLogUni => "LogUniLuminiosityDistribution"
  end.

Section Spec.
Variable m : machine.
Notation E := (real_env m).
(** [p] gives the values of the parameters of a luminosity distribution. *)
Definition lum_parameters (l : ldist E) (p : string -> R) : Prop :=
  forall k v, reading E (lc_params (ld_cls l)) (ld_par l) k = Ok v -> p k = v.
End Spec.
