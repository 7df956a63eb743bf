(** Specification for C71: the laws of the values drawn by the predefined auxiliary
    samplers and luminosity distributions, as their documentation states them. *)
From Coq Require Import Reals List String.
From Coquelicot Require Import Coquelicot.
From Verif Require Import Base Env DistModel LibModel LibSpec RealModel AuxLibModel LumLibModel LumLibSpec.
Import ListNotations.
Open Scope R_scope.
Open Scope string_scope.

(** [l] are numbers drawn one after the other with [src] from the generator state [g],
    which leaves it in state [g']. *)
Fixpoint consecutive {S A : Type} (src : S -> A * S) (g : S) (l : list A) (g' : S) : Prop :=
  match l with
  | [] => g' = g
  | x :: r => x = fst (src g) /\ consecutive src (snd (src g)) r g'
  end.
(** The values [t] are made from such numbers, each from one. *)
Definition made_from {S A : Type} (src : S -> A * S) (rel : A -> R -> Prop) (t : list R) : Prop :=
  exists g l g', consecutive src g l g' /\ Forall2 rel l t.

(** A power law from [lo] to [hi] with a break: the uniform numbers are drawn first,
    then for each value whether it is below the break, with the probability which the
    continuous density gives this. *)
Definition broken_power_law (m : machine) (lo brk hi alpha beta : R) (t : list R) : Prop :=
  exists w i1 i2 g u g1 s g2,
    is_RInt (fun x => Rpower (x / brk) alpha) lo brk i1 /\ is_RInt (fun x => Rpower (x / brk) beta) brk hi i2 /\ w = i1 / (i1 + i2) /\
    consecutive (mc_unif m 0 1) g u g1 /\ consecutive (mc_bern m w) g1 s g2 /\ length s = length t /\
    Forall2 (fun (su : bool * R) x => if fst su then quantile (fun x => Rpower x alpha) lo brk (snd su) x
                                      else quantile (fun x => Rpower x beta) brk hi (snd su) x) (combine s u) t.
(** A Pareto law: a value exceeds [x] with probability [(lo / x) ^ alpha]. *)
Definition pareto_law (m : machine) (lo alpha : R) (t : list R) : Prop :=
  made_from (mc_unif m 0 1) (fun u x => lo <= x /\ Rpower (lo / x) alpha = 1 - u) t.

(** For Schechter's law: [scipy]'s gamma functions at its shape are what they should be. *)
Definition gamma_known (ginv : R -> R -> R) (gam : R -> R) (inc : R -> R -> R) (c : lum_class) (p : string -> R) : Prop :=
  c = LSchechter -> incomplete_gamma (1 + p "alpha") (gam (1 + p "alpha")) (inc (1 + p "alpha")) (ginv (1 + p "alpha")).

Section Spec.
Variable m : machine.
(** Standardised truncated normal numbers, numba's uniform numbers, a quantile of the
    standard normal law: as in AuxLibModel.v. *)
Variable tnorm : R -> R -> mc_st m -> R * mc_st m.
Variable nunif : mc_nst m -> R * mc_nst m.
Variable ppf : R.

(** Auxiliary samplers with parameters [p].  A lower limit of zero for a logarithmic
    law is the quantile [ppf]. *)
Definition documented_law (c : aux_class) (p : string -> R) (t : list R) : Prop :=
  match c with
  | Delta => Forall (fun x => x = p "xp") t
  | Normal => 0 <= p "tau" /\ made_from (mc_norm m 0 1) (fun z x => x = p "mu" + p "tau" * z) t
  | LogNormal => 0 <= p "tau" /\ made_from (mc_norm m 0 1) (fun z x => 0 < x /\ ln x = p "mu" + p "tau" * z) t
  | Log10Normal => 0 <= p "tau" /\ made_from (mc_norm m 0 1) (fun z x => 0 < x /\ ln x / ln 10 = p "mu" + p "tau" * z) t
  | TruncNormal =>
      made_from (tnorm ((p "lower" - p "mu") / p "tau") ((p "upper" - p "mu") / p "tau")) (fun z x => x = p "mu" + p "tau" * z) t
  | TruncLogNormal =>
      exists a, (0 < p "lower" -> a = (ln (p "lower") - p "mu") / p "tau") /\ (p "lower" = 0 -> a = ppf) /\
      made_from (tnorm a ((ln (p "upper") - p "mu") / p "tau")) (fun z x => 0 < x /\ ln x = p "mu" + p "tau" * z) t
  | TruncLog10Normal =>
      exists a, (0 < p "lower" -> a = (ln (p "lower") / ln 10 - p "mu") / p "tau") /\ (p "lower" = 0 -> a = ppf) /\
      made_from (tnorm a ((ln (p "upper") / ln 10 - p "mu") / p "tau")) (fun z x => 0 < x /\ ln x / ln 10 = p "mu" + p "tau" * z) t
  | Pareto => pareto_law m (p "xmin") (p "alpha") t
  | PowerLaw => made_from nunif (quantile (fun x => Rpower x (p "alpha")) (p "xmin") (p "xmax")) t
  | BrokenPowerLaw => broken_power_law m (p "xmin") (p "xbreak") (p "xmax") (p "alpha") (p "beta") t
  | RA => made_from (mc_unif m 0 1) (fun u x => x = 2 * PI * u) t
  | Dec => made_from (mc_unif m 0 1) (fun u x => - (PI / 2) <= x <= PI / 2 /\ sin x = 1 - 2 * u) t
  | ViewingAngle =>
      made_from (mc_unif m 0 1) (fun u x => 0 <= x <= p "max_angle" * (PI / 180) /\ 1 - cos x = u * (1 - cos (p "max_angle" * (PI / 180)))) t
  end.
(** Parameters for which these laws make sense. *)
Definition proper (c : aux_class) (p : string -> R) : Prop :=
  match c with
  | TruncLogNormal | TruncLog10Normal => 0 <= p "lower"
  | Pareto => 0 < p "xmin"
  | PowerLaw => 0 < p "xmin" < p "xmax"
  | BrokenPowerLaw => 0 < p "xmin" < p "xbreak" /\ p "xbreak" < p "xmax"
  | ViewingAngle => 0 < p "max_angle" <= 180
  | _ => True
  end.

(** What the code does instead for the truncated log10-normal law and the declination:
    the natural logarithm of the lower limit is used, and the polar angle is drawn. *)
Definition actual_law (c : aux_class) (p : string -> R) (t : list R) : Prop :=
  match c with
  | TruncLog10Normal =>
      exists a, (0 < p "lower" -> a = (ln (p "lower") - p "mu") / p "tau") /\ (p "lower" = 0 -> a = ppf) /\
      made_from (tnorm a ((ln (p "upper") / ln 10 - p "mu") / p "tau")) (fun z x => 0 < x /\ ln x / ln 10 = p "mu" + p "tau" * z) t
  | Dec => made_from (mc_unif m 0 1) (fun u x => 0 <= x <= PI /\ cos x = 1 - 2 * u) t
  | _ => documented_law c p t
  end.

(** Luminosity distributions; [inc s] is the distribution function of the gamma law of
    shape [s].  A uniform number zero makes a Schechter luminosity infinite. *)
Variable inc : R -> R -> R.
Definition luminosity_law (c : lum_class) (p : string -> R) (t : list R) : Prop :=
  match c with
  | LPareto => pareto_law m (p "Lmin") (p "alpha") t
  | LBPL => broken_power_law m (p "Lmin") (p "Lbreak") (p "Lmax") (p "alpha") (p "beta") t
  | LLogNormal => made_from (mc_norm m (p "mu") (p "tau")) (fun z x => 0 < x /\ ln x = z) t
  | LLog10Normal => made_from (mc_norm m (p "mu") (p "tau")) (fun z x => 0 < x /\ ln x / ln 10 = z) t
  | LSchechter => made_from (mc_unif m 0 1) (fun u x => 0 < u -> 0 <= x /\ inc (1 + p "alpha") (x / p "Lmin") = 1 - u) t
  | LDelta => Forall (fun x => x = p "Lp") t
  | LLogUni => 0 < p "Lmin" < p "Lmax" /\
      made_from (mc_unif m 0 1) (fun u x => 0 < x /\ ln x = ln (p "Lmin") + u * (ln (p "Lmax") - ln (p "Lmin"))) t
  end.
Definition lum_proper (c : lum_class) (p : string -> R) : Prop :=
  match c with
  | LPareto => 0 < p "Lmin"
  | LBPL => 0 < p "Lmin" < p "Lbreak" /\ p "Lbreak" < p "Lmax"
  | LSchechter => 0 < p "Lmin" /\ -1 < p "alpha"
  | _ => True
  end.
End Spec.
