(** Specification: the predefined populations can be drawn. *)
From Coq Require Import Reals List String.
From Coquelicot Require Import Coquelicot.
From Verif Require Import Base Env DistModel DistSpec RealModel LibPopSpec.
Import ListNotations.
Open Scope R_scope.
Open Scope string_scope.

(** Continuous and positive between 0 and [b]. *)
Definition curve (f : R -> R) (b : R) : Prop := forall x, 0 < x < b -> continuous f x /\ 0 < f x.
(** Under such a curve a point is proposed some time: the uniform numbers do not all
    avoid an open region. *)
Definition fair (m : machine) : Prop :=
  forall f b hi, 0 < b -> 0 < hi -> curve f b ->
  forall s, exists k, accepts_within (real_env m) k (fun r => Ok (f r)) hi b s.
(** [scipy.stats.bernoulli] takes all probabilities. *)
Definition takes_probabilities (m : machine) : Prop := forall w, 0 <= w <= 1 -> mc_bern_ok m w = true.

(** Arguments of a spatial distribution that give a positive density. *)
Definition positive_density (s : sp_doc) (arg : string -> R) : Prop :=
  0 < arg "r_max" /\
  if String.eqb (sd_type s) "SFRDistribution" then
    0 < arg "r0" /\ 0 <= arg "a" /\ 0 <= arg "rise" /\ 0 < arg "a" + arg "rise" /\ 0 < arg "decay" /\ 0 < arg "peak"
  else 0 < arg "Lambda".
(** The same for the Milky Way. *)
Definition galaxy_density (arg : string -> R) : Prop := 0 < arg "rho" /\ 0 < arg "R1" /\ 0 < arg "R0" + arg "R1" /\ 0 < arg "r_max".
(** Arguments with which luminosities can be drawn. *)
Definition drawable (d : lum_doc) (arg : string -> R) : Prop :=
  if String.eqb (lm_type d) "ParetoDistribution" then 0 < arg "alpha"
  else if String.eqb (lm_type d) "BPLDistribution" then
    0 < arg "Lmin" < arg "Lbreak" /\ arg "Lbreak" < arg "Lmax" /\ arg "alpha" <> -1 /\ arg "beta" <> -1
  else True.
