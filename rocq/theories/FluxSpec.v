(** Specification for C72: the fluxes of the objects of predefined populations. *)
From Coq Require Import Reals List String.
From Coquelicot Require Import Coquelicot.
From Verif Require Import Base Env SimVarModel DistModel PopModel LibModel LibPopSpec RealModel.
Import ListNotations.
Open Scope R_scope.
Open Scope string_scope.

(** Distances are redshifts. *)
Definition cosmological (s : sp_doc) : bool := sd_rated s.

Section Spec.
Variable m : machine.
Notation E := (real_env m).
(** Object [i] of the population has luminosity [l], distance [d] and flux [f]. *)
Definition object (p : population E) (i : nat) (l d f : R) : Prop :=
  nth_error (sv_lat (p_lum p)) i = Some l /\ nth_error (sv_lat (p_dist p)) i = Some d /\ nth_error (sv_lat (p_flux p)) i = Some f.
(** The luminosity is spread over the surface of a sphere of radius [radius d]. *)
Definition spread_over (radius : R -> R) (p : population E) : Prop :=
  forall i l d f, object p i l d f -> f = l / (4 * PI * (radius d * radius d)).
(** An object that is farther than another and not more luminous is dimmer; at the same
    distance fluxes are in proportion to luminosities. *)
Definition dims_with_distance (p : population E) : Prop :=
  forall i j l1 l2 d1 d2 f1 f2, object p i l1 d1 f1 -> object p j l2 d2 f2 -> 0 < l2 <= l1 -> 0 < d1 < d2 -> 0 < f2 < f1.
Definition proportional (p : population E) : Prop :=
  forall i j l1 l2 d f1 f2, object p i l1 d f1 -> object p j l2 d f2 -> f1 * l2 = f2 * l1.
(** Every flux is within the fraction [tol] of the luminosity spread over a sphere of radius
    [r], where the distance [d] of the object and [r] satisfy [radius]. *)
Definition spread_nearly (tol : R) (radius : R -> R -> Prop) (p : population E) : Prop :=
  forall i l d f, object p i l d f -> 0 <= l -> 0 < d -> exists r, radius d r /\ 0 < r /\
  Rabs (f - l / (4 * PI * (r * r))) <= tol * (l / (4 * PI * (r * r))).
End Spec.

(** The luminosity distance, in cm, of redshift [z] in a flat universe of matter (density
    [Om]) and a cosmological constant; [sol] is the speed of light in m/s, [h0] the Hubble
    constant in km/s/Mpc. *)
Definition friedmann (sol Om h0 z r : R) : Prop := exists T : R,
  is_RInt (fun t => / sqrt (Om * (1 + t) ^ 3 + (1 - Om))) 0 z T /\ r = (1 + z) * (sol / 1000 / h0) * T * (3086 / 1000 * 10 ^ 24).
