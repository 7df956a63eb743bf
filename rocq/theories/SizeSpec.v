(** Specification of the number of objects of a survey. *)
From Verif Require Import Base Env ParamModel DistModel DistSpec.
Set Implicit Arguments.
Open Scope string_scope.

Section Spec.
Variable E : env.
Notation V := (V E).
Notation zero := (vofnat E 0).

(** The mean number of objects: the integral of the density from zero to the maximal
    distance.  Normalised, the density is divided by its integral with one in place of
    the normalisation parameter, if the instance has one that was read or assigned. *)
Definition mean_objects (norm : bool) (d : sdist E) (rate : V) : Prop :=
  let c := sd_cls d in
  exists rm vals, reading E (sc_params c) (sd_par d) "r_max" = Ok rm /\ values E (sc_params c) (sd_par d) (sc_reads c) vals /\
    if norm then exists uvals i,
      match po_norm (sd_par d) with
      | Some _ => unit_values E (sc_params c) (sd_par d) (sc_reads c) uvals
      | None => uvals = vals
      end /\
      quad E (sc_dens c uvals) zero rm = Ok i /\
      quad E (fun r => rmap (fun x => vdiv E x i) (sc_dens c vals r)) zero rm = Ok rate
    else quad E (sc_dens c vals) zero rm = Ok rate.
(** A survey whose generator was seeded to [g0] has [n] objects, and the generator is
    then [g]: the number is given, or drawn. *)
Definition sized_by (n_samples : option nat) (norm : bool) (d : sdist E) (g0 : Rst E) (n : nat) (g : Rst E) : Prop :=
  match n_samples with
  | Some n' => n = n' /\ g = g0
  | None => exists rate, mean_objects norm d rate /\ r_poisson E rate g0 = (Ok n, g)
  end.
End Spec.
