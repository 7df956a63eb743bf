(** Vocabulary for colours (C89). *)
From Coq Require Import Reals List.
From Verif Require Import Base Env RealModel PlotModel ColourModel.
Open Scope R_scope.

(** The places [ps] show the order of the values [vs]: each between 0 and 1, a larger value
    at a larger place, equal ones at the same, the smallest at 0 and, if there are two
    values, the largest at 1. *)
Definition shows_order (vs ps : list R) : Prop :=
  length ps = length vs /\
  (forall i v p, nth_error vs i = Some v -> nth_error ps i = Some p ->
     0 <= p <= 1 /\ ((forall x, In x vs -> v <= x) -> p = 0) /\ ((forall x, In x vs -> x <= v) -> (exists x, In x vs /\ x <> v) -> p = 1)) /\
  (forall i j v w p q, nth_error vs i = Some v -> nth_error vs j = Some w -> nth_error ps i = Some p -> nth_error ps j = Some q ->
     (v < w <-> p < q) /\ (v = w <-> p = q)).
(** The objects of a sphere have colours, and these show the order of their fluxes. *)
Definition coloured {m : machine} (k : mark (real_env m)) : Prop :=
  match k with Points _ _ _ _ flux => exists ps, colours k = Ok ps /\ shows_order flux ps | _ => True end.
