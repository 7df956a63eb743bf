(** Specification for the numerical properties (C49-C56). *)
From Coq Require Import Reals Lra.
From Coquelicot Require Import Coquelicot.
Open Scope R_scope.

(** The uniform variates in [[0, 1)] for which the draw falls in [[a, b]] form an
    interval of length [p], up to its end points: the draw falls there with
    probability [p]. *)
Definition uniform_prob (draw : R -> R) (a b p : R) : Prop :=
  exists u1 u2, 0 <= u1 /\ u1 <= u2 <= 1 /\ u2 - u1 = p /\
    forall u, 0 <= u < 1 -> (u1 < u < u2 -> a <= draw u <= b) /\ (a <= draw u <= b -> u1 <= u <= u2).
(** The normal density, and the same for a draw made from a normal variate. *)
Definition normal_pdf (mu tau z : R) : R := 1 / (tau * sqrt (2 * PI)) * exp (- (z - mu) ^ 2 / (2 * tau ^ 2)).
Definition normal_prob (mu tau : R) (draw : R -> R) (a b p : R) : Prop :=
  exists z1 z2, z1 <= z2 /\ is_RInt (normal_pdf mu tau) z1 z2 p /\ forall z, a <= draw z <= b <-> z1 <= z <= z2.

(** [x] is where the distribution function of the density [f] on [[lo, hi]] is [u]. *)
Definition quantile (f : R -> R) (lo hi u x : R) : Prop :=
  lo <= x <= hi /\ exists part total, is_RInt f lo x part /\ is_RInt f lo hi total /\ 0 < total /\ part = u * total.

Definition increasing_on (f : R -> R) (lo hi : R) : Prop := forall x y, lo <= x -> x < y -> y <= hi -> f x < f y.

Definition norm2 (v : R * R * R) : R := let '(x, y, z) := v in x * x + y * y + z * z.
