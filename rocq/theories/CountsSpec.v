(** Specification for C86: source counts, the chance that a source is brighter than a flux. *)
From Coq Require Import Reals.
From Verif Require Import LawSpec.
Open Scope R_scope.

(** Distances up to [rm] are proposed and accepted below the curve [F] of a box of height
    [H]; [flux d] is the flux of a source at distance [d].  Of all that is accepted, the
    part that is at least as bright as [S] is [N S], for fluxes from [lo] to [hi]. *)
Definition source_counts (flux F : R -> R) (H rm lo hi : R) (N : R -> R) : Prop :=
  exists T, 0 < T /\ area F H 0 rm T /\
  forall S, lo <= S <= hi -> exists x, 0 <= x <= rm /\ (forall d, 0 < d <= rm -> (S <= flux d <-> d <= x)) /\ area F H 0 x (T * N S).

(** The flux of a source of luminosity [l]: in flat space, and in the library. *)
Definition inverse_square (l d : R) : R := l / (4 * PI * (d * d)).
Definition library_flux (l d : R) : R := l / (4 * PI * ((d + 1) * (d + 1))).
(** Counts of a homogeneous population fall with the power -3/2 of the flux. *)
Definition euclidean (N : R -> R) : Prop := exists k, forall S, 0 < S -> N S = k * Rpower S (- (3 / 2)).
