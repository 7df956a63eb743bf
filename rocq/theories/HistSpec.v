(** Vocabulary for histograms and spheres of distances (C87). *)
From Coq Require Import Reals List Arith.
From Verif Require Import Base Env PopModel PlotModel RealModel.
Import ListNotations.
Open Scope R_scope.

(** [x] lies in the [k]-th of [n] bins of equal width from 0 to [top]; the last one
    contains its end. *)
Definition in_bin (n : nat) (top : R) (k : nat) (x : R) : Prop :=
  INR k * (top / INR n) <= x /\ (x < INR (S k) * (top / INR n) \/ (S k = n /\ x = top)).
(** [c] of the values [xs] have the property [P]. *)
Definition number (P : R -> Prop) (xs : list R) (c : nat) : Prop :=
  exists f : R -> bool, (forall x, f x = true <-> P x) /\ c = length (filter f xs).
(** The heights [bs] of [n] bars count the values [xs]. *)
Definition counts (n : nat) (top : R) (xs : list R) (bs : list nat) : Prop :=
  length bs = n /\ forall k c, nth_error bs k = Some c -> number (in_bin n top k) xs c.
(** The objects drawn lie inside the sphere of radius [rm], or none of them does. *)
Definition points_are (m : machine) (P : R -> Prop) (k : mark (real_env m)) : Prop :=
  match k with
  | Points _ x y z _ => length x = length y /\ length y = length z /\
      forall j a b c, nth_error x j = Some a -> nth_error y j = Some b -> nth_error z j = Some c -> P (a * a + b * b + c * c : R)
  | _ => True
  end.
(** How many objects a mark shows as points. *)
Definition shown {E} (k : mark E) : nat := match k with Points _ x _ _ _ => length x | _ => O end.
Definition inside (rm q : R) : Prop := q < rm * rm.
Definition outside (rm q : R) : Prop := rm * rm < q.
