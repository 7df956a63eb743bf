(** Specification: where the objects of a survey are on the sky. *)
From Coq Require Import Reals List String.
From Verif Require Import Base Env SimVarModel DistModel DistSpec PopModel SynthModel RealModel AuxLawSpec.
Import ListNotations.
Open Scope R_scope.

Section Spec.
Variable m : machine.
Notation E := (real_env m).
Notation st := (mc_st m).

(** [np.random.uniform] stays in its range. *)
Definition uniform_in_range : Prop := 
  forall hi g, (0 < hi -> 0 <= fst (mc_unif m 0 hi g) < hi) /\ (0 <= hi -> 0 <= fst (mc_unif m 0 hi g)).

(** Evenly over the sphere: from one uniform number [u] for each object the polar angle
    whose cosine is [1 - 2 u], then for each a uniform azimuth. *)
Definition over_the_sphere (g : st) (theta phi : list R) (g' : st) : Prop :=
  exists u g1, consecutive (mc_unif m 0 1) g u g1 /\ consecutive (mc_unif m 0 (2 * PI)) g1 phi g' /\
    Forall2 (fun u th => 0 <= th <= PI /\ cos th = 1 - 2 * u) u theta.

(** Numbers drawn one after the other, each from the source of its own element. *)
Fixpoint one_each {S A B : Type} (src : B -> S -> A * S) (bs : list B) (g : S) (l : list A) (g' : S) : Prop :=
  match bs, l with
  | [], [] => g' = g
  | b :: bs', x :: l' => x = fst (src b g) /\ one_each src bs' (snd (src b g)) l' g'
  | _, _ => False
  end.

(** The arms of the Milky Way (Wainscoat 1992): logarithmic spirals
    [r = r0 * exp ((angle - t0) / k)]. *)
Definition arm (i : nat) : option (R * R * R) :=
  match i with
  | 0%nat => Some (4.25, 3.48, 0)
  | 1%nat => Some (4.25, 3.48, 3.141)
  | 2%nat => Some (4.89, 4.90, 2.525)
  | 3%nat => Some (4.89, 4.90, 5.666)
  | _ => None
  end.
(** One object: it was drawn at distance [d] on arm [i], its angle is turned by [w],
    less with the distance, it is [h] above or below ([up]) the plane and its distance
    is changed by [n]. *)
Definition in_galaxy (i : nat) (d w h : R) (up : bool) (n : R) (r theta phi : R) : Prop :=
  exists k r0 t0, arm i = Some (k, r0, t0) /\
    d = r0 * exp ((theta - t0 - w * exp (- 0.35 * d)) / k) /\
    r = d + n /\
    0 <= phi <= PI /\ cos phi * sqrt (r * r + h * h) = (if up then h else - h).
(** All: the arms, the turns, the heights, the sides and the shifts are drawn in this order. *)
Definition galaxy_drawn (arm_src : st -> nat * st) (exp_src : R -> st -> R * st) (side_src : st -> bool * st)
    (g : st) (ds r theta phi : list R) (g' : st) : Prop :=
  exists i g1 w g2 h g3 up g4 n,
    consecutive arm_src g i g1 /\ consecutive (mc_unif m 0 (2 * PI)) g1 w g2 /\ consecutive (exp_src 0.3) g2 h g3 /\
    consecutive side_src g3 up g4 /\ one_each (fun d => mc_norm m 0 (0.07 * Rabs d)) ds g4 n g' /\
    length i = length ds /\ length w = length ds /\ length h = length ds /\ length up = length ds /\
    length r = length ds /\ length theta = length ds /\ length phi = length ds /\
    forall j ij dj wj hj uj nj rj tj pj,
      nth_error i j = Some ij -> nth_error ds j = Some dj -> nth_error w j = Some wj -> nth_error h j = Some hj -> nth_error up j = Some uj ->
      nth_error n j = Some nj -> nth_error r j = Some rj -> nth_error theta j = Some tj -> nth_error phi j = Some pj ->
      in_galaxy ij dj wj hj uj nj rj tj pj.
End Spec.
