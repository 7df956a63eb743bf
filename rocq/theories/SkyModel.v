(** Model of the sky positions of SpiralGalaxyDistribution and of the angles in degrees
    of a population, over the real numbers. *)
From Coq Require Import Reals ZArith List String.
From Verif Require Import Base Env SimVarModel DistModel PopModel LibModel RealModel.
Import ListNotations.
Open Scope R_scope.
Open Scope string_scope.

Section Sky.
Variable m : machine.
Notation E := (real_env m).
Notation st := (mc_st m).

(** The further sources of numpy's generator: [randint(4)], [exponential(scale)], and
    [choice([-1, 1])], which is [true] for 1. *)
Record galaxy_sources := GalaxySources {
  gs_arm : st -> nat * st;
  gs_exp : R -> st -> R * st;
  gs_sign : st -> bool * st }.
Variable gs : galaxy_sources.

(** spiral_galaxy_distribution.py:72-74: [k], [r0] and [theta0] of each arm. *)
Definition arms : list (R * R * R) :=
  [(425 / 100, 348 / 100, 0); (425 / 100, 348 / 100, 3141 / 1000); (489 / 100, 490 / 100, 2525 / 1000); (489 / 100, 490 / 100, 5666 / 1000)].
(** spiral_galaxy_distribution.py:83-91.  [ln] is [np.log] for positive numbers. *)
Definition spiral_angle (a : R * R * R) (d w : R) : R :=
  let '(k, r0, t0) := a in
  let tet := k * ln (d / r0) + t0 in
  let corrtet := w * exp (- (35 / 100) * d) in
  tet + corrtet.
(** spiral_galaxy_distribution.py:101 *)
Definition polar_angle (d z : R) : R := acos (z / sqrt (d ^ 2 + z ^ 2)).
(** [draw_sky_positions(size)] (spiral_galaxy_distribution.py:63-105).  The synth calls it
    with the number of the distances; other sizes are left out. *)
Definition spiral_sky (ds : list R) (size : nat) (g : st) : res (spvals E) * st :=
  if Nat.eqb (length ds) size then
    let (idx, g1) := rdraws (gs_arm gs) size g in
    match rmapM (fun i => of_opt IndexError (nth_error arms i)) idx with
    | Err e => (Err e, g1)
    | Ok a =>
        let (w, g2) := rdraws (mc_unif m 0 (2 * PI)) size g1 in
        let th := map (fun p => spiral_angle (fst (fst p)) (snd (fst p)) (snd p)) (combine (combine a ds) w) in
        let (e, g3) := rdraws (gs_exp gs (3 / 10)) size g2 in
        let (s, g4) := rdraws (gs_sign gs) size g3 in
        let z := map (fun p => fst p * (if snd p : bool then 1 else -1)) (combine e s) in
        let (n, g5) := rmapdraws (fun d => mc_norm m 0 (7 / 100 * Rabs d)) ds g4 in
        let ds' := map (fun p => fst p + snd p) (combine ds n) in
        (Ok (SpVals E ds' th (map (fun p => polar_angle (fst p) (snd p)) (combine ds' z))), g5)
    end
  else (Err Unmodelled, g).
(** The classes' [draw_sky_positions]: distribution.py:293-302 unless overridden. *)
Definition library_sky (cls : string) : option (list R -> nat -> st -> res (spvals E) * st) :=
  if String.eqb cls "SpiralGalaxyDistribution" then Some spiral_sky else None.

(** [Population.dec], [Population.ra] (population.py:277-288) *)
Definition pop_dec (p : population E) : list R := map dec (sv_obs (p_theta p)).
Definition pop_ra (p : population E) : list R := map ra (sv_obs (p_phi p)).
End Sky.
