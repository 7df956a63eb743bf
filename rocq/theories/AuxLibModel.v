(** Model of the predefined auxiliary samplers ([popsynth/aux_samplers/*]) over the
    real numbers, as classes for AuxModel.v.

    Simplifications, besides those of LibModel.v and AuxModel.v: a uniform number
    between [low] and [high] is [low + (high - low) * u] for a uniform [u] in [[0, 1)]
    (numpy's definition), a normal one is [loc + scale * z] for a standard normal [z]
    (scipy's). *)
From Coq Require Import Reals ZArith List String.
From Verif Require Import Base Env ParamModel DistModel AuxModel LibModel RealModel.
Import ListNotations.
Open Scope R_scope.
Open Scope string_scope.

Section AuxLib.
Variable m : machine.
Notation E := (real_env m).
Notation st := (mc_st m).
(** One standardised truncated normal number of scipy between two bounds; numba's
    [np.random.uniform(0, 1)]; [stats.norm.ppf(1e-5)]. *)
Variable tnorm : R -> R -> st -> R * st.
Variable nunif : mc_nst m -> R * mc_nst m.
Variable ppf : R.

(** [np.random.uniform(0, 1)], one standard normal number. *)
Definition unit1 (g : st) : R * st := mc_unif m 0 1 g.
Definition norm1 (g : st) : R * st := mc_norm m 0 1 g.

(** [stats.norm.rvs(loc, scale, size)]: [ValueError] for a negative scale or if the
    sizes differ; nothing is drawn for scale zero.  Broadcasting of one location to
    many is left to the caller. *)
Definition norm_rvs (loc : list R) (scale : R) (size : nat) (g : st) : res (list R) * st :=
  if ltb scale 0 then (Err ValueError, g)
  else if negb (Nat.eqb (length loc) size) then (Err ValueError, g)
  else if Req_EM_T scale 0 then (Ok loc, g)
  else let (z, g') := rdraws norm1 size g in (Ok (map (fun p : R * R => snd p * scale + fst p) (combine loc z)), g').

(** [stats.truncnorm.rvs(a, b, loc, scale, size)] with a positive scale; [ValueError]
    unless [a < b]. *)
Definition truncnorm_rvs (a b loc scale : R) (size : nat) (g : st) : res (list R) * st :=
  if ltb a b then let (z, g') := rdraws (tnorm a b) size g in (Ok (map (tn_value loc scale) z), g')
  else (Err ValueError, g).

(** [assert np.alltrue(v >= lower)], [assert np.alltrue(v <= upper)] *)
Definition in_range (lower upper : R) (r : res (list R)) : res (list R) :=
  let? v := r in
  let? _ := rassert (forallb (fun x => leb lower x) v) in
  let? _ := rassert (forallb (fun x => leb x upper) v) in
  Ok v.

(** ** [true_sampler]: from the parameters, in the order they are read here. *)
Definition draws : Type := list R -> nat -> st -> res (list R) * st.
(** delta_aux_sampler.py:35-37 *)
Definition delta_true : draws := fun vals size g =>
  match vals with [xp] => (Ok (repeat xp size), g) | _ => (Err Unmodelled, g) end.
(** normal_aux_sampler.py:35-39 *)
Definition normal_true : draws := fun vals size g =>
  match vals with [mu; tau] => norm_rvs (repeat mu size) tau size g | _ => (Err Unmodelled, g) end.
(** lognormal_aux_sampler.py:35-39 *)
Definition lognormal_true : draws := fun vals size g =>
  match vals with
  | [mu; tau] => let (r, g') := norm_rvs (repeat mu size) tau size g in (rmap (map exp) r, g')
  | _ => (Err Unmodelled, g)
  end.
(** lognormal_aux_sampler.py:84-88 *)
Definition log10normal_true : draws := fun vals size g =>
  match vals with
  | [mu; tau] => let (r, g') := norm_rvs (repeat mu size) tau size g in (rmap (map (Rpower 10)) r, g')
  | _ => (Err Unmodelled, g)
  end.
(** trunc_normal_aux_sampler.py:45-56 *)
Definition trunc_normal_true : draws := fun vals size g =>
  match vals with
  | [lower; mu; tau; upper] =>
      if Req_EM_T tau 0 then (Err ZeroDivisionError, g) else
      let (a, b) := tn_bounds mu tau lower upper in
      let (r, g') := truncnorm_rvs a b mu tau size g in (in_range lower upper r, g')
  | _ => (Err Unmodelled, g)
  end.
(** trunc_lognormal_aux_sampler.py:42-62.  The logarithm of a non-positive limit is
    infinite or nan, which [truncnorm] refuses. *)
Definition trunc_lognormal_true : draws := fun vals size g =>
  match vals with
  | [lower; mu; tau; upper] =>
      if ltb lower 0 then (Err ValueError, g) else if leb upper 0 then (Err ValueError, g) else
      if Req_EM_T tau 0 then (Err ZeroDivisionError, g) else
      let (a, b) := tln_bounds ppf mu tau lower upper in
      let (r, g') := truncnorm_rvs a b mu tau size g in (in_range lower upper (rmap (map exp) r), g')
  | _ => (Err Unmodelled, g)
  end.
(** trunc_lognormal_aux_sampler.py:117-137 *)
Definition trunc_log10normal_true : draws := fun vals size g =>
  match vals with
  | [lower; mu; tau; upper] =>
      if ltb lower 0 then (Err ValueError, g) else if leb upper 0 then (Err ValueError, g) else
      if Req_EM_T tau 0 then (Err ZeroDivisionError, g) else
      let (a, b) := tl10_bounds ppf mu tau lower upper in
      let (r, g') := truncnorm_rvs a b mu tau size g in (in_range lower upper (rmap (map (Rpower 10)) r), g')
  | _ => (Err Unmodelled, g)
  end.
(** plaw_aux_sampler.py:38-40; numpy refuses a shape that is not positive. *)
Definition pareto_true : draws := fun vals size g =>
  match vals with
  | [alpha; xmin] => if leb alpha 0 then (Err ValueError, g)
                     else let (u, g') := rdraws unit1 size g in (Ok (map (pareto_draw xmin alpha) u), g')
  | _ => (Err Unmodelled, g)
  end.
(** [sample_bpl] on [size] uniform numbers (bpl_distribution.py:133-171,
    plaw_aux_sampler.py:138-144): the uniform numbers first, then the trials.  For an
    index -1 the weight is nan, which [bernoulli] refuses. *)
Definition bpl_true : draws := fun vals size g =>
  match vals with
  | [x0; x1; x2; a1; a2] =>
      let (u, g1) := rdraws unit1 size g in
      let w1 := weight1 x0 x1 x2 a1 a2 in
      if Req_EM_T a1 (-1) then (Err ValueError, g1) else if Req_EM_T a2 (-1) then (Err ValueError, g1) else
      if mc_bern_ok m w1 then
        let (s, g2) := rdraws (mc_bern m w1) size g1 in
        (Ok (map (fun p : bool * R => sample_bpl (fst p) (snd p) x0 x1 x2 a1 a2) (combine s u)), g2)
      else (Err ValueError, g1)
  | _ => (Err Unmodelled, g)
  end.
(** sky_sampler.py:62-64 *)
Definition ra_true : draws := fun vals size g =>
  let (u, g') := rdraws unit1 size g in (Ok (map (np_uniform 0 (2 * PI)) u), g').
(** sky_sampler.py:79-83 *)
Definition dec_true : draws := fun vals size g =>
  let (u, g') := rdraws unit1 size g in (Ok (map (fun u => acos (1 - 2 * np_uniform 0 1 u)) u), g').
(** viewing_angle_sampler.py:26-39 *)
Definition va_truth : draws := fun vals size g =>
  match vals with
  | [d] => let (u, g') := rdraws unit1 size g in (Ok (map (va_true d) u), g')
  | _ => (Err Unmodelled, g)
  end.

Definition from_numpy (f : draws) : list R -> view E -> nat -> gens E -> res (option (list R)) * gens E :=
  fun vals _ size g => let (r, g') := f vals size (fst g) in (rmap Some r, (g', snd g)).
(** [_sample_power_law] (plaw_aux_sampler.py:85-89, 159-182): numba's generator. *)
Definition plaw_true : list R -> view E -> nat -> gens E -> res (option (list R)) * gens E :=
  fun vals _ size g =>
  match vals with
  | [xmin; xmax; alpha] => let (u, n') := rdraws nunif size (snd g) in (Ok (Some (map (sample_power_law xmin xmax alpha) u)), (fst g, n'))
  | _ => (Err Unmodelled, g)
  end.

(** ** [observation_sampler], the same in all these classes (e.g.
    normal_aux_sampler.py:41-51); it is called only on observed samplers. *)
Definition normal_obs : list R -> view E -> nat -> gens E -> res (option (list R)) * gens E :=
  fun vals v size g =>
  match vals, vw_true v with
  | [sigma], Some t => let (r, g') := norm_rvs t sigma size (fst g) in (rmap Some r, (g', snd g))
  | _, _ => (Err TypeError, g)
  end.
(** The inherited one does nothing (auxiliary_sampler.py:716-718). *)
Definition no_obs : list R -> view E -> nat -> gens E -> res (option (list R)) * gens E := fun _ _ _ g => (Ok None, g).

(** ** The classes *)
Inductive aux_class :=
| Delta | Normal | LogNormal | Log10Normal | TruncNormal | TruncLogNormal | TruncLog10Normal
| Pareto | PowerLaw | BrokenPowerLaw | RA | Dec | ViewingAngle.
(** [_auxiliary_sampler_name] *)
Definition class_name (c : aux_class) : string :=
  match c with
  | Delta => "DeltaAuxSampler" | Normal => "NormalAuxSampler" | LogNormal => "LogNormalAuxSampler"
  | Log10Normal => "Log10NormalAuxSampler" | TruncNormal => "TruncatedNormalAuxSampler"
  | TruncLogNormal => "TruncatedLogNormalAuxSampler" | TruncLog10Normal => "TruncatedLog10NormalAuxSampler"
  | Pareto => "ParetoAuxSampler" | PowerLaw => "PowerLawAuxSampler" | BrokenPowerLaw => "BrokenPowerLawAuxSampler"
  | RA => "RASampler" | Dec => "DecSampler" | ViewingAngle => "ViewingAngleSampler"
  end.

Notation par k d lo hi := (k, PDecl d lo hi true false).
Definition sigma_par : string * pdecl R := par "sigma" (Some 1) (Some 0) None.
Definition mu_par : string * pdecl R := par "mu" (Some 0) None None.
Definition tau_par : string * pdecl R := par "tau" (Some 1) (Some 0) None.

(** A class with the common [observation_sampler]. *)
Definition measured (ps : pclass R) (reads : list string) (f : list R -> view E -> nat -> gens E -> res (option (list R)) * gens E) : akind E :=
  @AKind E ps reads f ["sigma"] normal_obs [] (fun _ _ => Ok None) [] None.
Definition latent (ps : pclass R) (reads : list string) (f : draws) (preads : list string) (prob : list R -> view E -> res (option (list R))) : akind E :=
  @AKind E ps reads (from_numpy f) [] no_obs preads prob [] None.

(** delta_aux_sampler.py:7-49; normal_aux_sampler.py:7-51; lognormal_aux_sampler.py:7-100;
    trunc_lognormal_aux_sampler.py:7-152; trunc_normal_aux_sampler.py:7-71;
    plaw_aux_sampler.py:9-156; sky_sampler.py:50-83; viewing_angle_sampler.py:6-44. *)
Definition aux_kind (c : aux_class) : akind E :=
  match c with
  | Delta => measured [par "xp" (Some 0) None None; sigma_par] ["xp"] (from_numpy delta_true)
  | Normal => measured [mu_par; tau_par; sigma_par] ["mu"; "tau"] (from_numpy normal_true)
  | LogNormal => measured [mu_par; tau_par; sigma_par] ["mu"; "tau"] (from_numpy lognormal_true)
  | Log10Normal => measured [mu_par; tau_par; sigma_par] ["mu"; "tau"] (from_numpy log10normal_true)
  | TruncNormal => measured [mu_par; tau_par; par "lower" None None None; par "upper" None None None; sigma_par]
                            ["lower"; "mu"; "tau"; "upper"] (from_numpy trunc_normal_true)
  | TruncLogNormal => measured [mu_par; tau_par; par "lower" None (Some 0) None; par "upper" None (Some 0) None; sigma_par]
                               ["lower"; "mu"; "tau"; "upper"] (from_numpy trunc_lognormal_true)
  | TruncLog10Normal => measured [mu_par; tau_par; sigma_par; par "lower" None (Some 0) None; par "upper" None (Some 0) None]
                                 ["lower"; "mu"; "tau"; "upper"] (from_numpy trunc_log10normal_true)
  | Pareto => measured [par "xmin" (Some 1) (Some 0) None; par "alpha" (Some 1) (Some 0) None; sigma_par]
                       ["alpha"; "xmin"] (from_numpy pareto_true)
  | PowerLaw => measured [par "xmin" (Some 1) (Some 0) None; par "xmax" (Some 2) (Some 0) None; par "alpha" (Some 1) None None; sigma_par]
                         ["xmin"; "xmax"; "alpha"] plaw_true
  | BrokenPowerLaw => measured [par "xmin" None (Some 0) None; par "alpha" None None None; par "xbreak" None (Some 0) None;
                                par "beta" None None None; par "xmax" None (Some 0) None]
                               ["xmin"; "xbreak"; "xmax"; "alpha"; "beta"] (from_numpy bpl_true)
  | RA => latent [] [] ra_true [] (fun _ _ => Ok None)
  | Dec => latent [] [] dec_true [] (fun _ _ => Ok None)
  | ViewingAngle => latent [par "max_angle" (Some 90) (Some 0) (Some 180)] ["max_angle"] va_truth ["max_angle"]
      (fun vals v => match vals, vw_true v with
                     | [d], Some t => Ok (Some (map (va_prob d) t))
                     | _, _ => Err TypeError
                     end)
  end.

(** Constructors.  The names of the angles are fixed; they are never observed. *)
Definition angle_name (c : aux_class) : option string :=
  match c with RA => Some "ra" | Dec => Some "dec" | ViewingAngle => Some "va" | _ => None end.
Definition new_aux (c : aux_class) (nm : string) (observed : bool) (sel : nat) : sampler E :=
  match angle_name c with
  | Some k => new_sampler k (class_name c) (aux_kind c) false false false false sel
  | None => new_sampler nm (class_name c) (aux_kind c) observed false false false sel
  end.
End AuxLib.
