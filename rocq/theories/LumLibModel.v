(** Model of the predefined luminosity distributions ([popsynth/distributions]) over the
    real numbers.  Simplifications as in LibModel.v. *)
From Coq Require Import Reals ZArith List String.
From Verif Require Import Base Env ParamModel DistModel LibModel SynthModel LibPopModel RealModel AuxLibModel.
Import ListNotations.
Open Scope R_scope.
Open Scope string_scope.

Section LumLib.
Variable m : machine.
Notation E := (real_env m).
Notation st := (mc_st m).
(** [scipy.special.gammaincinv] and [scipy.special.gamma] *)
Variable ginv : R -> R -> R.
Variable gam : R -> R.

(** [np.random.normal(mu, tau, size)]: [ValueError] for a negative width. *)
Definition np_normal (mu tau : R) (size : nat) (g : st) : res (list R) * st :=
  if ltb tau 0 then (Err ValueError, g) else let (z, g') := rdraws (mc_norm m mu tau) size g in (Ok z, g').

(** schechter_distribution.py:37-48.  The inverse at 1, which is infinite, is met only
    for the uniform number 0. *)
Definition schechter_phi (Lmin alpha L : R) : R :=
  Rpower L alpha * exp (- L / Lmin) / (Rpower Lmin (1 + alpha) * gam (1 + alpha)).
Definition schechter_draw (Lmin alpha u : R) : R := Lmin * ginv (1 + alpha) (1 - u).
(** delta_distribution.py:32-58 *)
Definition delta_phi (Lp L : R) : R := if Req_EM_T L Lp then 1 else 0.

(** [draw_luminosity(size)]: pareto_distribution.py:45-47, bpl_distribution.py:59-65,
    log_normal_distribution.py:41-43, log10_normal_distribution.py:39-43,
    schechter_distribution.py:45-48, delta_distribution.py:56-58,
    uniform_distribution.py:46-48 (scipy wants [0 < Lmin < Lmax]). *)
Definition lum_draw (cls : string) (vals : list R) (size : nat) (g : st) : res (list R) * st :=
  if String.eqb cls "ParetoDistribution" then pareto_true m vals size g
  else if String.eqb cls "BPLDistribution" then bpl_true m vals size g
  else if String.eqb cls "LogNormalDistribution" then
    match vals with [mu; tau] => let (r, g') := np_normal mu tau size g in (rmap (map lognorm_draw) r, g') | _ => (Err Unmodelled, g) end
  else if String.eqb cls "Log10NormalDistribution" then
    match vals with [mu; tau] => let (r, g') := np_normal mu tau size g in (rmap (map log10norm_draw) r, g') | _ => (Err Unmodelled, g) end
  else if String.eqb cls "SchechterDistribution" then
    match vals with [Lmin; alpha] => let (u, g') := rdraws (unit1 m) size g in (Ok (map (schechter_draw Lmin alpha) u), g') | _ => (Err Unmodelled, g) end
  else if String.eqb cls "DeltaDistribution" then delta_true m vals size g
  else if String.eqb cls "LogUniLuminiosityDistribution" then
    match vals with
    | [Lmin; Lmax] => if leb Lmin 0 then (Err ValueError, g) else if leb Lmax Lmin then (Err ValueError, g) else
                      let (u, g') := rdraws (unit1 m) size g in (Ok (map (loguni_draw Lmin Lmax) u), g')
    | _ => (Err Unmodelled, g)
    end
  else (Err Unmodelled, g).

(** [phi(L)]: pareto_distribution.py:33-43, bpl_distribution.py:47-57,
    log_normal_distribution.py:35-39, log10_normal_distribution.py:33-37,
    schechter_distribution.py:37-43, delta_distribution.py:32-54,
    uniform_distribution.py:42-44. *)
Definition lum_phi (cls : string) (vals : list R) (L : R) : res R :=
  match vals with
  | [Lp] => if String.eqb cls "DeltaDistribution" then Ok (delta_phi Lp L) else Err Unmodelled
  | [x; y] =>
      if String.eqb cls "ParetoDistribution" then Ok (pareto_phi x y L)
      else if String.eqb cls "LogNormalDistribution" then Ok (lognorm_phi y x L)
      else if String.eqb cls "Log10NormalDistribution" then Ok (log10norm_phi y x L)
      else if String.eqb cls "SchechterDistribution" then Ok (schechter_phi y x L)
      else if String.eqb cls "LogUniLuminiosityDistribution" then Ok (loguni_phi y x L)
      else Err Unmodelled
  | [Lmin; Lbreak; Lmax; alpha; beta] =>
      if String.eqb cls "BPLDistribution" then
        let f := fun ll => bpl ll Lmin Lbreak Lmax alpha beta in
        let? i := mc_quad m (fun ll => Ok (f ll)) Lmin Lmax in Ok (f L / i)
      else Err Unmodelled
  | _ => Err Unmodelled
  end.

(** The whole library: spatial and luminosity distributions. *)
Definition full_lib (sol rel Om h0 : R) (sky : string -> option (list R -> nat -> st -> res (spvals E) * st)) (form : string -> string) : formulas E :=
  lib sol rel Om h0 m sky lum_draw lum_phi form.

(** The two luminosity classes the predefined populations do not use. *)
Section More.
Variable fo : formulas E.
(** delta_distribution.py:6-30 *)
Definition DeltaDistribution : lumobj E :=
  luminosity fo "DeltaDistribution" "delta" [("Lp", decl E (Some 0) (Some 0) false)] ["Lp"] ["Lp"].
(** uniform_distribution.py:11-40 *)
Definition LogUniLuminiosityDistribution : lumobj E :=
  luminosity fo "LogUniLuminiosityDistribution" "logunilum"
    [("Lmin", decl E None (Some 0) false); ("Lmax", decl E None (Some 0) false)] ["Lmin"; "Lmax"] ["Lmax"; "Lmin"].
End More.
End LumLib.

Inductive lum_class := LPareto | LBPL | LLogNormal | LLog10Normal | LSchechter | LDelta | LLogUni.
Definition lum_object {m : machine} (fo : formulas (real_env m)) (c : lum_class) : lumobj (real_env m) :=
  match c with
  | LPareto => ParetoDistribution fo | LBPL => BPLDistribution fo | LLogNormal => LogNormalDistribution fo
  | LLog10Normal => Log10NormalDistribution fo | LSchechter => SchechterDistribution fo
  | LDelta => DeltaDistribution m fo | LLogUni => LogUniLuminiosityDistribution m fo
  end.
