(** Model of [array_to_cmap] (utils/array_to_cmap.py:5-31), over the reals: the place in the
    colour map, from 0 to 1, at which each value is drawn.  matplotlib's [Normalize] and
    [LogNorm] are modelled as documented: both raise [ValueError] for limits in the wrong
    order and give 0 for equal limits; [LogNorm] raises [ValueError] if the logarithm of a
    limit is not finite. *)
From Coq Require Import Reals List.
From Verif Require Import Base Env LibModel RealModel PlotModel.
Open Scope R_scope.

(** [min(values)], [max(values)] of a list with first entry [v] *)
Fixpoint smallest (v : R) (r : list R) : R := match r with nil => v | x :: r' => smallest (if ltb x v then x else v) r' end.
Fixpoint largest (v : R) (r : list R) : R := match r with nil => v | x :: r' => largest (if ltb v x then x else v) r' end.
(** [norm(v)] *)
Definition place (use_log : bool) (lo hi v : R) : res R :=
  if ltb hi lo then Err ValueError
  else if leb hi lo then Ok 0
  else if use_log then
    if (ltb 0 lo && ltb 0 hi)%bool then Ok ((log10 v - log10 lo) / (log10 hi - log10 lo)) else Err ValueError
  else Ok ((v - lo) / (hi - lo)).
(** [[cmap.to_rgba(v) for v in values]]: [min] and [max] of nothing raise. *)
Definition array_to_cmap (values : list R) (use_log : bool) : res (list R) :=
  match values with
  | nil => Err ValueError
  | v :: r => rmapM (place use_log (smallest v r) (largest v r)) values
  end.
(** The colours of a sphere (population.py:1190: [use_log=True], whatever is asked for). *)
Definition colours {m : machine} (k : mark (real_env m)) : res (list R) :=
  match k with Points _ _ _ _ flux => array_to_cmap flux true | _ => Err Unmodelled end.
