(** Specification: soft selections over the reals (C76), selections that are ready (C77). *)
From Coq Require Import Reals List String.
From Verif Require Import Base Env SelModel SelSpec LibModel RealModel.
Import ListNotations.
Open Scope R_scope.
Open Scope string_scope.

(** The odds of detecting an object are the power [k / ln 10] of its flux in units of the
    boundary [b]: they are one at the boundary and grow by the factor [exp k] per decade. *)
Definition detection_probability (k b f p : R) : Prop := 0 < p < 1 /\ p / (1 - p) = Rpower (f / b) (k / ln 10).

(** One Bernoulli draw per probability, one after the other. *)
Inductive bernoulli_draws (m : machine) : list R -> mc_st m -> list bool -> mc_st m -> Prop :=
| bd_nil g : bernoulli_draws m [] g [] g
| bd_cons p ps x xs g g1 g2 : mc_bern m p g = (x, g1) -> bernoulli_draws m ps g1 xs g2 -> bernoulli_draws m (p :: ps) g (x :: xs) g2.

(** A flux selection that was not used yet, with its parameters set. *)
Definition flux_ready (m : machine) (s : selector (real_env m)) : Prop :=
  s_sampled s = false /\
  (s_kind s = KUnity _ \/
   (s_kind s = KBernoulli _ /\ exists p, 0 <= p <= 1 /\ par_is s "probability" p) \/
   s_fflux s = true /\
   ((s_kind s = KLower _ /\ exists b, par_is s "boundary" b) \/
    (s_kind s = KUpper _ /\ exists b, par_is s "boundary" b) \/
    (s_kind s = KBox _ /\ exists lo hi, par_is s "vmin" lo /\ par_is s "vmax" hi) \/
    (s_kind s = KSoft _ /\ exists k b, par_is s "strength" k /\ par_is s "boundary" b))).
(** The same for a spatial selection. *)
Definition place_ready (m : machine) (s : selector (real_env m)) : Prop :=
  s_sampled s = false /\
  ((s_kind s = KGalactic _ /\ exists b, par_is s "b_limit" b) \/
   (s_kind s = KDistance _ /\ exists lo hi, par_is s "min_distance" lo /\ par_is s "max_distance" hi)).
