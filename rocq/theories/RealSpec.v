(** Specification of the reported distance density and of the number of objects over
    the reals. *)
From Coq Require Import Reals List String.
From Coquelicot Require Import Coquelicot.
From Verif Require Import Base Env ParamModel DistModel DistSpec PopModel SynthModel RealModel.
Open Scope R_scope.
Open Scope string_scope.

(** A probability density on [0, b]. *)
Definition density (p : R -> R) (b : R) : Prop := (forall r, 0 <= r <= b -> 0 <= p r) /\ is_RInt p 0 b 1.

(** The probability every successful normalised draw records is [p] at the drawn
    distances. *)
Definition reports (m : machine) (d : sdist (real_env m)) (p : R -> R) : Prop :=
  forall progress fuel size d' s s',
    draw_distance progress fuel size true (d, s) = (Ok tt, (d', s')) ->
    exists rs, length rs = size /\ sd_dist d' = Some rs /\ sd_prob d' = Some (map p rs).

(** An instance of class [c] whose maximal distance is [rm]. *)
Definition instance (m : machine) (c : spcls (real_env m)) (rm : R) (d : sdist (real_env m)) : Prop :=
  sd_cls d = c /\ wf_par (real_env m) (sc_params c) (sd_par d) /\ 0 < rm /\
  reading (real_env m) (sc_params c) (sd_par d) "r_max" = Ok rm.
(** It reads [v] for parameter [k]. *)
Definition reads (m : machine) (d : sdist (real_env m)) (k : string) (v : R) : Prop :=
  reading (real_env m) (sc_params (sd_cls d)) (sd_par d) k = Ok v.
(** Its normalisation parameter is [k] and was assigned [v]. *)
Definition assigned (m : machine) (d : sdist (real_env m)) (k : string) (v : R) : Prop :=
  po_norm (sd_par d) = Some k /\ dget (po_store (sd_par d)) k = Some (Some v) /\ reads m d k v.

(** The number of objects of every survey without [n_samples] is a Poisson number of
    mean [rate], the first number after seeding. *)
Definition poisson_survey (m : machine) (norm : bool) (d : sdist (real_env m)) (rate : R) : Prop :=
  forall prog fuel rl fs l10 (y : synth (real_env m)) p y', y_sp y = d ->
    draw_survey prog fuel rl fs l10 None norm y = (Ok p, y') ->
    fst (mc_poisson m rate (mc_seed m (y_seed y))) = Ok (p_nobj p).
