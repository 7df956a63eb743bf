(** The sky sampler: a container of a right ascension and a declination sampler (C90). *)
From Coq Require Import Reals List String.
From Verif Require Import Base Env SelModel AuxModel SynthModel RealModel AuxLibModel.
Import ListNotations.
Open Scope string_scope.

(** [SkySampler] (sky_sampler.py:7-47).  Its arguments are not checked: they may be
    samplers or anything else. *)
Record sky := Sky { ra_sampler : registrable; dec_sampler : registrable }.

Section S.
Variable m : machine.
Variable tnorm : R -> R -> mc_st m -> R * mc_st m.
Variable nunif : mc_nst m -> R * mc_nst m.
Variable ppf : R.
Notation E := (real_env m).

(** [RASampler()], [DecSampler()] (sky_sampler.py:53-60, 70-77): a new object with a new
    [UnitySelection] (auxiliary_sampler.py:203). *)
Definition construct_angle (c : aux_class) : AM E registrable := fun w =>
  (Ok (IsSampler (length (w_auxs w))),
   w_set_auxs (w_auxs w ++ [new_aux m tnorm nunif ppf c "" false (length (w_sels w))])%list
     (w_set_sels (w_sels w ++ [unity E "unity"])%list w)).

(** [__init__] with [_setup_sky] (sky_sampler.py:10-37). *)
Definition sky_new (ra dec : option registrable) : AM E sky :=
  let! r := match ra with None => construct_angle RA | Some x => ret x end in
  let! d := match dec with None => construct_angle Dec | Some x => ret x end in
  ret (Sky r d).

(** What a user does with it: add its two samplers to a synth. *)
Definition add_sky (s : sky) : YM E unit := add_quantity (ra_sampler s) ;; add_quantity (dec_sampler s).
End S.
