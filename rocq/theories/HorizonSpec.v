(** Specification for C85: which objects a flux-limited survey detects. *)
From Coq Require Import Reals List String.
From Verif Require Import Base Env SelModel SelSpec AuxModel AuxSpec SimVarModel PopModel SynthModel SynthSpec RealModel FluxSpec.
Open Scope string_scope.

Section Spec.
Variable E : env.
(** The synth has a hard flux limit [b] that was not used in a survey yet. *)
Definition flux_limit (y : synth E) (b : V E) : Prop := exists s, nth_error (w_sels (y_w y)) (y_flux y) = Some s /\
  s_sampled s = false /\ s_kind s = KLower E /\ s_fflux s = true /\ par_is s "boundary" b.
(** Nothing but the flux is selected on. *)
Definition only_the_flux (y : synth E) : Prop := y_ssel y = None /\
  forall j b, part y j -> at_ (y_w y) j b -> exists s, nth_error (w_sels (y_w y)) (a_sel (a_ln b)) = Some s /\ is_unity (s_kind s) = true.
Definition detected (p : population E) (i : nat) : Prop := nth_error (pa_sel (p_args p)) i = Some true.
End Spec.

Section Real.
Variable m : machine.
Notation E := (real_env m).
Open Scope R_scope.
(** A source of luminosity [l] at distance [d] is within the horizon of a survey of limit
    [b]: the sphere around it, of radius [radius d], on which it has flux [b] or more. *)
Definition within_horizon (radius : R -> R) (b l d : R) : Prop := radius d * radius d <= l / (4 * PI * b).
(** Of two objects, one not farther and not less luminous than the other, it is never the
    other that is detected alone. *)
Definition near_and_bright_first (p : population E) : Prop :=
  forall i j l1 l2 d1 d2 f1 f2, object m p i l1 d1 f1 -> object m p j l2 d2 f2 -> 0 < l2 <= l1 -> 0 < d1 <= d2 ->
  detected E p j -> detected E p i.
(** The same of objects of one luminosity: no object is detected while a nearer one is not. *)
Definition nearest_first (p : population E) : Prop :=
  forall i j l1 l2 d1 d2 f1 f2, object m p i l1 d1 f1 -> object m p j l2 d2 f2 -> 0 < d1 <= d2 -> detected E p j -> detected E p i.
End Real.
