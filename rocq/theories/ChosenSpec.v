(** Specification: selections that can judge any objects. *)
From Verif Require Import Base Env ParamModel SelModel SimVarModel DistModel AuxModel PopModel SynthModel RunSpec FlatSpec.
Set Implicit Arguments.
Open Scope string_scope.

Section Spec.
Variable E : env.
Notation selector := (selector E).

(** A selector that was not used yet and, whatever the observed fluxes, decides about
    each of [n] objects. *)
Definition decides (s : selector) (n : nat) : Prop :=
  s_sampled s = false /\ forall prog fl g, length fl = n ->
  exists s' g' m, sel_draw prog n (set_observed_flux s fl, g) = (Ok tt, (s', g')) /\ s_mask s' = Some m /\ length m = n.
(** The same for their places. *)
Definition decides_places (s : selector) (n : nat) : Prop :=
  s_sampled s = false /\ is_spatial (s_kind s) = true /\ forall prog p s0 g, length (sv_dist p) = n -> length (sv_theta p) = n -> length (sv_phi p) = n ->
  set_spatial_distribution s p = Ok s0 ->
  exists s' g' m, sel_draw prog n (s0, g) = (Ok tt, (s', g')) /\ s_mask s' = Some m /\ length m = n.
(** Flux errors of this size can be drawn. *)
Definition errors_possible (fs : option (V E)) : Prop :=
  forall sg, fs = Some sg -> vlt E sg (vofnat E 0) = false /\ forall x, vfinite E x = true.

(** Independent auxiliary quantities, no derived luminosity, a flux selection and perhaps
    a spatial selection, known distances. *)
Definition selective (y : synth E) (n : nat) : Prop :=
  (forall k i, In (k, i) (y_aux y) -> flat_sampler y n i /\ forall a, nth_error (w_auxs (y_w y)) i = Some a -> y_ssel y <> Some (a_sel (a_ln a))) /\
  NoDup (map snd (y_aux y)) /\ y_der y = None /\ Forall (fun kv => length (snd kv) = y_nmodel y) (y_spaces y) /\
  y_flux y <> y_dsel y /\
  (exists s, nth_error (w_sels (y_w y)) (y_flux y) = Some s /\ decides s n) /\
  (exists s, nth_error (w_sels (y_w y)) (y_dsel y) = Some s /\ s_kind s = KUnity E /\ s_sampled s = false) /\
  forall k, y_ssel y = Some k -> k <> y_flux y /\ k <> y_dsel y /\ exists s, nth_error (w_sels (y_w y)) k = Some s /\ decides_places s n.
End Spec.
