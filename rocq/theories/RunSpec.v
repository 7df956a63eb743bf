(** Specification: a population that can be drawn. *)
From Verif Require Import Base Env ParamModel SelModel SimVarModel DistModel DistSpec AuxModel PopModel SynthModel.
Set Implicit Arguments.
Open Scope string_scope.

Section Spec.
Variable E : env.

(** The selections a new synth has: everything is detected, every distance is known. *)
Definition default_selections (y : synth E) : Prop :=
  y_ssel y = None /\ y_flux y <> y_dsel y /\
  forall i, i = y_flux y \/ i = y_dsel y -> exists s, nth_error (w_sels (y_w y)) i = Some s /\ s_kind s = KUnity E /\ s_sampled s = false.
(** No auxiliary quantities, no derived luminosity, model spaces of the right size. *)
Definition plain (y : synth E) : Prop :=
  y_aux y = nil /\ y_der y = None /\ default_selections y /\ Forall (fun kv => length (snd kv) = y_nmodel y) (y_spaces y).

(** The luminosity distribution draws [n] luminosities and knows their density. *)
Definition draws_luminosities (l : ldist E) (n : nat) : Prop :=
  exists vals pvals, values E (lc_params (ld_cls l)) (ld_par l) (lc_dreads (ld_cls l)) vals /\
    values E (lc_params (ld_cls l)) (ld_par l) (lc_preads (ld_cls l)) pvals /\
    (forall g, exists ls g', lc_draw (ld_cls l) vals n g = (Ok ls, g') /\ length ls = n /\
       forall x, In x ls -> exists q, lc_phi (ld_cls l) pvals x = Ok q).

(** A class that replaces [draw_sky_positions] gives each of [n] objects a place. *)
Definition places (c : spcls E) (n : nat) : Prop :=
  match sc_sky c with
  | None => True
  | Some f => forall ds g, length ds = n -> exists s g', f ds n g = (Ok s, g') /\ length (sv_dist s) = n /\ length (sv_theta s) = n /\ length (sv_phi s) = n
  end.

(** All objects are detected, at known distances, without flux error. *)
Definition all_detected (p : population E) : Prop :=
  p_ndet p = p_nobj p /\ p_nnon p = 0 /\ pa_known (p_args p) = sv_lat (p_dist p) /\ sv_obs (p_flux p) = sv_lat (p_flux p).
End Spec.
