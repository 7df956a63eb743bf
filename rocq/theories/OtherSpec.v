(** Specification for C78: surveys that differ in their selections only. *)
From Verif Require Import Base Env SelModel SimVarModel DistModel AuxModel PopModel SynthModel.
Set Implicit Arguments.

Section Spec.
Variable E : env.
Notation synth := (synth E).
Notation population := (population E).

(** The same distributions, samplers and seed.  The flux, spatial and distance selections
    may differ, and whatever else the synths keep. *)
Record but_selections (y y' : synth) : Prop := ButSelections {
  bs_sp : y_sp y = y_sp y';
  bs_lum : y_lum y = y_lum y';
  bs_seed : y_seed y = y_seed y';
  bs_aux : y_aux y = y_aux y';
  bs_der : y_der y = y_der y';
  bs_auxs : w_auxs (y_w y) = w_auxs (y_w y');
  bs_n : w_n (y_w y) = w_n (y_w y');
  bs_sels : forall a, In a (w_auxs (y_w y)) -> nth_error (w_sels (y_w y)) (a_sel (a_ln a)) = nth_error (w_sels (y_w y')) (a_sel (a_ln a)) }.

(** The same objects: luminosities, places, fluxes, auxiliary quantities (true and
    observed), and the same record of how they were made. *)
Record same_objects (p p' : population) : Prop := SameObjects {
  so_n : p_nobj p = p_nobj p';
  so_lum : sv_lat (p_lum p) = sv_lat (p_lum p');
  so_dist : sv_lat (p_dist p) = sv_lat (p_dist p');
  so_theta : sv_lat (p_theta p) = sv_lat (p_theta p');
  so_phi : sv_lat (p_phi p) = sv_lat (p_phi p');
  so_flux : sv_lat (p_flux p) = sv_lat (p_flux p');
  so_aux : pa_aux (p_args p) = pa_aux (p_args p');
  so_truth : pa_truth (p_args p) = pa_truth (p_args p') }.

Definition detected (p : population) (i : nat) : Prop := nth_error (pa_sel (p_args p)) i = Some true.
(** The two synths use the same spatial selection, an object apart. *)
Definition same_spatial (y y' : synth) : Prop :=
  y_ssel y = y_ssel y' /\ forall k, y_ssel y = Some k -> nth_error (w_sels (y_w y)) k = nth_error (w_sels (y_w y')) k.
(** The same flux selection. *)
Definition same_flux_selection (y y' : synth) : Prop :=
  y_flux y = y_flux y' /\ nth_error (w_sels (y_w y)) (y_flux y) = nth_error (w_sels (y_w y')) (y_flux y').
End Spec.
