(** What a population shares with the synth that drew it.

    [draw_survey] hands its own objects to the population (population_synth.py:1380-1405):
    [params] of the spatial and of the luminosity distribution are the dictionaries in
    which the distributions keep their parameters (distribution.py:84-90), [model_spaces]
    is the synth's dictionary, which [add_model_space] changes in place
    (population_synth.py:61, 790), and [graph] is the synth's graph, to which every look
    at it adds (1494-1582).  [Population.__init__] stores them without a copy
    (population.py:156-163).  No method replaces one of these objects.  The arrays are
    made anew by each draw, [truth] and [to_dict()] build new dictionaries
    (distribution.py:92-105, population_synth.py:202-335), so they are not shared.
    Simplification: arrays that the user changes in place are not modelled. *)
From Verif Require Import Base Env ParamModel DistModel AuxModel PopModel SynthModel.
Set Implicit Arguments.

Section Share.
Variable E : env.
Notation V := (V E).

(** The population [p], drawn from this synth, as it is while the synth is in state [y]:
    [luminosity_parameters], [spatial_parameters], [graph] (population.py:225-233, 445-494)
    and the model spaces (532, 658) are read from the shared objects. *)
Definition shows (y : synth E) (p : population E) : population E :=
  let a := p_args p in
  Pop (PopArgs E (pa_lum a) (pa_dist a) (pa_known a) (pa_kidx a) (pa_uidx a) (pa_flux a) (pa_fobs a) (pa_sel a) (pa_sigma a) (pa_rmax a) (pa_nmodel a)
         (option_map (fun l => po_store (ld_par l)) (y_lum y)) (po_store (sd_par (y_sp y))) (Some (y_spaces y))
         (pa_seed a) (pa_name a) (pa_spform a) (pa_lfform a) (pa_aux a) (pa_truth a) (y_graph y)
         (pa_theta a) (pa_phi a) (pa_popsynth a) (pa_prob a))
      (p_lum p) (p_dist p) (p_theta p) (p_phi p) (p_flux p) (p_prob p) (p_nobj p) (p_ndet p) (p_nnon p) (p_nodet p) (p_aux p).

(** [synth.spatial_distribution.k = v] (meta.py:72-100). *)
Definition set_spatial (k : string) (v : V) : YM E unit := fun y =>
  match dget (sc_params (sd_cls (y_sp y))) k with
  | None => (Err AttributeError, y)
  | Some d => let (r, o) := param_set (fun v m => vle E m v) (fun v m => vle E v m) d k (Some v) (sd_par (y_sp y)) in
              (r, with_spd y (with_spar (y_sp y) o))
  end.
(** [synth.luminosity_distribution.k = v] *)
Definition set_luminosity (k : string) (v : V) : YM E unit := fun y =>
  match y_lum y with
  | None => (Err AttributeError, y)
  | Some l =>
      match dget (lc_params (ld_cls l)) k with
      | None => (Err AttributeError, y)
      | Some d => let (r, o) := param_set (fun v m => vle E m v) (fun v m => vle E v m) d k (Some v) (ld_par l) in
                  (r, with_lumd y (LDist (ld_cls l) (ld_name l) o (ld_prob l)))
      end
  end.
End Share.
