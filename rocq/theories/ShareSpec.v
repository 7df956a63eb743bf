(** When a population is still what it was (C75). *)
From Verif Require Import Base Env ParamModel DistModel DistSpec AuxModel PopModel SynthModel SynthSpec.
Set Implicit Arguments.

Section Spec.
Variable E : env.
(** Same nodes with the same attributes, same edges. *)
Definition same_graph (g g' : graph) : Prop :=
  (forall k, dget (gr_nodes g) k = dget (gr_nodes g') k) /\ gr_edges g = gr_edges g'.
(** The parameters of a class read the same from both dictionaries. *)
Definition same_parameters (c : pclass (V E)) (d d' : dict (option (V E))) : Prop :=
  same_reads E c (PObj d None) (PObj d' None).

(** [q] shows what [p] shows: the same objects, values, mask, truths, configuration and
    model spaces, parameters that read the same, and the same graph. *)
Definition same_record (spc : pclass (V E)) (lc : option (pclass (V E))) (p q : population E) : Prop :=
  let a := p_args p in let b := p_args q in
  (pa_lum b = pa_lum a /\ pa_dist b = pa_dist a /\ pa_known b = pa_known a /\ pa_kidx b = pa_kidx a /\ pa_uidx b = pa_uidx a /\
   pa_flux b = pa_flux a /\ pa_fobs b = pa_fobs a /\ pa_sel b = pa_sel a /\ pa_theta b = pa_theta a /\ pa_phi b = pa_phi a /\
   pa_aux b = pa_aux a /\ pa_prob b = pa_prob a /\ pa_truth b = pa_truth a /\ pa_popsynth b = pa_popsynth a /\
   pa_sigma b = pa_sigma a /\ pa_rmax b = pa_rmax a /\ pa_seed b = pa_seed a /\ pa_name b = pa_name a) /\
  (p_lum q = p_lum p /\ p_dist q = p_dist p /\ p_flux q = p_flux p /\ p_theta q = p_theta p /\ p_phi q = p_phi p /\
   p_prob q = p_prob p /\ p_aux q = p_aux p /\ p_nobj q = p_nobj p /\ p_ndet q = p_ndet p /\ p_nnon q = p_nnon p) /\
  pa_spaces b = pa_spaces a /\ pa_nmodel b = pa_nmodel a /\
  same_parameters spc (pa_sppar a) (pa_sppar b) /\
  match lc, pa_lfpar a, pa_lfpar b with
  | Some c, Some d, Some d' => same_parameters c d d'
  | None, None, None => True
  | _, _, _ => False
  end /\
  same_graph (pa_graph a) (pa_graph b).

(** What may happen to a synth between two looks at a population: surveys are drawn,
    selections are chosen, the graph is looked at. *)
Inductive later (rl : nat) : synth E -> synth E -> Prop :=
| later_same y : later rl y y
| later_survey y prog fuel fs l10 ns norm p y1 z :
    draw_survey prog fuel rl fs l10 ns norm y = (Ok p, y1) ->
    (norm = true -> ns = None -> norm_value E (sd_par (y_sp y))) -> later rl y1 z -> later rl y z
| later_graph y g y1 z : read_graph rl y = (Ok g, y1) -> later rl y1 z -> later rl y z
| later_flux y x y1 z : set_flux x y = (Ok tt, y1) -> later rl y1 z -> later rl y z
| later_dist y x y1 z : set_dist x y = (Ok tt, y1) -> later rl y1 z -> later rl y z
| later_spatial y x y1 z : add_spatial x y = (Ok tt, y1) -> later rl y1 z -> later rl y z.
End Spec.
