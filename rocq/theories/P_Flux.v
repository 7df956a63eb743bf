(** C72: the fluxes of the objects of predefined populations. *)
From Coq Require Import Reals ZArith List String Lra Lia.
From Verif Require Import Base Env ParamModel SelModel SimVarModel DistModel AuxModel PopModel SynthModel LibModel LibPopModel LibPopSpec RealModel RealExamples LumLibModel RunSpec RunExamples FluxSpec.
From Verif Require FluxPop LibFit.
Import ListNotations.
Open Scope R_scope.
Open Scope string_scope.

Section P.
Variable m : machine.
Notation E := (real_env m).
Variable ginv : R -> R -> R.
Variable gam : R -> R.
Variables (sol rel Om h0 : R) (sky : string -> option (list R -> nat -> mc_st m -> res (spvals E) * mc_st m)) (form : string -> string) (w : world E).
Notation fo := (full_lib m ginv gam sol rel Om h0 sky form).

(** Every survey of a predefined population, whatever selections and auxiliary
    quantities were added, and also with a derived luminosity: each object has a flux,
    its luminosity spread over a sphere; the radius is the luminosity distance for the
    cosmological classes, the distance plus one for the others. *)
Theorem C72_flux_of_each_object : forall c (arg : string -> R) seed lum rate (y0 y : synth E) prog fuel rl fs l10 ns norm p y',
  build fo w c arg seed lum rate = Ok y0 -> y_sp y = y_sp y0 -> draw_survey prog fuel rl fs l10 ns norm y = (Ok p, y') ->
  (forall i, (i < p_nobj p)%nat -> exists l d f, object m p i l d f) /\
  spread_over m (fun d => if cosmological (fst (documented c)) then luminosity_distance sol Om h0 d else d + 1) p.
Proof.
  intros c arg seed lum rate y0 y prog fuel rl fs l10 ns norm p y' B SP H. split.
  - exact (FluxPop.every_object m _ _ _ _ _ _ _ _ _ _ H).
  - exact (FluxPop.flux_spread m ginv gam sol rel Om h0 sky form w c arg seed rate y0 lum B _ _ _ _ _ _ _ y p y' SP H).
Qed.
(** In the cosmological classes that sphere has, to seven parts in a thousand of the flux,
    the radius light needs in a universe of matter and a cosmological constant. *)
Theorem C72_expanding_universe : forall c (arg : string -> R) seed lum rate (y0 y : synth E) prog fuel rl fs l10 ns norm p y',
  0 < sol -> 3 / 10 <= Om < 1 -> 0 < h0 -> cosmological (fst (documented c)) = true ->
  build fo w c arg seed lum rate = Ok y0 -> y_sp y = y_sp y0 -> draw_survey prog fuel rl fs l10 ns norm y = (Ok p, y') ->
  spread_nearly m (7 / 1000) (friedmann sol Om h0) p.
Proof.
  intros c arg seed lum rate y0 y prog fuel rl fs l10 ns norm p y' HS HO HH C B SP H i l d f O HL HD.
  assert (F := FluxPop.flux_spread m ginv gam sol rel Om h0 sky form w c arg seed rate y0 lum B _ _ _ _ _ _ _ y p y' SP H i l d f O).
  cbv beta in F. rewrite C in F. destruct (LibFit.flux_fits sol Om h0 l d HS HO HH HL HD) as (T & RT & DP & W).
  eexists. split; [exists T; split; [exact RT|reflexivity]|]. split; [exact DP|]. rewrite F. exact W.
Qed.
(** An object that is farther than another and not more luminous is dimmer. *)
Theorem C72_farther_objects_are_dimmer : forall c (arg : string -> R) seed lum rate (y0 y : synth E) prog fuel rl fs l10 ns norm p y',
  0 < sol -> 0 < Om < 1 -> 0 < h0 ->
  build fo w c arg seed lum rate = Ok y0 -> y_sp y = y_sp y0 -> draw_survey prog fuel rl fs l10 ns norm y = (Ok p, y') ->
  dims_with_distance m p.
Proof.
  intros c arg seed lum rate y0 y prog fuel rl fs l10 ns norm p y' HS HO HH B SP H.
  exact (FluxPop.flux_dims m ginv gam sol rel Om h0 sky form w c arg seed rate y0 lum B _ _ _ _ _ _ _ y p y' SP H HS HO HH).
Qed.
(** At the same distance fluxes are in proportion to luminosities. *)
Theorem C72_flux_proportional_to_luminosity : forall c (arg : string -> R) seed lum rate (y0 y : synth E) prog fuel rl fs l10 ns norm p y',
  build fo w c arg seed lum rate = Ok y0 -> y_sp y = y_sp y0 -> draw_survey prog fuel rl fs l10 ns norm y = (Ok p, y') ->
  proportional m p.
Proof.
  intros c arg seed lum rate y0 y prog fuel rl fs l10 ns norm p y' B SP H.
  exact (FluxPop.flux_proportional m ginv gam sol rel Om h0 sky form w c arg seed rate y0 lum B _ _ _ _ _ _ _ y p y' SP H).
Qed.
(** In flat space no object has the flux that belongs to its distance. *)
Theorem C72_inverse_square_refuted : forall c (arg : string -> R) seed lum rate (y0 y : synth E) prog fuel rl fs l10 ns norm p y',
  build fo w c arg seed lum rate = Ok y0 -> y_sp y = y_sp y0 -> draw_survey prog fuel rl fs l10 ns norm y = (Ok p, y') ->
  cosmological (fst (documented c)) = false ->
  forall i l d f, object m p i l d f -> 0 < l -> 0 < d -> f < l / (4 * PI * (d * d)).
Proof.
  intros c arg seed lum rate y0 y prog fuel rl fs l10 ns norm p y' B SP H C i l d f O HL HD.
  apply FluxPop.below; [exact HD|].
  exact (FluxPop.flux_small m ginv gam sol rel Om h0 sky form w c arg seed rate y0 lum B _ _ _ _ _ _ _ y p y' SP H C i l d f O HL (Rlt_le _ _ HD)).
Qed.
End P.
(** Cases: surveys of five objects, of each predefined population with a luminosity
    class but the Milky Way ones. *)
Example C72_applies : forall c seed rate d, snd (documented c) = Some d -> fst (documented c) <> milky_way ->
  exists y, build glib nothing c arg1 seed None rate = Ok y /\
  exists fuel p y', draw_survey true fuel 10 None true (Some 5%nat) false y = (Ok p, y') /\ p_nobj p = 5%nat.
Proof.
  intros c seed rate d HD NM. destruct (all_drawable c seed rate d HD NM) as (y & B & _ & _ & fuel & p & y' & H & N & _). exists y. split; [exact B|]. exists fuel, p, y'. auto.
Qed.
Print Assumptions C72_flux_of_each_object.
Print Assumptions C72_expanding_universe.
Print Assumptions C72_farther_objects_are_dimmer.
Print Assumptions C72_flux_proportional_to_luminosity.
Print Assumptions C72_inverse_square_refuted.
