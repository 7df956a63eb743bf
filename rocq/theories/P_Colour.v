(** C89: the colours of the spheres show the order of the fluxes. *)
From Coq Require Import Reals List String Lra.
From Verif Require Import Base Env ParamModel SelModel SimVarModel DistModel AuxModel PopModel SynthModel SynthSpec LibPopModel LibPopSpec RealModel RealExamples RunExamples PlotModel PlotSpec ColourModel ColourSpec.
From Verif Require ColourProofs ChosenExamples.
Import ListNotations.
Open Scope R_scope.

(** [array_to_cmap]: for any values, positive ones if logarithms are used, the places in the
    colour map show their order. *)
Theorem C89_colours_show_order : forall use_log values, values <> nil -> (use_log = true -> forall v, In v values -> 0 < v) ->
  exists ps, array_to_cmap values use_log = Ok ps /\ shows_order values ps.
Proof. exact ColourProofs.ranked. Qed.
(** With logarithms, values of which one is not positive are refused, unless all are the
    same: then no sphere is drawn. *)
Theorem C89_not_positive_refused : forall values v w, In v values -> v <= 0 -> In w values -> w <> v -> array_to_cmap values true = Err ValueError.
Proof. exact ColourProofs.refused. Qed.
(** So the spheres of every population with positive fluxes are coloured. *)
Theorem C89_spheres_coloured : forall m (a : popargs (real_env m)) p, pop_new a = Ok p -> (forall x : R, In x (pa_fobs a) -> 0 < x) ->
  exists r l, draws (display_flux_sphere (E := real_env m) sin cos None p) (Ok r) l /\ Forall coloured l.
Proof. exact ColourProofs.spheres. Qed.
(** And those of every survey with a flux selection and an error of the fluxes, however
    dim the objects are. *)
Theorem C89_surveys_coloured : forall m prog fuel rl (sg : V (real_env m)) l10 ns norm (y : synth (real_env m)) p y' s,
  draw_survey prog fuel rl (Some sg) l10 ns norm y = (Ok p, y') ->
  nth_error (w_sels (y_w y)) (y_flux y) = Some s -> is_unity (s_kind s) = false ->
  exists r l, draws (display_flux_sphere (E := real_env m) sin cos None p) (Ok r) l /\ Forall coloured l.
Proof.
  intros m prog fuel rl sg l10 ns norm y p y' s H N U. destruct (ColourProofs.noisy_positive m _ _ _ _ _ _ _ _ _ _ _ H N U) as [P F].
  exact (ColourProofs.spheres m _ _ P F).
Qed.

Example C89_applies : forall c seed rate d, snd (documented c) = Some d -> fst (documented c) <> milky_way ->
  exists y0 y fuel p y', build glib ChosenExamples.chosen c arg1 seed None rate = Ok y0 /\ ChosenExamples.choose y0 = (Ok tt, y) /\
    draw_survey true fuel 10 (Some (1 / 10) : option (V (real_env mach))) true (Some 6%nat) false y = (Ok p, y') /\
    exists s, nth_error (w_sels (y_w y)) (y_flux y) = Some s /\ is_unity (s_kind s) = false.
Proof.
  intros c seed rate d HD NM. destruct (ChosenExamples.selected_surveys c seed rate d HD NM) as (y & y1 & fuel & p & y2 & B & C & _ & _ & _ & _ & N & H).
  exists y, y1, fuel, p, y2. split; [exact B|]. split; [exact C|]. split; [exact H|]. eexists. split; [exact N|reflexivity].
Qed.
Example C89_applies_values : exists ps, array_to_cmap [1; 10; 100] true = Ok ps /\ shows_order [1; 10; 100] ps.
Proof. apply C89_colours_show_order; [discriminate|]. intros _ v [<-|[<-|[<-|[]]]]; lra. Qed.

Print Assumptions C89_colours_show_order.
Print Assumptions C89_not_positive_refused.
Print Assumptions C89_spheres_coloured.
Print Assumptions C89_surveys_coloured.
