(** C90: the sky sampler. *)
From Coq Require Import Reals List String Lra.
From Verif Require Import Base Env ParamModel SelModel DistModel AuxModel AuxSpec PopModel SynthModel SynthSpec LibPopModel LibPopSpec LibPopProofs
  RealModel RealExamples AuxLibModel LumLibModel RunExamples FlatExamples SkyObjModel SkyObjSpec SkyObjExamples.
From Verif Require SkyObjProofs RealSize.
Import ListNotations.
Open Scope R_scope.
Open Scope string_scope.

(** [SkySampler(ra, dec)] always succeeds, changes no object and draws nothing.  It hands
    out the samplers given, or new ones: a right ascension sampler "ra" and a declination
    sampler "dec", attached to nothing, with selections of their own. *)
Theorem C90_hands_out : forall m tnorm nunif ppf ra dec w, exists s w',
  sky_new m tnorm nunif ppf ra dec w = (Ok s, w') /\ extends w w' /\
  hands_out w w' "ra" (aux_kind m tnorm nunif ppf RA) ra (ra_sampler s) /\
  hands_out w w' "dec" (aux_kind m tnorm nunif ppf Dec) dec (dec_sampler s) /\
  (ra = None -> dec = None -> apart w' (ra_sampler s) (dec_sampler s)).
Proof. exact SkyObjProofs.sky_spec. Qed.

(** Its new samplers can be added to every synth without samplers of these names ... *)
Theorem C90_can_be_added : forall m tnorm nunif ppf (y y1 : synth (real_env m)) s,
  in_w (sky_new m tnorm nunif ppf None None) y = (Ok s, y1) -> dget (y_aux y) "ra" = None -> dget (y_aux y) "dec" = None ->
  exists i j y2, s = Sky (IsSampler i) (IsSampler j) /\ add_sky m s y1 = (Ok tt, y2) /\
  y_aux y2 = (y_aux y ++ [("ra", i); ("dec", j)])%list /\ y_w y2 = y_w y1.
Proof. exact SkyObjProofs.sky_added. Qed.
(** ... but only once: a second sky sampler is refused, and the synth stays as it was. *)
Theorem C90_only_once : forall m tnorm nunif ppf dec (y y1 : synth (real_env m)) s,
  in_w (sky_new m tnorm nunif ppf None dec) y = (Ok s, y1) -> dget (y_aux y) "ra" <> None -> add_sky m s y1 = (Err RuntimeError, y1).
Proof. exact SkyObjProofs.sky_twice. Qed.

(** No survey with one of its new samplers ever returns: "ra" and "dec" are attributes of
    populations. *)
Theorem C90_survey_refuted : forall m tnorm nunif ppf prog fuel rl fs l10 ns norm ra dec (y y1 y2 : synth (real_env m)) s,
  ra = None \/ dec = None -> in_w (sky_new m tnorm nunif ppf ra dec) y = (Ok s, y1) -> add_sky m s y1 = (Ok tt, y2) ->
  acyclic (y_w y2) -> distinct_names y2 -> SynthSpec.never_drawn (y_w y2) ->
  forall p, fst (draw_survey prog fuel rl fs l10 ns norm y2) <> Ok p.
Proof. exact SkyObjProofs.sky_never. Qed.

(** The hypotheses hold for every predefined population. *)
Example C90_applies : forall c seed rate, exists y y1 y2, build glib nothing c arg1 seed None rate = Ok y /\ y_aux y = [] /\
  in_w (sky_new mach tn0 nu0 (-4) None None) y = (Ok (Sky (IsSampler 0) (IsSampler 1)), y1) /\
  add_sky mach (Sky (IsSampler 0) (IsSampler 1)) y1 = (Ok tt, y2) /\ dget (y_aux y2) "ra" <> None /\
  acyclic (y_w y2) /\ distinct_names y2 /\ SynthSpec.never_drawn (y_w y2).
Proof. exact sky_case. Qed.

Print Assumptions C90_hands_out.
Print Assumptions C90_can_be_added.
Print Assumptions C90_only_once.
Print Assumptions C90_survey_refuted.
