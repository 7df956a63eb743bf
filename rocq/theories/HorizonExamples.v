(** Flux-limited surveys of predefined populations (C85). *)
From Coq Require Import Reals ZArith List String Lra Lia.
From Verif Require Import Base BaseFacts Env ParamModel SelModel SelSpec DistModel DistSpec AuxModel AuxSpec PopModel SynthModel SynthSpec LibPopModel LibPopSpec LibModel RealModel RealSpec RealExamples LumLibModel LumLibSpec
  RunSpec FlatSpec RealRunSpec RunExamples ChosenSpec SoftSpec SoftProofs HorizonSpec.
From Verif Require RealRuns LibPopProofs ChosenRuns.
Import ListNotations.
Open Scope R_scope.
Open Scope string_scope.
Notation E := (real_env mach).

Definition limit : selector E := with_par (hard_flux E) (PObj [("boundary", Some (1 / 100))] None).
Definition limited : world E := @World E 0%nat tt [limit] [] [].
(** Standard candles of luminosity 1. *)
Definition candle : ldist E := @LDist E (ld_cls (fst (lum_object glib LDelta))) "delta" (PObj [("Lp", Some 1)] None) None.

Lemma limit_ready : flux_ready mach limit.
Proof. split; [reflexivity|]. right. right. split; [reflexivity|]. left. split; [reflexivity|]. exists (1 / 100). eexists. split; reflexivity. Qed.

Lemma candle_draws n : draws_luminosities candle n.
Proof.
  exists [1], [1]. split; [repeat constructor|]. split; [repeat constructor|]. intros g. exists (repeat 1 n), g.
  split; [reflexivity|]. split; [apply repeat_length|]. intros x _. eexists. reflexivity.
Qed.
Lemma candle_parameters : lum_parameters mach candle (fun _ => 1).
Proof.
  intros k v X. unfold reading in X. destruct (String.string_dec k "Lp") as [->|N].
  - apply (f_equal (fun o => match o with Ok u => u | Err _ => 0 end)) in X. exact X.
  - cbn in X. unfold pread in X. cbn [dget] in X. apply String.eqb_neq in N. rewrite N in X. discriminate X.
Qed.

Section C.
Variables (c : popclass) (seed : Z) (rate : bool) (d : lum_doc).
Hypotheses (HD : snd (documented c) = Some d) (NM : fst (documented c) <> milky_way).

Lemma parts : exists y sp l, build glib limited c arg1 seed None rate = Ok y /\ y = population_synth limited sp (Some l) seed /\
  RealRuns.good_space mach (fst sp) /\ RealRuns.good_lum mach (fst l).
Proof.
  destruct (LibPopProofs.build_spec E glib limited c arg1 seed None rate) as [B _]. destruct B as (y & B & _).
  { apply LibPopProofs.accepted_in. intros k _. apply (proj2 (RealSize.leb_iff 0 (arg1 k))). assert (X := arg1_pos k). lra. }
  destruct (all_drawable c seed rate d HD NM) as (_ & _ & PD & DR & _).
  destruct (RealRuns.population_parts mach mach_exact mach_fair mach_bern ginv1 (fun _ => 1) 1 0 (3 / 10) 1 (fun c => c) (fun _ => None) (fun _ _ => eq_refl) ltac:(lra) limited _ _ _ _ _ _ _ B NM HD PD DR) as (sp & l & Y & G1 & G2).
  exists y, sp, l. auto.
Qed.

Lemma flux_only sp (l : option (lumobj E)) (l' : ldist E) : let y := with_lumd (with_flux (population_synth limited sp l seed) 0%nat true) l' in
  selective y 6 /\ selectors_apart y /\ distinct_names y /\ only_the_flux E y /\ flux_limit E y (1 / 100 : R).
Proof.
  intros y. assert (NP : forall j, ~ part y j). { intros j [(k0 & i0 & [] & _)|(i0 & I & _)]; discriminate I. }
  split; [|split; [|split; [|split]]].
  - split; [intros k i []|]. split; [constructor|]. split; [reflexivity|]. split; [constructor|]. split; [discriminate|].
    split; [exists limit; split; [reflexivity|]; apply ready_decides; [exact mach_bern|exact limit_ready]|].
    split; [eexists; split; [reflexivity|]; split; reflexivity|]. intros k K. discriminate K.
  - split; [|split].
    + intros k K. discriminate K.
    + discriminate.
    + intros j b P. now apply NP in P.
  - split; [intros j b P|intros j j' b b' P]; now apply NP in P.
  - split; [reflexivity|]. intros j b P. now apply NP in P.
  - exists limit. repeat (split; [reflexivity|]). eexists. split; reflexivity.
Qed.

(** Each predefined population with a flux limit, as it is and with standard candles. *)
Example flux_limited : exists y y1 fuel p y2, build glib limited c arg1 seed None rate = Ok y /\ set_flux (Some 0%nat) y = (Ok tt, y1) /\
  y_sp y1 = y_sp y /\ selectors_apart y1 /\ distinct_names y1 /\ only_the_flux E y1 /\ flux_limit E y1 (1 / 100 : R) /\
  draw_survey true fuel 10 None true (Some 6%nat) false y1 = (Ok p, y2).
Proof.
  destruct parts as (y & sp & l & B & Y & (W & SK & D) & G2).
  destruct (D true 6%nat false (r_seed E seed)) as (fuel & d' & s' & HD').
  destruct (flux_only sp (Some l) (fst l)) as (SE & SA & DN & OF & FL).
  set (y1 := with_lumd (with_flux (population_synth limited sp (Some l) seed) 0%nat true) (fst l)) in *.
  destruct (ChosenRuns.selective_returns E true fuel 10 None true false 6 y1 (fst l) d' s' SE) as (p & y2 & H & _);
    [intros sg X; discriminate X|lia|reflexivity|apply G2|exact W|exact (SK 6%nat)|exact HD'|].
  exists y, y1, fuel, p, y2. split; [exact B|]. split; [rewrite Y; destruct l; reflexivity|]. split; [rewrite Y; reflexivity|]. auto.
Qed.
Example candle_survey : exists y y1 fuel p y2, build glib limited c arg1 seed None rate = Ok y /\
  y_sp y1 = y_sp y /\ selectors_apart y1 /\ distinct_names y1 /\ only_the_flux E y1 /\ flux_limit E y1 (1 / 100 : R) /\
  y_der y1 = None /\ y_lum y1 = Some candle /\ lum_parameters mach candle (fun _ => 1) /\
  draw_survey true fuel 10 None true (Some 6%nat) false y1 = (Ok p, y2).
Proof.
  destruct parts as (y & sp & l & B & Y & (W & SK & D) & G2).
  destruct (D true 6%nat false (r_seed E seed)) as (fuel & d' & s' & HD').
  destruct (flux_only sp (Some l) candle) as (SE & SA & DN & OF & FL).
  set (y1 := with_lumd (with_flux (population_synth limited sp (Some l) seed) 0%nat true) candle) in *.
  destruct (ChosenRuns.selective_returns E true fuel 10 None true false 6 y1 candle d' s' SE) as (p & y2 & H & _);
    [intros sg X; discriminate X|lia|reflexivity| |exact W|exact (SK 6%nat)|exact HD'|].
  { exact (candle_draws 6). }
  exists y, y1, fuel, p, y2. split; [exact B|]. split; [rewrite Y; reflexivity|]. split; [exact SA|]. split; [exact DN|]. split; [exact OF|]. split; [exact FL|].
  split; [reflexivity|]. split; [reflexivity|]. split; [exact candle_parameters|exact H].
Qed.
End C.
