(** Predefined populations with a soft flux selection and a distance selection (C76, C77). *)
From Coq Require Import Reals ZArith List String Lra Lia.
From Verif Require Import Base BaseFacts Env ParamModel SelModel SelSpec DistModel DistSpec AuxModel AuxSpec PopModel SynthModel SynthSpec LibPopModel LibPopSpec LibModel RealModel RealSpec RealExamples LumLibModel
  RunSpec FlatSpec RealRunSpec RunExamples ChosenSpec SoftSpec SoftProofs.
From Verif Require RealRuns LibPopProofs.
Import ListNotations.
Open Scope R_scope.
Open Scope string_scope.
Notation E := (real_env mach).

Definition soft : selector E := with_par (soft_flux E) (PObj [("boundary", Some (1 / 100)); ("strength", Some 2)] None).
Definition shell : selector E := with_par (new_selector (KDistance E) "DistanceSelection" "distance" false true false false) (PObj [("min_distance", Some 1); ("max_distance", Some 8)] None).
(** The user's objects: the two selections. *)
Definition chosen : world E := @World E 0%nat tt [soft; shell] [] [].
Definition choose : YM E unit := set_flux (Some 0%nat) ;; add_spatial (Some 1%nat).

Example soft_ready : flux_ready mach soft.
Proof.
  split; [reflexivity|]. right. right. split; [reflexivity|]. right. right. right. split; [reflexivity|]. exists 2, (1 / 100).
  split; eexists; split; reflexivity.
Qed.
Example shell_ready : place_ready mach shell.
Proof. split; [reflexivity|]. right. split; [reflexivity|]. exists 1, 8. split; eexists; split; reflexivity. Qed.

Example selected_surveys c seed rate d : snd (documented c) = Some d -> fst (documented c) <> milky_way ->
  exists y y1 fuel p y2, build glib chosen c arg1 seed None rate = Ok y /\ choose y = (Ok tt, y1) /\ selective y1 6 /\ selectors_apart y1 /\ y_sp y1 = y_sp y /\ y_lum y1 = y_lum y /\
  nth_error (w_sels (y_w y1)) (y_flux y1) = Some soft /\ draw_survey true fuel 10 (Some (1 / 10) : option (V E)) true (Some 6%nat) false y1 = (Ok p, y2).
Proof.
  intros HD NM. destruct (LibPopProofs.build_spec E glib chosen c arg1 seed None rate) as [B _]. destruct B as (y & B & _).
  { apply LibPopProofs.accepted_in. intros k _. apply (proj2 (RealSize.leb_iff 0 (arg1 k))). assert (X := arg1_pos k). lra. }
  destruct (all_drawable c seed rate d HD NM) as (_ & _ & PD & DR & _).
  destruct (RealRuns.population_parts mach mach_exact mach_fair mach_bern ginv1 (fun _ => 1) 1 0 (3 / 10) 1 (fun c => c) (fun _ => None) (fun _ _ => eq_refl) ltac:(lra) chosen _ _ _ _ _ _ _ B NM HD PD DR) as (sp & l & Y & _).
  assert (CH : exists y1, choose y = (Ok tt, y1) /\ y1 = with_ssel (with_flux y 0%nat true) (Some 1%nat)) by (eexists; split; reflexivity).
  destruct CH as (y1 & CH & Q1).
  assert (SE : selective y1 6).
  { rewrite Q1, Y. split; [intros k i []|]. split; [constructor|]. split; [reflexivity|]. split; [constructor|]. split; [discriminate|].
    split; [exists soft; split; [reflexivity|]; apply ready_decides; [exact mach_bern|exact soft_ready]|].
    split; [eexists; split; [reflexivity|]; split; reflexivity|]. intros k K. injection K as <-. split; [discriminate|]. split; [discriminate|].
    exists shell. split; [reflexivity|]. apply ready_places. exact shell_ready. }
  assert (ES : y_sp y1 = y_sp y /\ y_lum y1 = y_lum y) by (rewrite Q1; split; reflexivity).
  destruct (population_with_selections mach ginv1 (fun _ => 1) 1 0 (3 / 10) 1 (fun c => c) (fun _ => None) chosen (fun _ _ => eq_refl) mach_exact mach_fair mach_bern ltac:(lra)
     c arg1 seed rate true 10%nat (Some (1 / 10) : option (V E)) true 6%nat false y y1 None d B NM HD PD DR (proj1 ES) (proj2 ES) SE) as (fuel & p & y2 & H & _).
  { intros sg X. injection X as <-. lra. }
  { lia. }
  exists y, y1, fuel, p, y2. split; [exact B|]. split; [exact CH|]. split; [exact SE|].
  assert (NP : forall j, ~ part y1 j). { rewrite Q1, Y. intros j [(k0 & i0 & [] & _)|(i0 & I & _)]; discriminate I. }
  split.
  { split; [|split].
    - intros k K. rewrite Q1, Y in K. injection K as <-. rewrite Q1, Y. split; [discriminate|]. split; [discriminate|]. intros j b P. rewrite <- Y, <- Q1 in P. now apply NP in P.
    - rewrite Q1, Y. discriminate.
    - intros j b P. now apply NP in P. }
  split; [apply ES|]. split; [apply ES|]. split; [rewrite Q1, Y; reflexivity|]. exact H.
Qed.
