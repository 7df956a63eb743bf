(** Concrete synths for C64. *)
From Verif Require Import Base BaseFacts Env ParamModel SelModel SimVarModel DistModel AuxModel Tree PopModel SynthModel SynthSpec ConfModel ConfSpec ReloadSpec Toy AuxExamples SynthExamples ConfExamples Loaded.
Open Scope string_scope.
Open Scope list_scope.

(** ** The registry makes new objects *)
Lemma no_norm_one (c : pclass (V toy)) : forallb (fun x => negb (pd_norm (snd x))) c = true -> one_norm toy c.
Proof.
  intros H k k' d d' D _ N _. apply dget_In in D. rewrite forallb_forall in H. assert (Q := H _ D). cbn [snd] in Q. apply Bool.negb_true_iff in Q. elim (eq_true_false_abs _ N Q).
Qed.
Lemma radius_one : one_norm toy (sc_params radius).
Proof.
  intros k k' d d' D D' N N'. cbn [sc_params radius dget] in D, D'.
  destruct (String.eqb_spec k "Lambda") as [->|]; [|destruct (String.eqb_spec k "r_max"); [injection D as <-; discriminate|discriminate]].
  destruct (String.eqb_spec k' "Lambda") as [->|]; [easy|destruct (String.eqb_spec k' "r_max"); [injection D' as <-; discriminate|discriminate]].
Qed.
Lemma toy_makes_new : makes_new toy_rg.
Proof.
  split.
  - intros nm d m H. cbn in H. destruct (nm =? "Radius"); [injection H as <- <-; split; [easy|apply radius_one]|]. destruct (nm =? "Lum"); discriminate.
  - intros nm d m H. cbn in H. destruct (nm =? "Radius"); [discriminate|]. destruct (nm =? "Lum"); [|discriminate]. injection H as <- <-. split; [easy|now apply no_norm_one].
  - intros nm c H. cbn in H. repeat match type of H with (if ?b then _ else _) = _ => destruct b; [injection H as <-; easy|] end. discriminate.
  - intros nm c n o i st H A. cbn in H.
    repeat match type of H with (if ?b then _ else _) = _ => destruct b; [injection H as <-; cbn in A; destruct n, o; try discriminate; injection A as <-; now apply no_norm_one|] end. discriminate.
Qed.

(** ** [kept] has not been drawn from *)
Lemma settled_plain (c : pclass (V toy)) (o : pobj (V toy)) : forallb (fun x => negb (pd_norm (snd x))) c = true -> po_norm o = None ->
  forallb (fun x => match snd x with Some _ => true | None => false end) (po_store o) = true -> settled toy c o.
Proof.
  intros H N S. split; [now apply no_norm_one| |].
  - intros k v I ->. rewrite forallb_forall in S. apply S in I. discriminate.
  - intros k. rewrite N. split; [discriminate|]. intros [_ (d & D & X)]. apply dget_In in D. rewrite forallb_forall in H. assert (Q := H _ D). cbn [snd] in Q. apply Bool.negb_true_iff in Q. elim (eq_true_false_abs _ X Q).
Qed.
Ltac plain := apply settled_plain; reflexivity.
Lemma kept_reached : reach kept 4 /\ reach kept 0 /\ reach kept 5.
Proof.
  split; [apply (reach_top kept "solo"); rewrite kept_aux; now left|]. split; [apply (reach_top kept "root"); rewrite kept_aux; right; now left|]. apply reach_der, kept_der.
Qed.
Lemma kept_secs : secondary_of kept 1 /\ secondary_of kept 2 /\ secondary_of kept 3 /\ secondary_of kept 6.
Proof.
  destruct kept_reached as (R4 & R0 & R5). assert (S1 : secondary_of kept 1) by (do 3 eexists; split; [exact R0|]; split; [rewrite kept_samplers; reflexivity|now left]).
  split; [exact S1|]. split; [do 3 eexists; split; [exact R0|]; split; [rewrite kept_samplers; reflexivity|right; now left]|]. split.
  - assert (R1 : reach kept 1) by (destruct S1 as (i & a & k & R & A & I); exact (reach_sec _ _ R A I)). do 3 eexists; split; [exact R1|]; split; [rewrite kept_samplers; reflexivity|now left].
  - do 3 eexists; split; [exact R5|]; split; [rewrite kept_samplers; reflexivity|now left].
Qed.
Lemma kept_undrawn : undrawn kept.
Proof.
  assert (SE : forall r k, selects kept r k -> In (r, k) [(ForFlux, 6); (ForDistance, 8); (ForSky, 7); (ForSampler 0, 0); (ForSampler 1, 1); (ForSampler 2, 2); (ForSampler 3, 3); (ForSampler 4, 4); (ForSampler 5, 5); (ForSampler 6, 9)]).
  { intros [| | |i] k H; cbn [selects] in H.
    - replace (y_flux kept) with 6 in H by reflexivity. subst. now left.
    - replace (y_dsel kept) with 8 in H by reflexivity. subst. right. now left.
    - replace (y_ssel kept) with (Some 7) in H by reflexivity. injection H as <-. right. right. now left.
    - destruct H as [_ (a & A & ->)]. rewrite kept_samplers in A. do 3 right. seven i A; cbn; auto 10. }
  split.
  - do 4 (split; [reflexivity|]). split; [exact radius_one| |].
    + intros k v [X|[X|[]]]; injection X as <- <-; discriminate.
    + intros k. cbn. split.
      * intros X. injection X as <-. split; [now left|]. eexists. split; reflexivity.
      * intros [[<-|[<-|[]]] (d & D & N)]; [reflexivity|]. cbn in D. injection D as <-. discriminate.
  - intros l H. injection H as <-. split; [reflexivity|]. plain.
  - split; [reflexivity|split; reflexivity].
  - discriminate.
  - discriminate.
  - intros r k H. apply SE in H. cbn [In] in H.
    repeat (destruct H as [H|H]; [injection H as _ <-; eexists; (split; [reflexivity|]); (split; [reflexivity|]); (split; [reflexivity|]); (split; [reflexivity|]); plain|]). destruct H.
  - intros r r' k H H'. apply SE in H. apply SE in H'. cbn [In] in H, H'.
    repeat (destruct H as [H|H]; [injection H as <- <-; repeat (destruct H' as [H'|H']; [first [discriminate|injection H' as <-; reflexivity]|]); destruct H'|]). destruct H.
  - intros i R. apply kept_reach in R. rewrite kept_samplers. destruct kept_secs as (S1 & S2 & S3 & S6).
    assert (T : ~ secondary_of kept 4 /\ ~ secondary_of kept 0 /\ ~ secondary_of kept 5).
    { destruct (sv_tops kept_savable) as [T1 T2]. split; [apply (T1 "solo"); rewrite kept_aux; now left|]. split; [apply (T1 "root"); rewrite kept_aux; right; now left|]. apply T2, kept_der. }
    destruct T as (T4 & T0 & T5).
    destruct i as [|[|[|[|[|[|[|i]]]]]]]; [..|lia]; (do 2 eexists; split; [reflexivity|]; split; [reflexivity|]; split; [plain|]); cbn [a_issec a_ln nth_error]; split; try easy; try discriminate.
Qed.

(** ** Through a file *)
Definition drawn (y : synth toy) := fst (draw_survey (E := toy) false 100 10 (Some 1%Z) false (Some 4) false y).
Definition lat (k : string) (p : population toy) := option_map (@sv_lat Z) (dget (p_aux p) k).
Lemma by_reading {E} (rg : registry E) w n (y : synth E) (P : synth E -> Prop) :
  match through_file rg n w y with Ok y' => P y' | Err _ => False end -> exists y', through_file rg n w y = Ok y' /\ P y'.
Proof. destruct (through_file rg n w y); [eauto|contradiction]. Qed.
Definition shows (y : synth toy) (k : string) (l : list Z) : Prop := exists p, drawn y = Ok p /\ lat k p = Some l.
Lemma by_drawing y k l : match drawn y with Ok p => lat k p = Some l | Err _ => False end -> shows y k l.
Proof. unfold shows. destruct (drawn y); [eauto|contradiction]. Qed.
Lemma file_draws : exists y', through_file toy_rg 10 empty kept = Ok y' /\ shows kept "solo" [9; 10; 11; 12]%Z /\ shows y' "solo" [7; 8; 9; 10]%Z.
Proof.
  assert (H : shows kept "solo" [9; 10; 11; 12]%Z) by (apply by_drawing; vm_compute; reflexivity).
  destruct (by_reading toy_rg empty 10 kept (fun y' => match drawn y' with Ok p => lat "solo" p = Some [7; 8; 9; 10]%Z | Err _ => False end)) as (y' & F & D); [vm_compute; reflexivity|].
  exists y'. split; [exact F|]. split; [exact H|]. now apply by_drawing.
Qed.

(** ** Model spaces *)
Definition spaced : synth toy := snd (add_space (E := toy) "z" 0%Z 5%Z false kept).
Definition space_names (p : population toy) : option (list string) := option_map (@dkeys _) (pa_spaces (p_args p)).
Definition space_test (y : synth toy) (l : list string) : Prop := exists p, drawn y = Ok p /\ space_names p = Some l.
Lemma by_spaces y l : match drawn y with Ok p => space_names p = Some l | Err _ => False end -> space_test y l.
Proof. unfold space_test. destruct (drawn y); [eauto|contradiction]. Qed.
Lemma spaced_draws : exists inp y', to_dict 10 spaced = Ok (TDict inp) /\ fst (from_dict toy_rg empty inp) = Ok y' /\ space_test spaced ["z"] /\ space_test y' [].
Proof.
  assert (H : space_test spaced ["z"]) by (apply by_spaces; vm_compute; reflexivity).
  destruct (by_loading toy_rg empty 10 spaced (fun y' => match drawn y' with Ok p => space_names p = Some [] | Err _ => False end)) as (inp & y' & F & G & D); [vm_compute; reflexivity|].
  exists inp, y'. split; [exact F|]. split; [exact G|]. split; [exact H|]. now apply by_spaces.
Qed.

(** ** One selection for two samplers *)
Definition pair_world : world toy := @World toy 5%Z 0%Z
  [above 6]
  [@new_sampler toy "p" "N" densk true false false false 0; @new_sampler toy "q" "N" densk true false false false 0] [].
Definition pair_start : synth toy := @synth_new toy pair_world (radius_at 3) (Meta "Radius" "form" (Some false)) (Some lumd) (Meta "Lum" "form" None) 1234%Z.
Definition pair : synth toy := snd ((add_quantity (IsSampler 0) ;; add_quantity (IsSampler 1)) pair_start).
Definition chosen (y : synth toy) (l : list bool) : Prop := exists p, drawn y = Ok p /\ pa_sel (p_args p) = l.
Lemma by_choice y l : match drawn y with Ok p => pa_sel (p_args p) = l | Err _ => False end -> chosen y l.
Proof. unfold chosen. destruct (drawn y); [eauto|contradiction]. Qed.
Lemma pair_draws : exists inp y', to_dict 10 pair = Ok (TDict inp) /\ fst (from_dict toy_rg empty inp) = Ok y' /\ chosen pair [true; true; true; true] /\ chosen y' [true; true; false; false].
Proof.
  assert (H : chosen pair [true; true; true; true]) by (apply by_choice; vm_compute; reflexivity).
  destruct (by_loading toy_rg empty 10 pair (fun y' => match drawn y' with Ok p => pa_sel (p_args p) = [true; true; false; false] | Err _ => False end)) as (inp & y' & F & G & D); [vm_compute; reflexivity|].
  exists inp, y'. split; [exact F|]. split; [exact G|]. split; [exact H|]. now apply by_choice.
Qed.
