(** A survey with model spaces (C74). *)
From Coq Require Import Reals ZArith List String Lra Lia.
From Verif Require Import Base BaseFacts Env ParamModel SelModel DistModel DistSpec AuxModel PopModel PopSpec SynthModel LibPopModel LibPopSpec LibModel RealModel RealSpec RealExamples LumLibModel
  RunSpec FlatSpec RealRunSpec RunExamples SpaceSpec SpaceProofs.
From Verif Require SurveyRuns RealRuns PopProofs.
Import ListNotations.
Open Scope R_scope.
Open Scope string_scope.

Section S.
Variable m : machine.
Notation E := (real_env m).
Lemma dset_Forall {A} (P : A -> Prop) (d : dict A) k v : Forall (fun kv => P (snd kv)) d -> P v -> Forall (fun kv => P (snd kv)) (dset d k v).
Proof.
  intros F HP. induction d as [|[k0 v0] d IH]; cbn; [now constructor|]. inversion F; subst. destruct (String.eqb k k0); constructor; auto.
Qed.
Lemma asked_state rs : forall (y : synth E), exists s, ask rs y = (Ok tt, with_spaces y s) /\
  (Forall (fun kv => List.length (snd kv) = y_nmodel y) (y_spaces y) -> Forall (fun kv => List.length (snd kv) = y_nmodel y) s).
Proof.
  induction rs as [|[[[nm0 a] b] lg] rs IH]; intros y.
  - exists (y_spaces y). split; [now destruct y|easy].
  - unfold ask. cbn [iterM]. destruct (IH (with_spaces y (dset (y_spaces y) nm0 (space_for m (nm0, a, b, lg) (y_nmodel y))))) as (s & H & F).
    exists s. split; [exact H|]. intros F0. apply F. cbn [y_spaces with_spaces y_nmodel]. apply dset_Forall with (P := fun l => List.length l = y_nmodel y); [exact F0|].
    destruct lg; unfold space_for; [rewrite map_length|]; exact (linspace_length E _ _ _).
Qed.
End S.
Section Empty.
Variable E : env.
Lemma no_quantities prog fuel rl fs l10 ns norm (y : synth E) p y' t : SynthInv.steps E prog fuel rl fs l10 ns norm y p y' t ->
  y_aux y = [] -> y_der y = None -> SynthInv.tr_aux E t = [].
Proof.
  intros S A D. assert (L := SynthInv.sp_lum _ _ _ _ _ _ _ _ _ _ _ _ S). assert (AX := SynthInv.sp_aux _ _ _ _ _ _ _ _ _ _ _ _ S).
  assert (X := SynthInv.sp_quant _ _ _ _ _ _ _ _ _ _ _ _ S).
  rewrite A in AX. cbn [foldM] in AX. unfold ret in AX. injection AX as _ QS _.
  assert (F1 := SynthFrame.survey_size_keeps _ ns norm y). rewrite (SynthInv.sp_size _ _ _ _ _ _ _ _ _ _ _ _ S) in F1. cbn in F1.
  assert (F2 := SynthFrame.in_sp_keeps _ _ _ (SynthFrame.draw_distance_keeps _ prog fuel (SynthInv.tr_n E t) norm) (SynthInv.tr_sized E t)).
  rewrite (SynthInv.sp_dist _ _ _ _ _ _ _ _ _ _ _ _ S) in F2. cbn in F2.
  assert (F3 := SynthFrame.in_sp_keeps _ _ _ (SynthFrame.draw_sky_keeps _ (SynthInv.tr_n E t)) (SynthInv.tr_dists E t)).
  rewrite (SynthInv.sp_sky _ _ _ _ _ _ _ _ _ _ _ _ S) in F3. cbn in F3.
  assert (F := SynthFrame.yframe_trans _ _ _ _ (SynthFrame.yframe_trans _ _ _ _ F1 F2) F3).
  assert (DS : y_der (SynthInv.tr_sky E t) = None). { destruct F as [_ Q]. unfold SynthFrame.conf_static in Q. injection Q; intros. congruence. }
  clear - L X QS DS. unfold survey_lum in L. rewrite SurveyRuns.bind_get in L. rewrite DS in L. destruct (y_lum (SynthInv.tr_sky E t)) as [l|]; [|discriminate L].
  repeat (apply bind_inv_ok in L; destruct L as (? & ? & _ & L)). unfold ret in L. injection L; intros. 
  assert (SynthInv.tr_st2 E t = []) by congruence. rewrite H4 in X. cbn in X. now injection X.
Qed.
End Empty.

(** The twenty predefined populations with a redshift grid and a luminosity grid. *)
Definition grids : list request := [("zgrid", 0, 7, false); ("lgrid", 1, 5, true); ("lgrid", 2, 1000, true)].
Example spaced_surveys c seed rate d : snd (documented c) = Some d -> fst (documented c) <> milky_way ->
  exists y y1 fuel p y2 dt, build glib nothing c arg1 seed None rate = Ok y /\ ask grids y = (Ok tt, y1) /\
  draw_survey true fuel 10 None true (Some 5%nat) false y1 = (Ok p, y2) /\ stan_data p = Ok dt /\
  (forall sp ax, pa_spaces (p_args p) = Some sp -> pa_aux (p_args p) = Some ax -> stan_keys_apart (real_env mach) sp ax) /\ y_nmodel y = 500%nat /\
  last_request grids "lgrid" = Some ("lgrid", 2, 1000, true) /\ last_request grids "zgrid" = Some ("zgrid", 0, 7, false).
Proof.
  intros HD NM. destruct (all_drawable c seed rate d HD NM) as (y & B & PD & DR & _).
  assert (P : y_aux y = [] /\ y_der y = None /\ default_selections y /\ y_spaces y = [] /\ y_nmodel y = 500%nat).
  { destruct (RealRuns.population_parts mach mach_exact mach_fair mach_bern ginv1 (fun _ => 1) 1 0 (3 / 10) 1 (fun c => c) (fun _ => None) (fun _ _ => eq_refl) ltac:(lra) nothing _ _ _ _ _ _ _ B NM HD PD DR) as (sp & l & -> & _).
    assert (X := RealRuns.fresh_plain mach nothing sp (Some l) seed). destruct X as (X1 & X2 & X3 & X4). repeat split; assumption || reflexivity || apply X3. }
  destruct P as (P1 & P2 & P3 & P4 & P5). destruct (asked_state mach grids y) as (s & A & F).
  exists y, (with_spaces y s).
  assert (FL : flat (with_spaces y s) 5).
  { split; [|split; [|split; [|split]]]; cbn [y_aux y_der y_spaces y_nmodel with_spaces].
    - rewrite P1. intros k i [].
    - rewrite P1. constructor.
    - exact P2.
    - exact P3.
    - apply F. rewrite P4. constructor. }
  destruct (RealRuns.population_with_samplers mach mach_exact mach_fair mach_bern ginv1 (fun _ => 1) 1 0 (3 / 10) 1 (fun c => c) (fun _ => None) (fun _ _ => eq_refl) ltac:(lra) nothing
     _ _ _ _ true 10%nat None true 5%nat false y (with_spaces y s) None d B NM HD PD DR eq_refl eq_refl FL ltac:(lia)) as (fuel & p & y2 & H & _).
  destruct (survey_spaces _ _ _ _ _ _ _ _ _ _ _ H) as [Q _].
  destruct (SynthInv.survey_steps _ _ _ _ _ _ _ _ _ _ _ H) as (t & S).
  assert (PN := SynthInv.sp_pop _ _ _ _ _ _ _ _ _ _ _ _ S). assert (BA := SurveyProofs.bu_args _ _ _ (SurveyProofs.pop_new_built _ _ _ PN)).
  assert (QA : pa_aux (p_args p) = Some (SynthInv.tr_aux _ t)) by now rewrite BA.
  rewrite <- BA in PN. destruct (PopProofs.stan_available _ _ _ PN ltac:(rewrite Q; discriminate) ltac:(rewrite QA; discriminate)) as (dt & SD).
  exists fuel, p, y2, dt. split; [exact B|]. split; [exact A|]. split; [exact H|]. split; [exact SD|]. split; [|split; [exact P5|split; reflexivity]].
  assert (TA : SynthInv.tr_aux _ t = []) by (apply (no_quantities _ _ _ _ _ _ _ _ _ _ _ _ S); assumption).
  intros sp ax Q1 Q2. rewrite Q in Q1. rewrite QA, TA in Q2. injection Q1 as <-. injection Q2 as <-.
  assert (K : map fst s = ["zgrid"; "lgrid"]).
  { assert (A' := A). unfold ask, grids in A'. cbn [iterM] in A'. unfold bind, add_space, modify in A'. cbn [y_spaces with_spaces y_nmodel] in A'. rewrite P4 in A'.
    assert (A2 := f_equal (fun r => map fst (y_spaces (snd r))) A'). cbn [snd y_spaces with_spaces] in A2. rewrite <- A2. clear. reflexivity. }
  unfold stan_keys_apart. cbn [y_spaces with_spaces]. rewrite K. clear. cbn. repeat constructor; cbn; intuition discriminate.
Qed.
