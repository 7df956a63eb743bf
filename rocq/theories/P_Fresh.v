(** C19: a sampler that was reset draws like one that was never drawn. *)
From Verif Require Import Base BaseFacts Env ParamModel SelModel DistModel AuxModel AuxSpec
  AuxProofs FreshSpec Fresh Toy AuxExamples.
Open Scope nat_scope.

(** C19.  [w] has any history of settings, draws and resets of any of its samplers; [c]
    is the copy that got the same settings but was never drawn.  After resetting
    sampler [i], drawing it gives what drawing the copy gives from the same state of
    the generators: the same exception, or the same values, probabilities and
    selections of [i] and of all its direct and indirect secondaries, and the same
    state of the generators. *)
Theorem C19_next_draw_as_new : forall E fuel i (w c w2 : world E),
  lived w c -> acyclic c -> own_selectors c -> closed c ->
  aux_reset fuel i w = (Ok tt, w2) ->
  (forall a b, at_ w2 i a -> at_ c i b -> a_sp (a_dy a) = a_sp (a_dy b)) ->
  forall prog fuel' n,
    match aux_draw prog fuel' i n w2, aux_draw prog fuel' i n (w_set_gens (w_g w2, w_n w2) c) with
    | (Ok _, w3), (Ok _, c3) => w_g w3 = w_g c3 /\ w_n w3 = w_n c3 /\ forall j, reaches c i j -> same_outcome w3 c3 j
    | (Err e, _), (Err e', _) => e = e'
    | _, _ => False
    end.
Proof. exact next_draw. Qed.

(** The diamond of AuxExamples.v, drawn, reset, told a new selection boundary, parameter
    and positions, and drawn again. *)
Definition changes (w : world toy) : world toy :=
  snd (apply_setting (@GivePos toy 0 sp3) (snd (apply_setting (@Assign toy 3 "mu" (Some 9%Z)) (snd (apply_setting (@AssignSel toy 3 "boundary" (Some 20%Z)) w))))).
Definition told : world toy := changes diamond.
Definition busy1 : world toy := snd (aux_draw false 10 0 3 diamond).
Definition busy2 : world toy := snd (aux_reset 10 0 busy1).
Definition busy3 : world toy := snd (aux_draw true 10 0 3 (changes busy2)).
Definition again : world toy := snd (aux_reset 10 0 busy3).
Lemma told_wiring : same_wiring diamond told.
Proof.
  unfold told, changes. eapply wiring_trans; [|apply setting_wiring]. eapply wiring_trans; [|apply setting_wiring]. apply setting_wiring.
Qed.
Lemma told_closed : closed told.
Proof.
  assert (W := told_wiring).
  assert (L : length (w_sels told) = length (w_sels diamond)) by (vm_compute; reflexivity).
  intros i b B. destruct (wiring_at _ told diamond i b (wiring_sym _ _ _ W) B) as (a & A & ST & LN). destruct (diamond_closed i a A) as [(s & S) Q].
  rewrite <- LN. split.
  - destruct (nth_error (w_sels told) (a_sel (a_ln a))) eqn:X; [eauto|]. apply nth_error_None in X. assert (a_sel (a_ln a) < length (w_sels diamond)) by (apply nth_error_Some; congruence). lia.
  - intros k j I. destruct (Q k j I) as (x & X). destruct (wiring_at _ diamond told j x W X) as (y & Y & _). eauto.
Qed.
Example C19_applies :
  lived busy3 told /\ aux_reset 10 0 busy3 = (Ok tt, again) /\
  fst (aux_draw false 10 0 3 again) = Ok tt /\
  w_g again <> w_g told /\
  acyclic told /\ own_selectors told /\ closed told /\
  (forall a b, at_ again 0 a -> at_ told 0 b -> a_sp (a_dy a) = a_sp (a_dy b)).
Proof.
  assert (W := told_wiring).
  split.
  { apply (@lived_draw toy true 10 0 3 (changes busy2)); [|unfold busy3; apply run_ok; vm_compute; reflexivity]. unfold told, changes. do 3 apply lived_set.
    apply (@lived_reset toy 10 0 busy1); [|unfold busy2; apply run_ok; vm_compute; reflexivity].
    apply (@lived_draw toy false 10 0 3 diamond); [|unfold busy1; apply run_ok; vm_compute; reflexivity].
    apply lived_new. split.
    - intros i a A. unfold at_ in A. destruct i as [|[|[|[|i]]]]; cbn in A; try discriminate; try (destruct i; discriminate); injection A as <-; auto.
    - intros i a A. destruct i as [|[|[|[|i]]]]; cbn in A; try discriminate; try (destruct i; discriminate); injection A as <-; auto. }
  split; [unfold again; apply run_ok; vm_compute; reflexivity|]. split; [vm_compute; reflexivity|]. split; [vm_compute; discriminate|].
  split; [eapply wiring_acyclic; [exact W|apply diamond_acyclic]|]. split; [eapply wiring_own; [exact W|apply diamond_own]|]. split; [exact told_closed|].
  intros a b A B.
  assert (X : option_map (fun a => a_sp (a_dy a)) (nth_error (w_auxs again) 0) = Some (Some sp3)) by (vm_compute; reflexivity).
  assert (Y : option_map (fun a => a_sp (a_dy a)) (nth_error (w_auxs told) 0) = Some (Some sp3)) by (vm_compute; reflexivity).
  unfold at_ in *. rewrite B in Y. rewrite A in X. cbn in X, Y. congruence.
Qed.

(** C19.  Reset takes values only from samplers whose draw succeeded: a sampler whose
    observation raises keeps its true values. *)
Definition halfk : akind toy := obs_kind (fun _ _ _ g => (Err ValueError, g)) unif_true.
Definition half : world toy := @World toy 5%Z 0%Z [unity toy "s0"]
  [@new_sampler toy "h" "H" halfk true false false false 0] [].
Theorem C19_failed_draw_not_cleared_refuted : exists (w w' : world toy) a,
  unused half /\ aux_draw false 10 0 3 half = (Err ValueError, w) /\ aux_reset 10 0 w = (Ok tt, w') /\
  at_ w' 0 a /\ a_true (a_dy a) = Some [8; 9; 10]%Z.
Proof.
  set (w := snd (aux_draw false 10 0 3 half)). set (w' := snd (aux_reset 10 0 w)).
  destruct (nth_shown (fun a => a_true (a_dy a)) (w_auxs w') 0 (Some [8; 9; 10]%Z)) as (a & A & T); [vm_compute; reflexivity|].
  exists w, w', a. split.
  { split; intros i x X; unfold at_ in *; (destruct i as [|i]; cbn in X; [injection X as <-; auto|destruct i; discriminate]). }
  split; [|split; [unfold w'; apply run_ok; vm_compute; reflexivity|auto]].
  assert (Q : fst (aux_draw false 10 0 3 half) = Err ValueError) by (vm_compute; reflexivity).
  unfold w. destruct (aux_draw false 10 0 3 half). cbn in *. congruence.
Qed.

Print Assumptions C19_next_draw_as_new.
Print Assumptions C19_failed_draw_not_cleared_refuted.
