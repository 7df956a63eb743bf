(** Theorems C46-C48: saving and loading population synths. *)
From Coq Require Import Permutation Sorted.
From Verif Require Import Base BaseFacts Env ParamModel SelModel DistModel AuxModel SynthModel Tree ConfModel ConfSpec.
From Verif Require ConfYaml ConfTwice ConfExamples Toy.
Open Scope string_scope.

Section Conf.
Variable E : env.
Variable rg : registry E.

(** ** C46 *)

(** Saving and loading gives the same synth, with its samplers in the same order. *)
Theorem C46_round_trip_partial : forall rl w y t, savable rg y -> to_dict rl y = Ok t ->
  exists inp y', t = TDict inp /\ fst (from_dict rg w inp) = Ok y' /\ same_synth eq y y' /\ dkeys (y_aux y') = dkeys (y_aux y).
Proof. exact (ConfYaml.dict_round_trip E rg). Qed.
(** The loaded synth is saved as the same dictionary. *)
Theorem C46_saved_again_partial : forall rl w y t, savable rg y -> to_dict rl y = Ok t ->
  exists inp y', t = TDict inp /\ fst (from_dict rg w inp) = Ok y' /\ to_dict rl y' = Ok t.
Proof.
  intros rl w y t Hy Ht. destruct (ConfYaml.dict_round_trip E rg rl w y t Hy Ht) as (inp & y' & H1 & H2 & H3 & H4).
  exists inp, y'. split; [exact H1|]. split; [exact H2|]. rewrite <- Ht. exact (ConfTwice.save_same E y y' H3 H4 rl (sv_nodup Hy)).
Qed.

(** ** C47 *)

(** Loading changes nothing but the entries of the samplers, each of which loses five
    keys. *)
Theorem C47_input_after : forall w inp y inp', from_dict rg w inp = (Ok y, inp') ->
  (forall L k e, dget inp "auxiliary samplers" = Some (TDict L) -> In (k, TDict e) L -> NoDup (dkeys e)) ->
  (forall k, k <> "auxiliary samplers" -> dget inp' k = dget inp k) /\
  match dget inp "auxiliary samplers" with
  | None => inp' = inp
  | Some t => exists L L', t = TDict L /\ dget inp' "auxiliary samplers" = Some (TDict L') /\ Forall2 (emptied E) L L'
  end.
Proof.
  intros w inp y inp' H P. assert (G := ConfTwice.from_dict_input E rg w inp y inp' H).
  destruct (dget inp "auxiliary samplers") as [t|] eqn:Hd.
  - destruct G as (L & L' & -> & -> & F). split.
    + intros k N. now rewrite <- (ConfTwice.agree_dset E inp (TDict L') k N).
    + exists L, L'. split; [reflexivity|]. split; [rewrite dget_dset, String.eqb_refl; reflexivity|].
      apply (ConfTwice.popped_emptied E); [|exact F]. intros k e. now apply (P L).
  - now subst.
Qed.
(** So the second call with the same dictionary fails if it has a sampler ... *)
Theorem C47_second_call_fails : forall w w' inp y inp' nm e l, from_dict rg w inp = (Ok y, inp') ->
  dget inp "auxiliary samplers" = Some (TDict ((nm, TDict e) :: l)) -> NoDup (dkeys e) ->
  fst (from_dict rg w' inp') = Err KeyError.
Proof. exact (ConfTwice.from_dict_again E rg). Qed.
(** ... and gives the same as the first if it has none. *)
Theorem C47_no_samplers_partial : forall w inp y inp', from_dict rg w inp = (Ok y, inp') ->
  dget inp "auxiliary samplers" = None \/ dget inp "auxiliary samplers" = Some (TDict []) ->
  inp' = inp /\ from_dict rg w inp' = (Ok y, inp').
Proof. intros w inp y inp' H N. assert (Q := ConfTwice.from_dict_no_samplers E rg w inp y inp' H N). subst. now split. Qed.

(** ** C48 *)

(** Through a file: the same synth up to the order of dictionaries; the samplers come
    in alphabetical order. *)
Theorem C48_file_partial : forall rl w y t, savable rg y -> to_dict rl y = Ok t ->
  (m_rate (y_spm y) <> None -> String.leb (m_type (y_spm y)) "is_rate" = true) ->
  exists y', through_file rg rl w y = Ok y' /\ same_synth same_dict y y' /\
    Permutation (dkeys (y_aux y)) (dkeys (y_aux y')) /\ StronglySorted (fun a b => String.leb a b = true) (dkeys (y_aux y')).
Proof. exact (ConfYaml.file_round_trip E rg). Qed.
(** If the samplers were registered in alphabetical order the order is kept. *)
Theorem C48_file_order_partial : forall rl w y t, savable rg y -> to_dict rl y = Ok t ->
  (m_rate (y_spm y) <> None -> String.leb (m_type (y_spm y)) "is_rate" = true) ->
  StronglySorted (fun a b => String.leb a b = true) (dkeys (y_aux y)) ->
  exists y', through_file rg rl w y = Ok y' /\ same_synth same_dict y y' /\ dkeys (y_aux y') = dkeys (y_aux y).
Proof.
  intros rl w y t Hy Ht Hr Hs. destruct (ConfYaml.file_round_trip E rg rl w y t Hy Ht Hr) as (y' & H1 & H2 & H3 & H4).
  exists y'. split; [exact H1|]. split; [exact H2|]. symmetry. exact (ConfYaml.sorted_unique _ _ H3 Hs H4).
Qed.
End Conf.

(** ** Of the code as it is *)
Section Counterexamples.
Import Toy ConfExamples.

(** C46: parameters declared in a base class of a sampler's selection are lost. *)
Theorem C46_selection_parameters_refuted : exists (rg : registry toy) w y inp y', to_dict 10 y = Ok (TDict inp) /\ fst (from_dict rg w inp) = Ok y' /\
  sel_params y "solo" = Some [("boundary", 20%Z)] /\ sel_params y' "solo" = Some [].
Proof. exists toy_rg, empty, lossy. exact lossy_loses. Qed.
(** C46: a flux selection that looks at the luminosity comes back looking at the flux. *)
Theorem C46_selection_source_refuted : exists (rg : registry toy) w y inp y', to_dict 10 y = Ok (TDict inp) /\ fst (from_dict rg w inp) = Ok y' /\
  option_map (@source_of toy) (nth_error (w_sels (y_w y)) (y_flux y)) = Some SLuminosity /\
  option_map (@source_of toy) (nth_error (w_sels (y_w y')) (y_flux y')) = Some SFlux.
Proof. exists toy_rg, empty, lum_cut. exact lum_cut_changes. Qed.
(** C46: a derived-luminosity sampler without secondaries cannot be loaded, although its
    class is registered. *)
Theorem C46_derived_refuted : exists (rg : registry toy) w y inp, to_dict 10 y = Ok (TDict inp) /\ fst (from_dict rg w inp) = Err KeyError /\
  exists a, y_der y = Some 0 /\ nth_error (w_auxs (y_w y)) 0 = Some a /\ a_type (a_st a) = "X" /\ (exists c, rg_aux rg "X" = Ok c).
Proof. exists toy_rg, empty, derived. exact derived_fails. Qed.
(** C47 *)
Theorem C47_same_input_refuted : exists (rg : registry toy) w inp y inp', from_dict rg w inp = (Ok y, inp') /\ fst (from_dict rg w inp') = Err KeyError.
Proof. destruct kept_twice as (inp & y' & inp' & _ & H). exists toy_rg, empty, inp, y', inp'. exact H. Qed.
(** C48 *)
Theorem C48_order_refuted : exists (rg : registry toy) w y y', savable rg y /\ through_file rg 10 w y = Ok y' /\
  dkeys (y_aux y) = ["solo"; "root"] /\ dkeys (y_aux y') = ["root"; "solo"].
Proof. destruct kept_reordered as (y' & H). exists toy_rg, empty, kept, y'. split; [exact kept_savable|exact H]. Qed.
Theorem C48_class_name_refuted : exists (rg : registry toy) w y, (exists inp y', to_dict 10 y = Ok (TDict inp) /\ fst (from_dict rg w inp) = Ok y') /\
  through_file rg 10 w y = Err KeyError.
Proof. exists lower_rg, empty, lower_synth. exact lower_fails. Qed.
End Counterexamples.

(** Non-vacuity. *)
Example C46_applies : exists rl y t, savable ConfExamples.toy_rg y /\ to_dict rl y = Ok t /\ y_der y <> None /\ length (dkeys (y_aux y)) = 2 /\ length (w_auxs (y_w y)) = 7.
Proof.
  exists 10, ConfExamples.kept. destruct ConfExamples.kept_saves as (t & Ht). exists t. split; [exact ConfExamples.kept_savable|].
  split; [exact Ht|]. split; [discriminate|]. split; reflexivity.
Qed.

Print Assumptions C46_round_trip_partial.
Print Assumptions C46_saved_again_partial.
Print Assumptions C46_selection_parameters_refuted.
Print Assumptions C46_selection_source_refuted.
Print Assumptions C46_derived_refuted.
Print Assumptions C47_input_after.
Print Assumptions C47_second_call_fails.
Print Assumptions C47_no_samplers_partial.
Print Assumptions C47_same_input_refuted.
Print Assumptions C48_file_partial.
Print Assumptions C48_file_order_partial.
Print Assumptions C48_order_refuted.
Print Assumptions C48_class_name_refuted.
