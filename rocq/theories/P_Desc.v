(** C82: how a synth describes itself. *)
From Verif Require Import Base BaseFacts Env ParamModel SelModel DistModel AuxModel PopModel SynthModel ShareModel DescModel DescSpec Toy AuxExamples SynthExamples.
From Verif Require DescProofs.
Open Scope string_scope.
Open Scope list_scope.

(** [display] shows one section for each part, and nothing else: the spatial
    distribution, the luminosity, the secondaries of the sampler it is derived from, and
    the registered samplers with other names. *)
Theorem C82_display_shows_parts : forall E (y : synth E), present y -> exists l, display_synth y = Ok l /\ forall s, In s l <-> describes y s.
Proof. exact DescProofs.display_all. Qed.
(** [repr] tells the same parameters, and the names of the direct secondaries. *)
Theorem C82_repr_shows_parts : forall E (y : synth E), present y -> y_der y <> None \/ y_lum y <> None -> exists t, repr_synth y = Ok t /\
  (forall s k v, describes y s -> In (k, v) (se_rows s) -> In (Row k v) t) /\
  (forall i a, y_der y = Some i \/ (exists k, of_luminosity y k i) \/ (exists k, In (k, i) (y_aux y) /\ forall j, ~ of_luminosity y k j) -> sampler_is y i a ->
     In (Line (name_of a)) t /\ forall k j, In (k, j) (a_sec (a_ln a)) -> In (Child k) t).
Proof. exact DescProofs.repr_all. Qed.
(** Without any luminosity, [repr] raises, although [display] works. *)
Theorem C82_repr_without_luminosity_refuted : forall E (y : synth E), present y -> y_der y = None -> y_lum y = None ->
  repr_synth y = Err NameError /\ exists l, display_synth y = Ok l.
Proof. intros E y P D L. split; [exact (DescProofs.repr_raises E y D L)|]. destruct (DescProofs.display_all E y P) as (l & H & _). eauto. Qed.
(** The secondaries of registered samplers have no section. *)
Theorem C82_secondaries_refuted : exists (y : synth toy) l i a k j, present y /\ display_synth y = Ok l /\ In (name_of a, i) (y_aux y) /\ sampler_is y i a /\
  In (k, j) (a_sec (a_ln a)) /\ forall s, In s l -> se_title s <> k.
Proof.
  destruct (nth_error (w_auxs (y_w (rich false))) 0) as [a|] eqn:A; [|discriminate A].
  assert (R : row a = ("root", 0, [("a", 1); ("b", 2)], false, false)) by (pose proof (rich_at false 0 a A) as R; cbn [nth_error] in R; exact (eq_sym (f_equal (fun o => match o with Some x => x | None => row a end) R))).
  assert (P : present (rich false)). { split; [discriminate|]. split; [|intros k i (d & b & D & _); discriminate]. intros k i I. cbn in I. destruct I as [I|[I|[]]]; injection I as <- <-; eexists; reflexivity. }
  destruct (DescProofs.display_all toy (rich false) P) as (l & L & D). exists (rich false), l, 0, a, "a", 1.
  split; [exact P|]. split; [exact L|]. assert (N : name_of a = "root") by (exact (f_equal (fun o => match o with (x, _, _, _, _) => x end) R)). assert (S : a_sec (a_ln a) = [("a", 1); ("b", 2)]) by (exact (f_equal (fun o => match o with (_, _, x, _, _) => x end) R)).
  split; [rewrite N; now left|]. split; [exact A|]. split; [rewrite S; now left|]. intros s I. apply D in I.
  destruct I as [->|[(d & b & Q & _)|[(lu & _ & _ & ->)|[(k & i & b & (d & b' & Q & _) & _)|(k & i & b & I & _ & _ & ->)]]]]; try discriminate. cbn [se_title]. cbn in I. destruct I as [I|[I|[]]]; injection I as <- _; discriminate.
Qed.
(** A registered sampler with the name of a secondary of the luminosity is not shown. *)
Theorem C82_same_name_refuted : forall E (y : synth E) k i j a l, present y -> display_synth y = Ok l -> In (k, i) (y_aux y) -> of_luminosity y k j -> sampler_is y i a ->
  k <> "Luminosity Function" -> (forall j' b, of_luminosity y k j' -> sampler_is y j' b -> table_of b <> table_of a) -> ~ In (Sect k None (table_of a)) l.
Proof.
  intros E y k i j a l P L I O A K T X. destruct (DescProofs.display_all E y P) as (l' & L' & D). rewrite L in L'. injection L' as <-. apply D in X.
  destruct X as [X|[(d & b & _ & _ & X)|[(lu & _ & _ & X)|[(k' & i' & b & O' & B & X)|(k' & i' & b & _ & N & _ & X)]]]].
  - discriminate.
  - injection X as X _. contradiction.
  - discriminate.
  - injection X as X Y. subst k'. exact (T i' b O' B (eq_sym Y)).
  - injection X as X _. subst k'. exact (N j O).
Qed.
(** Case: two samplers called "c", one with a parameter set; the other one is a secondary
    of the luminosity. *)
Definition twins : synth toy :=
  let a := @new_sampler toy "c" "U" shiftk true false false false 0 in
  let b := @upd_dy toy (@dy_par toy (PObj [("mu", Some 7%Z)] None)) a in
  let w := snd (set_secondary 0 1 (@World toy 5%Z 0%Z [unity toy "s0"] [@new_sampler toy "L" "X" derk false false false false 0; a; b] [])) in
  snd ((add_quantity (IsSampler 0) ;; add_quantity (IsSampler 2)) (@synth_new toy w (space None) m0 None m0 1%Z)).
Example twins_case : y_aux twins = [("c", 2)] /\ y_der twins = Some 0 /\
  map (fun a => (name_of a, a_sec (a_ln a), table_of a)) (w_auxs (y_w twins)) = [("L", [("c", 1)], []); ("c", [], []); ("c", [], [("mu", Some 7%Z)])].
Proof. split; [|split]; reflexivity. Qed.
(** Parameters left at their defaults are not shown: the table of a new distribution is
    empty. *)
Theorem C82_defaults_refuted : forall E w (c : spcls E) nm spm lum lumm seed l, display_synth (synth_new w (sd_new c nm) spm lum lumm seed) = Ok l ->
  In (Sect "Spatial Function" (Some (m_form spm)) nil) l.
Proof.
  intros E w c nm spm lum lumm seed l H. unfold display_synth in H. cbn in H. injection H as <-. apply in_app_iff. right. now left.
Qed.
(** What is set is shown. *)
Lemma store_set V (ge le : V -> V -> bool) d k v o o' : param_set ge le d k (Some v) o = (Ok tt, o') -> In (k, Some v) (po_store o').
Proof.
  unfold param_set. destruct (pd_free d); [|discriminate]. match goal with |- context [match ?m with _ => _ end] => destruct m end; [|discriminate]. intros H. injection H as <-. cbn. eapply dget_In. apply dget_dset_eq.
Qed.
Theorem C82_set_then_shown : forall E (y y' : synth E) k v, present y ->
  (set_spatial k v y = (Ok tt, y') -> exists l s, display_synth y' = Ok l /\ In s l /\ se_title s = "Spatial Function" /\ In (k, Some v) (se_rows s)) /\
  (y_der y = None -> set_luminosity k v y = (Ok tt, y') -> exists l s, display_synth y' = Ok l /\ In s l /\ se_title s = "Luminosity Function" /\ In (k, Some v) (se_rows s)).
Proof.
  intros E y y' k v P. split.
  - intros H. unfold set_spatial in H. destruct (dget (sc_params (sd_cls (y_sp y))) k) as [d|]; [|discriminate].
    match type of H with (let (r, o) := ?m in _) = _ => destruct m as [r o] eqn:S end. injection H as -> <-.
    destruct (DescProofs.display_all E (with_spd y (with_spar (y_sp y) o))) as (l & L & D); [exact P|]. eexists l, _. split; [exact L|]. split; [apply D; left; reflexivity|]. split; [reflexivity|]. cbn. eapply store_set. exact S.
  - intros N H. unfold set_luminosity in H. destruct (y_lum y) as [lu|] eqn:LU; [|discriminate]. destruct (dget (lc_params (ld_cls lu)) k) as [d|]; [|discriminate].
    match type of H with (let (r, o) := ?m in _) = _ => destruct m as [r o] eqn:S end. injection H as -> <-.
    match goal with |- context [display_synth ?z] => destruct (DescProofs.display_all E z) as (l & L & D) end; [exact P|]. eexists l, _. split; [exact L|].
    split; [apply D; right; right; left; eexists; split; [exact N|]; split; [reflexivity|reflexivity]|]. split; [reflexivity|]. cbn. eapply store_set. exact S.
Qed.
(** Cases: the synth with a tree of samplers and a derived luminosity; the same without
    any luminosity. *)
Example C82_applies : present (rich true) /\ y_der (rich true) <> None /\ rmap (@length _) (display_synth (rich true)) = Ok 4 /\
  present (@synth_new toy wired (space (Some 5%Z)) m0 None m0 1%Z).
Proof.
  split; [|split; [discriminate|split; [|]]].
  - split; [intros d D; injection D as <-; eexists; reflexivity|]. split.
    + intros k i I. cbn in I. destruct I as [I|[I|[]]]; injection I as <- <-; eexists; reflexivity.
    + intros k i (d & b & D & B & I). injection D as <-. apply (rich_at true) in B. cbn [nth_error] in B. assert (S : a_sec (a_ln b) = nil) by (exact (eq_sym (f_equal (fun o => match o with Some (_, _, x, _, _) => x | None => nil end) B))). now rewrite S in I.
  - vm_compute. reflexivity.
  - split; [discriminate|]. split; [intros k i []|]. intros k i (d & b & D & _). discriminate.
Qed.
Print Assumptions C82_display_shows_parts.
Print Assumptions C82_repr_shows_parts.
Print Assumptions C82_repr_without_luminosity_refuted.
Print Assumptions C82_secondaries_refuted.
Print Assumptions C82_same_name_refuted.
Print Assumptions C82_defaults_refuted.
Print Assumptions C82_set_then_shown.
