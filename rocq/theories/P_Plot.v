(** C81: what the plots and tables of a population show. *)
From Verif Require Import Base BaseFacts Env SimVarModel SimVarSpec PopModel PopSpec PlotModel PlotSpec Toy PopExamples.
From Verif Require SimVarProofs PopProofs PlotProofs.
Open Scope string_scope.
Open Scope list_scope.

Lemma draws_once E A (m : M (list (mark E)) A) r l r' l' : draws m r l -> draws m r' l' -> r = r' /\ l = l'.
Proof. intros H K. specialize (H nil). specialize (K nil). rewrite H in K. now injection K. Qed.

(** The plot of the true fluxes shows the observed ones, at the distances of all
    objects. *)
Theorem C81_true_fluxes_are_observed : forall E (a : popargs E) p, pop_new a = Ok p -> pa_sel a <> nil ->
  exists b, draws (display_true_fluxes p) (Ok tt) [Scatter "True flux" (pa_dist a) (pa_fobs a); YBottom b].
Proof. exact PlotProofs.true_fluxes. Qed.
(** So whenever an observed flux differs from the true one, the true fluxes are not
    shown. *)
Theorem C81_true_fluxes_refuted : forall E (a : popargs E) p, pop_new a = Ok p -> pa_fobs a <> pa_flux a ->
  exists l, draws (display_true_fluxes p) (Ok tt) l /\ forall label, ~ In (Scatter label (pa_dist a) (pa_flux a)) l.
Proof.
  intros E a p H N. destruct (PopProofs.new_consistent _ _ _ H) as ((_ & _ & _ & _ & A5 & A6 & _) & _).
  destruct (PlotProofs.true_fluxes E a p H) as (b & D).
  - intros Z. rewrite Z in A5, A6. apply N. now destruct (pa_fobs a), (pa_flux a).
  - eexists. split; [exact D|]. intros lb [X|[X|[]]]; [|discriminate]. injection X as _ X. contradiction.
Qed.
(** A population without objects cannot be plotted. *)
Theorem C81_no_objects_refuted : forall E (a : popargs E) p w, pop_new a = Ok p -> pa_sel a = nil ->
  forall s, fst (display_true_fluxes p s) = Err ValueError /\ fst (display_fluxes w p s) = Err ValueError.
Proof.
  intros E a p w H N s. assert (X := PlotProofs.true_fluxes_empty E a p H N). split; [now rewrite X|].
  unfold display_fluxes. now rewrite (PlotProofs.draws_err E _ _ _ _ _ _ X).
Qed.
(** The plot of the detected fluxes shows the observed flux of each detected object at
    its distance, and nothing if nothing was detected. *)
Theorem C81_detected_fluxes : forall E (a : popargs E) p, pop_new a = Ok p ->
  (count (pa_sel a) = 0 -> draws (display_obs_fluxes p) (Ok tt) []) /\
  (count (pa_sel a) <> 0 -> exists b, draws (display_obs_fluxes p) (Ok tt)
     [Scatter "Detected flux" (of_objects true a (@pa_dist E)) (of_objects true a (@pa_fobs E)); YBottom b; XRight (pa_rmax a)]).
Proof.
  intros E a p H. split; intros N; [exact (PlotProofs.obs_fluxes_none E a p H N)|]. destruct (PlotProofs.obs_fluxes E a p H N) as (b & _ & D). eauto.
Qed.
(** The plot of both shows the two plots, and an arrow for each detected object from its
    observed flux to its observed flux. *)
Theorem C81_fluxes : forall E (a : popargs E) p w, pop_new a = Ok p -> pa_sel a <> nil -> exists b, draws (display_fluxes w p) (Ok tt)
  ([Scatter "True flux" (pa_dist a) (pa_fobs a); YBottom b] ++
   (if Nat.eqb (count (pa_sel a)) 0 then [] else
    [Scatter "Detected flux" (of_objects true a (@pa_dist E)) (of_objects true a (@pa_fobs E)); YBottom b; XRight (pa_rmax a)] ++
    if w then map (fun q => Arrow (fst q) (snd q) (vofnat E 0) (vsub E (snd q) (snd q)))
                  (combine (of_objects true a (@pa_dist E)) (of_objects true a (@pa_fobs E))) else [])).
Proof. intros E a p w H. exact (PlotProofs.fluxes E a p H w). Qed.
(** So no arrow has a length, whatever the errors of the fluxes. *)
Theorem C81_arrows_refuted : forall E (a : popargs E) p w, pop_new a = Ok p -> pa_sel a <> nil -> (forall v, vsub E v v = vofnat E 0) ->
  exists l, draws (display_fluxes w p) (Ok tt) l /\ forall x y dx dy, In (Arrow x y dx dy) l -> dx = vofnat E 0 /\ dy = vofnat E 0.
Proof.
  intros E a p w H N Z. destruct (PlotProofs.fluxes E a p H w N) as (b & D). eexists. split; [exact D|]. intros x y dx dy I.
  cbn [app In] in I. destruct I as [I|[I|I]]; try discriminate. destruct (Nat.eqb (count (pa_sel a)) 0); [destruct I|]. cbn [app In] in I.
  destruct I as [I|[I|[I|I]]]; try discriminate. destruct w; [|destruct I]. apply in_map_iff in I as (q & Q & _). injection Q as <- <- <- <-. auto.
Qed.
(** Nothing is drawn below the axis. *)
Theorem C81_nothing_below : forall E (a : popargs E) p, pop_new a = Ok p -> pa_sel a <> nil -> ordered E ->
  exists b, draws (display_true_fluxes p) (Ok tt) [Scatter "True flux" (pa_dist a) (pa_fobs a); YBottom b] /\ forall f, In f (pa_fobs a) -> vle E b f = true.
Proof.
  intros E a p H N OR. destruct (PlotProofs.true_fluxes E a p H N) as (b & D). exists b. split; [exact D|]. apply (PlotProofs.lowest_le E a p H OR).
  destruct (PlotProofs.lowest_cases E a p H N) as (b' & B & _). rewrite B. f_equal. specialize (D nil). unfold display_true_fluxes, bind in D.
  destruct (scatter "True flux" (p_dist p) (p_flux p) nil) as [[u|e] s] eqn:S; [|discriminate]. unfold lift in D. rewrite B in D. unfold put in D.
  assert (X := f_equal (fun q => rev (snd q)) D). cbn in X. rewrite rev_app_distr in X. cbn in X. now injection X.
Qed.
(** Luminosities: detected objects first, then the others. *)
Theorem C81_luminosities : forall E (a : popargs E) p, pop_new a = Ok p -> draws (display_luminosities p) (Ok tt)
  [Scatter "" (of_objects true a (@pa_dist E)) (of_objects true a (@pa_lum E)); Scatter "" (of_objects false a (@pa_dist E)) (of_objects false a (@pa_lum E))].
Proof. exact PlotProofs.luminosities. Qed.
(** Distances: of all objects and of the detected ones, on the same 39 bins from zero to
    the maximum. *)
Theorem C81_distances : forall E (a : popargs E) p, pop_new a = Ok p ->
  draws (display_distances p) (Ok tt) [Hist (pa_dist a) (pa_rmax a) 40; Hist (of_objects true a (@pa_dist E)) (pa_rmax a) 40].
Proof. exact PlotProofs.distances. Qed.
(** Spheres: each detected (hidden) object at its position, with its observed flux. *)
Theorem C81_spheres : forall E (vsin vcos : V E -> V E) (a : popargs E) p cmap tr, pop_new a = Ok p ->
  (exists r, draws (display_obs_fluxes_sphere vsin vcos cmap tr p) (Ok r) (sphere_of vsin vcos cmap tr true a)) /\
  (exists r, draws (display_hidden_fluxes_sphere vsin vcos cmap tr p) (Ok r) (sphere_of vsin vcos cmap tr false a)) /\
  (exists r, draws (display_flux_sphere vsin vcos tr p) (Ok r) (sphere_of vsin vcos "Reds" tr true a ++ sphere_of vsin vcos "Blues" tr false a)).
Proof.
  intros E vsin vcos a p cmap tr H. split; [|split]; eexists; [exact (PlotProofs.obs_sphere E a p H vsin vcos cmap tr)|exact (PlotProofs.hidden_sphere E a p H vsin vcos cmap tr)|exact (PlotProofs.both_spheres E a p H vsin vcos tr)].
Qed.
(** When every object was detected, the sphere is drawn but not returned. *)
Theorem C81_sphere_returned_refuted : forall E (vsin vcos : V E -> V E) (a : popargs E) p tr, pop_new a = Ok p -> pa_sel a <> nil -> count (mnot (pa_sel a)) = 0 ->
  exists l, l <> nil /\ draws (display_flux_sphere vsin vcos tr p) (Ok false) l.
Proof.
  intros E vsin vcos a p tr H N Z. assert (D := PlotProofs.both_spheres E a p H vsin vcos tr). rewrite Z in D. eexists. split; [|exact D].
  unfold sphere_of at 1, of_objects. destruct (PopProofs.new_consistent _ _ _ H) as ((_ & _ & _ & _ & A5 & A6 & _) & _).
  rewrite (SimVarProofs.keep_length _ _ _ A5). destruct (Nat.eqb_spec (count (pa_sel a)) 0) as [C|C]; [|discriminate]. exfalso.
  destruct (pa_sel a) as [|[|] m]; [contradiction|discriminate C|discriminate Z].
Qed.
(** The table: number of detections, number of objects, the parameters of both
    distributions. *)
Theorem C81_table : forall E (a : popargs E) p, pop_new a = Ok p -> draws (display p) (Ok tt)
  ([Head (pa_name a) (count (pa_sel a)) (length (pa_sel a))] ++ match pa_lfpar a with Some d => [Table (pa_lfform a) d] | None => [] end ++
   [Table (Some (pa_spform a)) (pa_sppar a)]) /\ repr_numbers p = (length (pa_sel a), count (pa_sel a), length (pa_sel a) - count (pa_sel a)).
Proof.
  intros E a p H. split; [exact (PlotProofs.text E a p H)|]. destruct (PopProofs.new_counts _ _ _ H) as (A & B & C & _). unfold repr_numbers. rewrite C, A, B. f_equal. lia.
Qed.
(** Case: four objects, three of them detected, with other observed than true fluxes. *)
Example C81_applies : exists p, pop_new (demo "x") = Ok p /\ pa_sel (demo "x") <> nil /\ pa_fobs (demo "x") <> pa_flux (demo "x") /\
  of_objects true (demo "x") (@pa_fobs toy) <> of_objects true (demo "x") (@pa_flux toy) /\ count (pa_sel (demo "x")) = 3 /\
  (forall v, vsub toy v v = vofnat toy 0) /\ ordered toy.
Proof.
  destruct demo_new as (p & H & _). exists p. split; [exact H|]. split; [discriminate|]. split; [discriminate|]. split; [discriminate|]. split; [reflexivity|].
  split; [intros v; apply Z.sub_diag|]. split; cbn; intros.
  - apply Z.leb_refl.
  - apply Z.leb_le in H0, H1. apply Z.leb_le. lia.
  - rewrite !Z.leb_le. lia.
  - apply Z.ltb_antisym.
Qed.
Print Assumptions C81_true_fluxes_are_observed.
Print Assumptions C81_true_fluxes_refuted.
Print Assumptions C81_no_objects_refuted.
Print Assumptions C81_detected_fluxes.
Print Assumptions C81_fluxes.
Print Assumptions C81_arrows_refuted.
Print Assumptions C81_nothing_below.
Print Assumptions C81_luminosities.
Print Assumptions C81_distances.
Print Assumptions C81_spheres.
Print Assumptions C81_sphere_returned_refuted.
Print Assumptions C81_table.
