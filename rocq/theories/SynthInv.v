(** The steps of a successful [draw_survey]. *)
From Verif Require Import Base BaseFacts Keeps Env ParamModel SelModel SimVarModel DistModel AuxModel AuxSpec AuxProofs
  Tree PopModel SynthModel SynthFrame.
Open Scope list_scope.

Section P.
Variable E : env.
Notation V := (V E).
Notation Rst := (Rst E).
Notation selector := (selector E).
Notation sampler := (sampler E).
Notation world := (world E).
Notation synth := (synth E).
Notation one := (vofnat E 1).

(** Values and states met on the way. *)
Record trace := Trace {
  tr_n : nat;
  tr_sized : synth;               (* after the number of objects is known *)
  tr_dists : synth;               (* after draw_distance *)
  tr_p0 : list V;
  tr_sky : synth;                 (* after draw_sky_positions *)
  tr_sp : spvals E;
  tr_lum : list V; tr_p1 : list V; tr_t1 : truths E; tr_st1 : storage E;
  tr_lumd : synth;                (* after the luminosities *)
  tr_flux : list V;
  tr_t2 : truths E; tr_st2 : storage E;
  tr_auxd : synth;                (* after the samplers *)
  tr_fobs : list V; tr_sigma : V;
  tr_fluxd : synth;               (* after the observed fluxes *)
  tr_fsel : synth;                (* after the flux selection *)
  tr_p2 : list V; tr_auxsel : selector;
  tr_s1 : selector; tr_sf : selector; tr_s2 : selector;
  tr_s3 : selector;
  tr_ssel : synth;                (* after the spatial selection *)
  tr_mask : list bool;
  tr_dsel : synth;                (* after the distance selection *)
  tr_sd : selector; tr_dmask : list bool;
  tr_detected : list V; tr_known : list V;
  tr_rm : V; tr_rmd : synth;
  tr_g : graph;
  tr_th : list V; tr_ph : list V; tr_conf : tree V; tr_aux : dict (list V * list V) }.

Definition spatial_step (prog : bool) (n : nat) (s2 : selector) (ss : option nat) : YM E selector :=
    match ss with
    | None => ret s2
    | Some i =>
        let! sp' := get_sp (E := E) in
        let! s := in_w (get_sel i) in
        let! s' := lift (set_spatial_distribution s sp') in
        in_w (put_sel i s') ;;
        in_w (on_sel i (sel_select (E := E) prog n)) ;;
        let! s'' := in_w (get_sel i) in
        lift (sel_add s2 s'')
    end.

Record steps (prog : bool) (fuel rl : nat) (fs : option V) (l10 : bool) (ns : option nat) (norm : bool)
             (y : synth) (p : population E) (y' : synth) (t : trace) : Prop := Steps {
  sp_size : survey_size ns norm y = (Ok (tr_n t), tr_sized t);
  sp_dist : in_sp (draw_distance prog fuel (tr_n t) norm) (tr_sized t) = (Ok tt, tr_dists t);
  sp_p0 : exists q, sd_prob (y_sp (tr_dists t)) = Some q /\ bcast2_inplace (vmul E) (repeat one (tr_n t)) q = Ok (tr_p0 t);
  sp_sky : in_sp (draw_sky_positions (E := E) (tr_n t)) (tr_dists t) = (Ok tt, tr_sky t);
  sp_sp : spatial_values (y_sp (tr_sky t)) = Ok (tr_sp t);
  sp_lum : survey_lum prog rl (tr_n t) (tr_p0 t) [(sd_name (y_sp y), truth (sd_par (y_sp y)))] (tr_sky t) =
             (Ok (tr_lum t, tr_p1 t, tr_t1 t, tr_st1 t), tr_lumd t);
  sp_flux : bcast2 (sc_transform (sd_cls (y_sp y))) (tr_lum t) (sv_dist (tr_sp t)) = Ok (tr_flux t);
  sp_aux : foldM (survey_aux prog rl (tr_n t) (tr_lum t)) (tr_t1 t, tr_st1 t) (y_aux y) (tr_lumd t) =
             (Ok (tr_t2 t, tr_st2 t), tr_auxd t);
  sp_fobs : survey_flux fs l10 (tr_n t) (tr_flux t) (tr_auxd t) = (Ok (tr_fobs t, tr_sigma t), tr_fluxd t);
  sp_fsel : exists y1, in_w (upd_sel (y_flux y) (fun s => set_observed_flux s (tr_fobs t))) (tr_fluxd t) = (Ok tt, y1) /\
              in_w (on_sel (y_flux y) (sel_select (E := E) prog (tr_n t))) y1 = (Ok tt, tr_fsel t);
  sp_sel : foldM (survey_selection (E := E)) (tr_p1 t, all_selected E "total auxiliary selection" (tr_n t)) (tr_st2 t) (tr_fsel t) =
             (Ok (tr_p2 t, tr_auxsel t), tr_fsel t);
  sp_s1 : sel_add (all_selected E "global" (tr_n t)) (tr_auxsel t) = Ok (tr_s1 t);
  sp_sf : nth_error (w_sels (y_w (tr_fsel t))) (y_flux y) = Some (tr_sf t);
  sp_s2 : sel_add (tr_s1 t) (tr_sf t) = Ok (tr_s2 t);
  sp_s3 : spatial_step prog (tr_n t) (tr_s2 t) (y_ssel y) (tr_fsel t) = (Ok (tr_s3 t), tr_ssel t);
  sp_mask : s_mask (tr_s3 t) = Some (tr_mask t);
  sp_dsel : in_w (on_sel (y_dsel y) (sel_select (E := E) prog (count (tr_mask t)))) (tr_ssel t) = (Ok tt, tr_dsel t);
  sp_sd : nth_error (w_sels (y_w (tr_dsel t))) (y_dsel y) = Some (tr_sd t);
  sp_dmask : s_mask (tr_sd t) = Some (tr_dmask t);
  sp_detected : np_mask (sv_dist (tr_sp t)) (tr_mask t) = Ok (tr_detected t);
  sp_known : np_mask (tr_detected t) (tr_dmask t) = Ok (tr_known t);
  sp_max : 0 < count (tr_mask t) -> tr_known t <> [];
  sp_rm : in_sp (rd_rmax (E := E)) (tr_dsel t) = (Ok (tr_rm t), tr_rmd t);
  sp_g : read_graph rl (tr_rmd t) = (Ok (tr_g t), y');
  sp_th : sd_theta (y_sp y') = Some (tr_th t);
  sp_ph : sd_phi (y_sp y') = Some (tr_ph t);
  sp_conf : to_dict rl y' = Ok (tr_conf t);
  sp_quant : rmapM (quantity (E := E)) (tr_st2 t) = Ok (tr_aux t);
  sp_pop : pop_new (PopArgs E (tr_lum t) (sv_dist (tr_sp t)) (tr_known t) (np_where (tr_dmask t)) (np_where (mnot (tr_dmask t)))
             (tr_flux t) (tr_fobs t) (tr_mask t) (tr_sigma t) (tr_rm t)
             (y_nmodel y) (option_map (fun l => po_store (ld_par l)) (y_lum y')) (po_store (sd_par (y_sp y')))
             (Some (y_spaces y)) (y_seed y) (PyStr (y_name y)) (m_form (y_spm y))
             (option_map (fun _ => m_form (y_lumm y)) (y_lum y'))
             (Some (tr_aux t)) (tr_t2 t) (tr_g t) (tr_th t) (tr_ph t) (Some (tr_conf t)) (Some (tr_p2 t))) = Ok p }.

Lemma conf_eq y y' : yframe E y y' -> conf_static E y' = conf_static E y. Proof. now intros []. Qed.

Lemma fold_state {S A B} (f : B -> A -> M S B) l : (forall b a s, snd (f b a s) = s) ->
  forall b s, snd (foldM f b l s) = s.
Proof.
  intros H. induction l as [|x l IH]; intros b s; cbn; [reflexivity|]. unfold bind. specialize (H b x s).
  destruct (f b x s) as [[b1|e] s1]; cbn in H; subst; [apply IH|reflexivity].
Qed.
Lemma survey_selection_state acc kv (y : synth) : snd (survey_selection acc kv y) = y.
Proof.
  unfold survey_selection, bind, in_w, get_sel. destruct (nth_error (w_sels (y_w y)) (c_sel (snd kv))) as [s|]; cbn;
    [|now destruct y].
  replace (with_w y (y_w y)) with y by now destruct y.
  destruct (is_unity (s_kind s)); [reflexivity|]. unfold times, lift. cbn.
  destruct (rbind (of_opt TypeError (c_prob (snd kv))) _); [|reflexivity].
  destruct (sel_add (snd acc) s); reflexivity.
Qed.

Ltac ib H := apply bind_inv_ok in H; destruct H as (? & ? & ? & H).
Ltac lft H := unfold lift, ret, get in H; injection H as H; subst.

Lemma in_w_get A (m : AM E A) (y : synth) a y1 : (forall w, snd (m w) = w) -> in_w m y = (Ok a, y1) -> y1 = y /\ fst (m (y_w y)) = Ok a.
Proof.
  intros S H. unfold in_w in H. specialize (S (y_w y)). destruct (m (y_w y)) as [r w]. cbn in S. subst w. injection H as -> <-.
  split; [now destruct y|reflexivity].
Qed.
Lemma in_w_get_sel i (y : synth) s y1 : in_w (get_sel i) y = (Ok s, y1) -> y1 = y /\ nth_error (w_sels (y_w y)) i = Some s.
Proof.
  intros H. apply in_w_get in H; [|reflexivity]. destruct H as [-> H]. split; [reflexivity|].
  cbn in H. destruct (nth_error _ i); [now injection H as ->|discriminate].
Qed.
Lemma in_w_get_aux i (y : synth) s y1 : in_w (get_aux i) y = (Ok s, y1) -> y1 = y /\ at_ (y_w y) i s.
Proof.
  intros H. apply in_w_get in H; [|reflexivity]. destruct H as [-> H]. split; [reflexivity|].
  cbn in H. unfold at_. destruct (nth_error _ i); [now injection H as ->|discriminate].
Qed.
Lemma lift_inv S A (r : res A) (s : S) a s1 : lift r s = (Ok a, s1) -> r = Ok a /\ s1 = s.
Proof. unfold lift. intros H. now injection H. Qed.
Lemma of_opt_inv A e (o : option A) a : of_opt e o = Ok a -> o = Some a.
Proof. destruct o; cbn; [congruence|discriminate]. Qed.
Lemma get_sp_inv (y : synth) sp y1 : get_sp y = (Ok sp, y1) -> y1 = y /\ spatial_values (y_sp y) = Ok sp.
Proof.
  unfold get_sp. intros H. apply bind_inv_ok in H. destruct H as (y0 & y2 & G & H). unfold get in G. injection G as <- <-.
  apply lift_inv in H. tauto.
Qed.

Lemma survey_steps prog fuel rl fs l10 ns norm y p y' :
  draw_survey prog fuel rl fs l10 ns norm y = (Ok p, y') -> exists t, steps prog fuel rl fs l10 ns norm y p y' t.
Proof.
  unfold draw_survey. intros H.
  apply bind_inv_ok in H. destruct H as (y0 & y0' & G & H). unfold get in G. injection G as <- <-.
  apply bind_inv_ok in H. destruct H as (n & y1 & H1 & H).
  apply bind_inv_ok in H. destruct H as ([] & y2 & H2 & H).
  apply bind_inv_ok in H. destruct H as (y2' & y2'' & G & H). unfold get in G. injection G as <- <-.
  apply bind_inv_ok in H. destruct H as (p0 & y2' & H3 & H).
  apply lift_inv in H3. destruct H3 as [H3 ->].
  apply bind_inv_ok in H. destruct H as ([] & y3 & H4 & H).
  apply bind_inv_ok in H. destruct H as (sp & y3' & H5 & H). apply get_sp_inv in H5. destruct H5 as [-> H5].
  apply bind_inv_ok in H. destruct H as ([[[lum p1] t1] st1] & y4 & H6 & H).
  apply bind_inv_ok in H. destruct H as (c & y4' & H7 & H).
  assert (C7 : y4' = y4 /\ c = sd_cls (y_sp y4)).
  { unfold in_sp, cls, gets in H7. cbn in H7. injection H7 as <- <-. split; [|reflexivity]. now destruct y4 as [[] ]. }
  destruct C7 as [-> ->].
  apply bind_inv_ok in H. destruct H as (fl & y4' & H8 & H). apply lift_inv in H8. destruct H8 as [H8 ->].
  apply bind_inv_ok in H. destruct H as (y4' & y4'' & G & H). unfold get in G. injection G as <- <-.
  assert (F1 := survey_size_keeps _ ns norm y). rewrite H1 in F1. cbn in F1.
  assert (F2 := in_sp_keeps _ _ _ (draw_distance_keeps _ prog fuel n norm) y1). rewrite H2 in F2. cbn in F2.
  assert (F3 := in_sp_keeps _ _ _ (draw_sky_keeps _ n) y2). rewrite H4 in F3. cbn in F3.
  assert (F4 := survey_lum_keeps _ prog rl n p0 [(sd_name (y_sp y), truth (sd_par (y_sp y)))] y3). rewrite H6 in F4. cbn in F4.
  assert (F := yframe_trans _ _ _ _ F1 (yframe_trans _ _ _ _ F2 (yframe_trans _ _ _ _ F3 F4))).
  apply conf_eq in F. unfold conf_static in F. injection F as C1 C2 C3 C4 C5 C6 C7 C8 C9 C10 C11 C12 C13 C14 C15 C16.
  rewrite C1 in H8. rewrite C10, C12, C14, C16 in H.
  apply bind_inv_ok in H. destruct H as ([t2 st2] & y5 & H9 & H).
  apply bind_inv_ok in H. destruct H as ([fobs sigma] & y6 & H10 & H).
  apply bind_inv_ok in H. destruct H as ([] & y6' & H11 & H).
  apply bind_inv_ok in H. destruct H as ([] & y7 & H12 & H).
  apply bind_inv_ok in H. destruct H as ([p2 auxsel] & y8 & H13 & H).
  assert (y8 = y7).
  { assert (X := fold_state (survey_selection (E := E)) st2 survey_selection_state (p1, all_selected E "total auxiliary selection" n) y7).
    now rewrite H13 in X. } subst y8.
  apply bind_inv_ok in H. destruct H as (s1 & y7' & H14 & H). apply lift_inv in H14. destruct H14 as [H14 ->].
  apply bind_inv_ok in H. destruct H as (sf & y7' & H15 & H). apply in_w_get_sel in H15. destruct H15 as [-> H15].
  apply bind_inv_ok in H. destruct H as (s2 & y7' & H16 & H). apply lift_inv in H16. destruct H16 as [H16 ->].
  apply bind_inv_ok in H. destruct H as (s3 & y8 & H17 & H).
  apply bind_inv_ok in H. destruct H as (nsel & y8' & H18 & H). apply lift_inv in H18. destruct H18 as [H18 ->].
  apply bind_inv_ok in H. destruct H as ([] & y9 & H19 & H).
  apply bind_inv_ok in H. destruct H as (sd & y9' & H20 & H). apply in_w_get_sel in H20. destruct H20 as [-> H20].
  apply bind_inv_ok in H. destruct H as (mask & y9' & H21 & H). apply lift_inv in H21. destruct H21 as [H21 ->].
  apply bind_inv_ok in H. destruct H as (dmask & y9' & H22 & H). apply lift_inv in H22. destruct H22 as [H22 ->].
  apply bind_inv_ok in H. destruct H as (det & y9' & H23 & H). apply lift_inv in H23. destruct H23 as [H23 ->].
  apply bind_inv_ok in H. destruct H as (known & y9' & H24 & H). apply lift_inv in H24. destruct H24 as [H24 ->].
  apply of_opt_inv in H21, H22.
  assert (nsel = count mask). { unfold n_selected, sel_mask in H18. rewrite H21 in H18. cbn in H18. now injection H18. } subst nsel.
  apply bind_inv_ok in H. destruct H as ([] & y9' & H25 & H).
  assert (X25 : y9' = y9 /\ (0 < count mask -> known <> [])).
  { destruct (Nat.ltb_spec 0 (count mask)).
    - destruct known; [discriminate|]. unfold ret in H25. injection H25 as ->. split; [easy|]. discriminate.
    - unfold ret in H25. injection H25 as ->. split; [easy|lia]. }
  destruct X25 as [-> X25].
  apply bind_inv_ok in H. destruct H as (rm & y10 & H26 & H).
  apply bind_inv_ok in H. destruct H as (g & y11 & H27 & H).
  apply bind_inv_ok in H. destruct H as (y11' & y11'' & G & H). unfold get in G. injection G as <- <-.
  apply bind_inv_ok in H. destruct H as (th & y11' & H28 & H). apply lift_inv in H28. destruct H28 as [H28 ->].
  apply bind_inv_ok in H. destruct H as (ph & y11' & H29 & H). apply lift_inv in H29. destruct H29 as [H29 ->].
  apply bind_inv_ok in H. destruct H as (conf & y11' & H30 & H). apply lift_inv in H30. destruct H30 as [H30 ->].
  apply bind_inv_ok in H. destruct H as (aux & y11' & H31 & H). apply lift_inv in H31. destruct H31 as [H31 ->].
  apply lift_inv in H. destruct H as [H ->].
  apply of_opt_inv in H28, H29.
  (* the configuration is unchanged to the end *)
  assert (K5 : yframe E y4 (snd (foldM (survey_aux prog rl n lum) (t1, st1) (y_aux y) y4))).
  { apply (keeps_fold (yframe_refl E) (yframe_trans E)). intros. apply survey_aux_keeps. }
  rewrite H9 in K5. cbn in K5.
  assert (K6 := survey_flux_keeps _ fs l10 n fl y5). rewrite H10 in K6. cbn in K6.
  assert (K7 := in_w_keeps _ _ _ (upd_sel_keeps _ (y_flux y) (fun s => set_observed_flux s fobs) (fun _ => eq_refl)) y6). rewrite H11 in K7. cbn in K7.
  assert (K8 := in_w_keeps _ _ _ (on_sel_keeps _ _ (y_flux y) _ (sel_select_keeps _ prog n)) y6'). rewrite H12 in K8. cbn in K8.
  assert (K9 : yframe E y7 y8).
  { clear - H17. destruct (y_ssel y) as [i|]; [|unfold ret in H17; injection H17 as _ ->; apply yframe_refl].
    apply bind_inv_ok in H17. destruct H17 as (sp' & z1 & A & H17). apply get_sp_inv in A. destruct A as [-> A].
    apply bind_inv_ok in H17. destruct H17 as (s & z1 & B & H17). apply in_w_get_sel in B. destruct B as [-> B].
    apply bind_inv_ok in H17. destruct H17 as (s' & z1 & C & H17). apply lift_inv in C. destruct C as [C ->].
    apply bind_inv_ok in H17. destruct H17 as ([] & z2 & D & H17).
    apply bind_inv_ok in H17. destruct H17 as ([] & z3 & F & H17).
    apply bind_inv_ok in H17. destruct H17 as (s'' & z4 & G & H17). apply in_w_get_sel in G. destruct G as [-> G].
    apply lift_inv in H17. destruct H17 as [_ ->].
    assert (K1 : yframe E y7 z2).
    { unfold in_w, put_sel, modify in D. cbn in D. injection D as <-. split; [|reflexivity]. split; [reflexivity|].
      cbn. apply map_lset with (x := s); [exact B|]. unfold set_spatial_distribution in C.
      destruct (is_spatial (s_kind s)); [|discriminate]. injection C as <-. reflexivity. }
    assert (K2 := in_w_keeps _ _ _ (on_sel_keeps _ _ i _ (sel_select_keeps _ prog n)) z2). rewrite F in K2. cbn in K2.
    eapply yframe_trans; eauto. }
  assert (K10 := in_w_keeps _ _ _ (on_sel_keeps _ _ (y_dsel y) _ (sel_select_keeps _ prog (count mask))) y8). rewrite H19 in K10. cbn in K10.
  assert (K11 := in_sp_keeps _ _ _ (rd_rmax_keeps _) y9). rewrite H26 in K11. cbn in K11.
  assert (K12 := read_graph_keeps _ rl y10). rewrite H27 in K12. cbn in K12.
  assert (K := yframe_trans _ _ _ _ K5 (yframe_trans _ _ _ _ K6 (yframe_trans _ _ _ _ K7 (yframe_trans _ _ _ _ K8
     (yframe_trans _ _ _ _ K9 (yframe_trans _ _ _ _ K10 (yframe_trans _ _ _ _ K11 K12))))))).
  apply conf_eq in K. unfold conf_static in K. injection K as D1 D2 D3 D4 D5 D6 D7 D8 D9 D10 D11 D12 D13 D14 D15 D16.
  rewrite D4, D5, D6, D7, D8, D9, C4, C5, C6, C7, C8, C9 in H.
  exists (Trace n y1 y2 p0 y3 sp lum p1 t1 st1 y4 fl t2 st2 y5 fobs sigma y6 y7 p2 auxsel s1 sf s2 s3 y8 mask y9 sd dmask det known rm y10 g th ph conf aux).
  constructor; cbn; try assumption.
  - destruct (sd_prob (y_sp y2)) as [q|]; [|discriminate]. exists q. split; [reflexivity|exact H3].
  - eauto.
Qed.
End P.
