(** [from_dict] of a dictionary that describes a synth. *)
From Verif Require Import Base BaseFacts Env ParamModel SelModel DistModel AuxModel SynthModel Tree ConfModel ConfSpec ConfProofs ConfLink ConfLoad.
Open Scope string_scope.

Section R.
Variable E : env.
Notation V := (V E).
Notation synth := (synth E).
Notation sampler := (sampler E).
Notation world := (world E).
Notation tree := (tree V).
Variable rg : registry E.
Variable Q : dict V -> dict V -> Prop.
Hypothesis HQ : forall d l, Q d l -> same_dict d l.

(** ** What a dictionary must say to describe [y] *)
Definition sel_written (y : synth) (inp : dict tree) (key : string) (i : nat) : Prop :=
  exists s l, nth_error (w_sels (y_w y)) i = Some s /\ dget inp key = Some (TDict [(s_type s, tdict l)]) /\
    Q (truth (s_par s)) l /\ NoDup (dkeys l).
Record describes (y : synth) (inp : dict tree) (ids : list nat) (plan : list sampler) (L : dict tree) : Prop := {
  ds_seed : dget inp "seed" = Some (TInt (y_seed y));
  ds_sp : exists l r, dget inp "spatial distribution" = Some (TDict ((m_type (y_spm y), tdict l) :: r)) /\
     dget r "is_rate" = option_map (@TBool V) (m_rate (y_spm y)) /\ Q (truth (sd_par (y_sp y))) l /\ NoDup (dkeys l);
  ds_lum : match y_lum y with
           | None => dget inp "luminosity distribution" = None
           | Some d => exists l, dget inp "luminosity distribution" = Some (TDict [(m_type (y_lumm y), tdict l)]) /\
                                 Q (truth (ld_par d)) l /\ NoDup (dkeys l)
           end;
  ds_flux : if y_fluxset y then sel_written y inp "flux selection" (y_flux y) else dget inp "flux selection" = None;
  ds_dist : if y_dset y then sel_written y inp "distance selection" (y_dsel y) else dget inp "distance selection" = None;
  ds_ssel : match y_ssel y with
            | Some i => sel_written y inp "spatial selection" i
            | None => dget inp "spatial selection" = None
            end;
  ds_aux : dget inp "auxiliary samplers" = Some (TDict L);
  ds_ids : Forall2 (fun i a => nth_error (w_auxs (y_w y)) i = Some a) ids plan;
  ds_reach : forall i, In i ids <-> reach y i;
  ds_nodup : NoDup (map (@name_of E) plan);
  ds_ready : Forall2 (ready E rg Q y) plan L }.

(** ** Selections *)
Definition load_one (inp : dict tree) (key : string) (fl di ob : bool) (f : synth -> nat -> synth) : YM E unit :=
  match selection_of E inp key with
  | None => ret tt
  | Some t => let! s := lift (load_sel rg true t) in
              let! i := alloc_sel (sel_flag fl di ob s) in modify (fun z => f z i)
  end.
Lemma load_flux_one inp : load_flux rg inp = load_one inp "flux selection" true false false (fun z i => with_flux z i true).
Proof. reflexivity. Qed.
Lemma load_dist_one inp : load_distance rg inp = load_one inp "distance selection" false true false (fun z i => with_dsel z i true).
Proof. reflexivity. Qed.
Lemma sel_flag_none (s : selector E) : sel_flag false false false s = s.
Proof. unfold sel_flag. destruct s; cbn. now rewrite !Bool.orb_false_r. Qed.
Lemma load_spatial_one inp z : load_spatial rg inp z = load_one inp "spatial selection" false false false (fun z i => with_ssel z (Some i)) z.
Proof.
  unfold load_spatial, load_one. destruct (selection_of E inp "spatial selection"); [|reflexivity].
  unfold bind, lift. destruct (load_sel rg true t); [|reflexivity]. now rewrite sel_flag_none.
Qed.

Lemma load_one_some y inp key i fl di ob f z :
  (fl && ob = false /\ fl && di = false /\ ob && di = false) ->
  sel_written y inp key i -> (forall s, nth_error (w_sels (y_w y)) i = Some s -> sel_known rg (role fl di ob) false s) ->
  exists s s', nth_error (w_sels (y_w y)) i = Some s /\ same_selector Q s s' /\
    load_one inp key fl di ob f z = (Ok tt, f (grown E z [s'] []) (length (w_sels (y_w z)))).
Proof.
  intros Hf (s & l & Hs & Hin & HQl & Hnd) Hk. unfold load_one, selection_of. rewrite Hin.
  destruct (load_sel_ok E rg Q HQ false fl di ob s l Hf (Hk s Hs) HQl Hnd) as (s' & Hl & Hsame).
  exists s, (sel_flag fl di ob s'). split; [exact Hs|]. split; [exact Hsame|].
  cbn [negb] in Hl. unfold bind, lift. rewrite Hl. unfold alloc_sel, modify, grown. rewrite app_nil_r. reflexivity.
Qed.
Lemma load_one_none inp key fl di ob f z : dget inp key = None -> load_one inp key fl di ob f z = (Ok tt, z).
Proof. intros H. unfold load_one, selection_of. now rewrite H. Qed.

(** Selections stay where they are. *)
Lemma same_more y y1 y2 more i i' : w_sels (y_w y2) = (w_sels (y_w y1) ++ more)%list ->
  same_selector_at Q y y1 i i' -> same_selector_at Q y y2 i i'.
Proof.
  intros H (s & s' & H1 & H2 & H3). exists s, s'. split; [exact H1|]. split; [|exact H3]. rewrite H.
  rewrite nth_error_app1; [exact H2|]. apply nth_error_Some. congruence.
Qed.
Lemma same_new y z s s' i : nth_error (w_sels (y_w y)) i = Some s -> same_selector Q s s' ->
  same_selector_at Q y (grown E z [s'] []) i (length (w_sels (y_w z))).
Proof.
  intros H1 H2. exists s, s'. split; [exact H1|]. split; [|exact H2]. cbn. rewrite nth_error_app2, Nat.sub_diag by lia. reflexivity.
Qed.

(** What stays while selections are loaded. *)
Definition like (z z' : synth) : Prop :=
  (exists more, w_sels (y_w z') = (w_sels (y_w z) ++ more)%list) /\ w_auxs (y_w z') = w_auxs (y_w z) /\
  y_sp z' = y_sp z /\ y_spm z' = y_spm z /\ y_lum z' = y_lum z /\ y_lumm z' = y_lumm z /\ y_seed z' = y_seed z /\
  y_name z' = y_name z /\ y_aux z' = y_aux z /\ y_der z' = y_der z.
Lemma like_refl z : like z z.
Proof. split; [exists []; now rewrite app_nil_r|]. repeat (split; [reflexivity|]). reflexivity. Qed.
Lemma like_trans z1 z2 z3 : like z1 z2 -> like z2 z3 -> like z1 z3.
Proof.
  intros ((m & H0) & H1 & H2 & H3 & H4 & H5 & H6 & H7 & H8 & H9) ((m' & G0) & G1 & G2 & G3 & G4 & G5 & G6 & G7 & G8 & G9).
  split; [exists (m ++ m')%list; rewrite G0, H0, app_assoc; reflexivity|].
  repeat (split; [congruence|]). congruence.
Qed.
Lemma like_grown z s a b : like z (with_flux (grown E z [s] []) a b) /\ like z (with_dsel (grown E z [s] []) a b) /\ like z (with_ssel (grown E z [s] []) (Some a)).
Proof.
  split; [|split]; (split; [exists [s]; reflexivity|]; split; [cbn; apply app_nil_r|]); repeat (split; [reflexivity|]); reflexivity.
Qed.
Lemma same_like y z z' i i' : like z z' -> same_selector_at Q y z i i' -> same_selector_at Q y z' i i'.
Proof. intros ((m & H) & _). now apply (same_more y z z' m). Qed.

Lemma read_flux y inp z : savable rg y ->
  (if y_fluxset y then sel_written y inp "flux selection" (y_flux y) else dget inp "flux selection" = None) ->
  y_fluxset z = false -> exists z', load_flux rg inp z = (Ok tt, z') /\ like z z' /\
    y_fluxset z' = y_fluxset y /\ (y_fluxset y = true -> same_selector_at Q y z' (y_flux y) (y_flux z')) /\
    y_dset z' = y_dset z /\ y_dsel z' = y_dsel z /\ y_ssel z' = y_ssel z.
Proof.
  intros Hy H Hz. rewrite load_flux_one. destruct (y_fluxset y) eqn:Hf.
  - destruct (load_one_some y inp "flux selection" (y_flux y) true false false (fun z i => with_flux z i true) z) as (s & s' & Hs & Hsame & Hl); [auto|exact H| |].
    + intros s Hs. destruct (sv_flux Hy Hf) as (s0 & Hs0 & Hk). assert (s = s0) by congruence. now subst.
    + rewrite Hl. eexists. split; [reflexivity|]. split; [apply like_grown|]. split; [reflexivity|].
      split; [|auto]. intros _. exact (same_new y z s s' _ Hs Hsame).
  - rewrite (load_one_none _ _ _ _ _ _ _ H). exists z. split; [reflexivity|]. split; [apply like_refl|]. split; [exact Hz|]. split; [discriminate|auto].
Qed.
Lemma read_dist y inp z : savable rg y ->
  (if y_dset y then sel_written y inp "distance selection" (y_dsel y) else dget inp "distance selection" = None) ->
  y_dset z = false -> exists z', load_distance rg inp z = (Ok tt, z') /\ like z z' /\
    y_dset z' = y_dset y /\ (y_dset y = true -> same_selector_at Q y z' (y_dsel y) (y_dsel z')) /\
    y_fluxset z' = y_fluxset z /\ y_flux z' = y_flux z /\ y_ssel z' = y_ssel z.
Proof.
  intros Hy H Hz. rewrite load_dist_one. destruct (y_dset y) eqn:Hf.
  - destruct (load_one_some y inp "distance selection" (y_dsel y) false true false (fun z i => with_dsel z i true) z) as (s & s' & Hs & Hsame & Hl); [auto|exact H| |].
    + intros s Hs. destruct (sv_dist Hy Hf) as (s0 & Hs0 & Hk). assert (s = s0) by congruence. now subst.
    + rewrite Hl. eexists. split; [reflexivity|]. split; [apply like_grown|]. split; [reflexivity|].
      split; [|auto]. intros _. exact (same_new y z s s' _ Hs Hsame).
  - rewrite (load_one_none _ _ _ _ _ _ _ H). exists z. split; [reflexivity|]. split; [apply like_refl|]. split; [exact Hz|]. split; [discriminate|auto].
Qed.
Lemma read_spatial y inp z : savable rg y ->
  match y_ssel y with Some i => sel_written y inp "spatial selection" i | None => dget inp "spatial selection" = None end ->
  y_ssel z = None -> exists z', load_spatial rg inp z = (Ok tt, z') /\ like z z' /\
    same_opt (same_selector_at Q y z') (y_ssel y) (y_ssel z') /\
    y_fluxset z' = y_fluxset z /\ y_flux z' = y_flux z /\ y_dset z' = y_dset z /\ y_dsel z' = y_dsel z.
Proof.
  intros Hy H Hz. rewrite load_spatial_one. destruct (y_ssel y) as [i|] eqn:Hf.
  - destruct (load_one_some y inp "spatial selection" i false false false (fun z i => with_ssel z (Some i)) z) as (s & s' & Hs & Hsame & Hl); [auto|exact H| |].
    + intros s Hs. destruct (sv_ssel Hy Hf) as (s0 & Hs0 & Hk). assert (s = s0) by congruence. now subst.
    + rewrite Hl. eexists. split; [reflexivity|]. split; [apply (like_grown z s' _ true)|]. split; [exact (same_new y z s s' _ Hs Hsame)|]. auto.
  - rewrite (load_one_none _ _ _ _ _ _ _ H). exists z. split; [reflexivity|]. split; [apply like_refl|]. rewrite Hz. split; [exact I|auto].
Qed.

(** ** The synth without auxiliary samplers *)
Lemma read_base y w inp ids plan L : savable rg y -> describes y inp ids plan L ->
  exists d' lum' lm', load_base rg w inp = Ok (synth_new w d' (y_spm y) lum' lm' (y_seed y)) /\
    sd_cls (y_sp y) = sd_cls d' /\ sd_name (y_sp y) = sd_name d' /\ Q (truth (sd_par (y_sp y))) (truth (sd_par d')) /\
    same_opt (fun l l' => ld_cls l = ld_cls l' /\ ld_name l = ld_name l' /\ y_lumm y = lm' /\
                          Q (truth (ld_par l)) (truth (ld_par l'))) (y_lum y) lum' /\
    synth_name d' lum' = y_name y.
Proof.
  intros Hy [Hseed (l & r & Hsp & Hr & HQl & Hnd) Hlum _ _ _ _ _ _ _ _]. unfold load_base.
  destruct (load_sp_ok E rg Q HQ inp (y_sp y) (y_spm y) l r (sv_sp Hy) HQl Hnd Hsp Hr) as (d' & Hd & C1 & C2 & C3).
  rewrite (sv_name Hy).
  destruct (y_lum y) as [ld|] eqn:Hl.
  - destruct Hlum as (ll & Hll & HQll & Hndl).
    destruct (load_lum_ok E rg Q HQ inp ld (y_lumm y) ll (sv_lum Hy Hl) HQll Hndl Hll) as (ld' & Hld & B1 & B2 & B3).
    rewrite Hld. cbn [rbind]. rewrite Hd. cbn [rbind]. rewrite Hseed. cbn [of_opt rbind].
    exists d', (Some ld'), (y_lumm y). split; [reflexivity|]. split; [congruence|]. split; [congruence|]. split; [congruence|].
    split; [cbn; rewrite B1, B2, B3; auto|]. unfold synth_name. now rewrite C2, B2.
  - unfold load_lum. rewrite Hlum. cbn [rbind]. rewrite Hd. cbn [rbind]. rewrite Hseed. cbn [of_opt rbind].
    exists d', None, (Meta "" "" None). split; [reflexivity|]. split; [congruence|]. split; [congruence|]. split; [congruence|].
    split; [exact I|]. unfold synth_name. now rewrite C2.
Qed.

(** ** All of it *)
Theorem from_dict_ok y w inp ids plan L : savable rg y -> describes y inp ids plan L ->
  exists y' inp', from_dict rg w inp = (Ok y', inp') /\ same_synth Q y y' /\
    dkeys (y_aux y') = filter (fun k => dmem (y_aux y) k) (map (@name_of E) plan).
Proof.
  intros Hy D. unfold from_dict. destruct (read_base y w inp ids plan L Hy D) as (d' & lum' & lm' & Hb & B1 & B2 & B3 & B4 & B5).
  rewrite Hb. set (z0 := synth_new w d' (y_spm y) lum' lm' (y_seed y)).
  destruct (read_flux y inp z0 Hy (ds_flux _ _ _ _ _ D) eq_refl) as (z1 & H1 & L1 & F1 & F2 & F3 & F4 & F5).
  destruct (read_dist y inp z1 Hy (ds_dist _ _ _ _ _ D)) as (z2 & H2 & L2 & G1 & G2 & G3 & G4 & G5); [rewrite F3; reflexivity|].
  destruct (read_spatial y inp z2 Hy (ds_ssel _ _ _ _ _ D)) as (z3 & H3 & L3 & S1 & S2 & S3 & S4 & S5); [rewrite G5, F5; reflexivity|].
  assert (Hrun : (load_flux rg inp ;; load_distance rg inp ;; load_spatial rg inp) z0 = (Ok tt, z3)).
  { unfold bind. now rewrite H1, H2, H3. }
  match goal with |- context [bind ?m ?f z0] => rewrite (Hrun : bind m f z0 = _) end.
  assert (L03 : like z0 z3) by (eapply like_trans; [exact L1|]; eapply like_trans; eassumption).
  assert (L13 : like z1 z3) by (eapply like_trans; eassumption).
  destruct L03 as (_ & K1 & K2 & K3 & K4 & K5 & K6 & K7 & K8 & K9).
  destruct (load_aux_ok E rg Q HQ y Hy ids plan (ds_ids _ _ _ _ _ D) (ds_reach _ _ _ _ _ D) (ds_nodup _ _ _ _ _ D) L (ds_ready _ _ _ _ _ D) inp z3 (ds_aux _ _ _ _ _ D))
    as (y' & inp' & more & Hl & Hm & Ha & Hx & Hd & Hk & P1 & P2 & P3 & P4 & P5 & P6 & P7 & P8 & P9 & P10 & P11).
  { now rewrite K8. } { now rewrite K9. }
  rewrite Hl. exists y', inp'. split; [reflexivity|]. split; [|exact Hk].
  assert (Lm : forall i i', same_selector_at Q y z3 i i' -> same_selector_at Q y y' i i') by (intros i i'; now apply (same_more y z3 y' more)).
  split.
  - rewrite P5, K6. reflexivity.
  - rewrite P6, K7. symmetry. exact B5.
  - rewrite P1, K2, P2, K3. auto.
  - rewrite P1, K2. exact B3.
  - rewrite P3, K4, P4, K5. exact B4.
  - rewrite P8, S2, G3. auto.
  - intros Hf. apply Lm. rewrite P7, S3, G4. apply (same_like y z1 z3 _ _ L13). auto.
  - rewrite P10, S4. auto.
  - intros Hf. apply Lm. rewrite P9, S5. apply (same_like y z2 z3 _ _ L3). auto.
  - rewrite P11. destruct (y_ssel y), (y_ssel z3); cbn in *; auto.
  - exists (corr ids (length (w_auxs (y_w z3)))). split; [exact Ha|]. split; [|split; [|split; [exact Hx|exact Hd]]].
    + intros i i' j' (p & Hp & ->) (q & Hq & ->). f_equal. exact (ids_inj E y ids plan (ds_ids _ _ _ _ _ D) (ds_reach _ _ _ _ _ D) (ds_nodup _ _ _ _ _ D) p q i Hp Hq).
    + intros i j i' (p & Hp & ->) (q & Hq & Hpq). assert (p = q) by lia. subst. congruence.
Qed.
End R.
