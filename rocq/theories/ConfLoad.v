(** Loading what describes a synth gives that synth. *)
From Verif Require Import Base BaseFacts Env ParamModel SelModel DistModel AuxModel SynthModel Tree ConfModel ConfSpec ConfProofs ConfLink.
Open Scope string_scope.

Lemma Forall2_nth {A B} (P : A -> B -> Prop) l l' : Forall2 P l l' -> forall p a, nth_error l p = Some a ->
  exists b, nth_error l' p = Some b /\ P a b.
Proof. induction 1; intros [|p] a' H1; cbn in *; try discriminate; [injection H1 as <-; eauto|auto]. Qed.
Lemma Forall2_nth_r {A B} (P : A -> B -> Prop) l l' : Forall2 P l l' -> forall p b, nth_error l' p = Some b ->
  exists a, nth_error l p = Some a /\ P a b.
Proof. induction 1; intros [|p] a' H1; cbn in *; try discriminate; [injection H1 as <-; eauto|auto]. Qed.

Lemma Forall2_len {A B} (P : A -> B -> Prop) l l' : Forall2 P l l' -> length l = length l'.
Proof. induction 1; cbn; congruence. Qed.

Section L.
Variable E : env.
Notation V := (V E).
Notation synth := (synth E).
Notation sampler := (sampler E).
Notation world := (world E).
Notation tree := (tree V).
Variable rg : registry E.
Variable Q : dict V -> dict V -> Prop.
Hypothesis HQ : forall d l, Q d l -> same_dict d l.
Variable y : synth.
Hypothesis Hy : savable rg y.

(** The samplers of [y] in the order of the input. *)
Variable ids : list nat.
Variable plan : list sampler.
Hypothesis Hids : Forall2 (fun i a => nth_error (w_auxs (y_w y)) i = Some a) ids plan.
Hypothesis Hreach : forall i, In i ids <-> reach y i.
Hypothesis Hnd : NoDup (map (@name_of E) plan).
Variable L : dict tree.
Hypothesis Hready : Forall2 (ready E rg Q y) plan L.

Lemma at_plan p i : nth_error ids p = Some i -> exists a, nth_error plan p = Some a /\ nth_error (w_auxs (y_w y)) i = Some a /\ reach y i.
Proof.
  intros H. destruct (Forall2_nth _ _ _ Hids _ _ H) as (a & Ha & Hn). exists a. split; [exact Ha|]. split; [exact Hn|].
  apply Hreach. now apply nth_error_In in H.
Qed.
Lemma at_ids p a : nth_error plan p = Some a -> exists i, nth_error ids p = Some i /\ nth_error (w_auxs (y_w y)) i = Some a /\ reach y i.
Proof.
  intros H. destruct (Forall2_nth_r _ _ _ Hids _ _ H) as (i & Hi & Hn). exists i. split; [exact Hi|]. split; [exact Hn|].
  apply Hreach. now apply nth_error_In in Hi.
Qed.
Lemma in_plan i a : reach y i -> nth_error (w_auxs (y_w y)) i = Some a -> exists p, nth_error ids p = Some i /\ nth_error plan p = Some a.
Proof.
  intros Hr Ha. apply Hreach in Hr. apply In_nth_error in Hr. destruct Hr as (p & Hp). exists p. split; [exact Hp|].
  destruct (at_plan p i Hp) as (a' & H1 & H2 & _). congruence.
Qed.
Lemma ids_inj p q i : nth_error ids p = Some i -> nth_error ids q = Some i -> p = q.
Proof.
  intros Hp Hq. destruct (at_plan _ _ Hp) as (a & Ha & Hia & _). destruct (at_plan _ _ Hq) as (b & Hb & Hib & _).
  assert (a = b) by congruence. subst b.
  apply (proj1 (NoDup_nth_error (map (@name_of E) plan)) Hnd).
  - rewrite map_length. apply nth_error_Some. congruence.
  - rewrite (map_nth_error _ _ _ Ha), (map_nth_error _ _ _ Hb). reflexivity.
Qed.

(** Names of secondaries. *)
Lemma sec_name_iff i a : reach y i -> nth_error (w_auxs (y_w y)) i = Some a ->
  is_sec_name E plan (name_of a) = true <-> secondary_of y i.
Proof.
  intros Hr Ha. unfold is_sec_name. rewrite existsb_exists. split.
  - intros (b & Hb & H). rewrite existsb_exists in H. destruct H as ([k j] & Hin & Hk). cbn [fst] in Hk. apply String.eqb_eq in Hk.
    apply In_nth_error in Hb. destruct Hb as (q & Hq). destruct (at_ids q b Hq) as (ib & Hib & Hnb & Hrb).
    destruct (sv_secs Hy Hrb Hnb) as [_ Hk2]. destruct (Hk2 k j Hin) as (c & Hc & Hnc).
    assert (Hrj : reach y j) by (eapply reach_sec; eauto).
    assert (j = i). { apply (sv_names Hy Hrj Hr Hc Ha). congruence. } subst j. exists ib, b, k. auto.
  - intros (ib & b & k & Hrb & Hnb & Hin). destruct (in_plan _ _ Hrb Hnb) as (q & _ & Hq). exists b. split; [now apply nth_error_In in Hq|].
    rewrite existsb_exists. exists (k, i). split; [exact Hin|]. cbn [fst]. apply String.eqb_eq.
    destruct (sv_secs Hy Hrb Hnb) as [_ Hk2]. destruct (Hk2 k i Hin) as (c & Hc & Hnc). congruence.
Qed.
Lemma top_iff i a : reach y i -> nth_error (w_auxs (y_w y)) i = Some a -> k_lum (kind_of a) = None ->
  (is_sec_name E plan (name_of a) = false <-> In (name_of a, i) (y_aux y)).
Proof.
  intros Hr Ha Hl. split.
  - intros Hs. inversion Hr; subst.
    + destruct (sv_keys Hy _ _ H) as (a' & Ha' & Hk & _). assert (a' = a) by congruence. subst. exact H.
    + destruct (sv_der Hy H Ha) as [Hd _]. contradiction.
    + exfalso. assert (Hsec : secondary_of y i) by (exists i0, a0, k; auto). apply (sec_name_iff _ _ Hr Ha) in Hsec. congruence.
  - intros Hin. destruct (is_sec_name E plan (name_of a)) eqn:Hs; [|reflexivity]. apply (sec_name_iff _ _ Hr Ha) in Hs.
    destruct (sv_tops Hy) as [Ht _]. now elim (Ht _ _ Hin).
Qed.
Lemma der_iff i a : reach y i -> nth_error (w_auxs (y_w y)) i = Some a -> k_lum (kind_of a) <> None ->
  (is_sec_name E plan (name_of a) = false <-> y_der y = Some i).
Proof.
  intros Hr Ha Hl. split.
  - intros Hs. inversion Hr; subst.
    + destruct (sv_keys Hy _ _ H) as (a' & Ha' & Hk & Hn). congruence.
    + assumption.
    + exfalso. assert (Hsec : secondary_of y i) by (exists i0, a0, k; auto). apply (sec_name_iff _ _ Hr Ha) in Hsec. congruence.
  - intros Hd. destruct (is_sec_name E plan (name_of a)) eqn:Hs; [|reflexivity]. apply (sec_name_iff _ _ Hr Ha) in Hs.
    destruct (sv_tops Hy) as [_ Ht]. now elim (Ht _ Hd).
Qed.

Definition corr (base : nat) (i i' : nat) : Prop := exists p, nth_error ids p = Some i /\ i' = base + p.

Lemma indexed_nth : forall (l : list sampler) b k i, In (k, i) (indexed E l b) -> exists p a, nth_error l p = Some a /\ name_of a = k /\ i = b + p.
Proof.
  induction l as [|a l IH]; intros b k i; cbn; [easy|]. intros [[= <- <-]|H].
  - exists 0, a. repeat split. lia.
  - destruct (IH _ _ _ H) as (p & a' & Hp & Hn & ->). exists (S p), a'. repeat split; auto. lia.
Qed.

Lemma fold_der h (l : dict nat) j0 : (forall k j, In (k, j) l -> is_lum E h j = true -> j = j0) ->
  forall d, fold_left (fun d kv => if is_lum E h (snd kv) then Some (snd kv) else d) l d =
            if existsb (fun kv => is_lum E h (snd kv)) l then Some j0 else d.
Proof.
  induction l as [|[k j] l IH]; intros H d; cbn; [reflexivity|]. rewrite IH by (intros k' j' Hin; apply (H k'); now right).
  destruct (is_lum E h j) eqn:Hl; cbn; [|reflexivity]. rewrite (H k j (or_introl eq_refl) Hl). now destruct (existsb _ l).
Qed.

Lemma load_aux_ok inp (z : synth) : dget inp "auxiliary samplers" = Some (TDict L) -> y_aux z = [] -> y_der z = None ->
  exists y' inp' more, load_aux rg inp z = (Ok y', inp') /\
    w_sels (y_w y') = (w_sels (y_w z) ++ more)%list /\
    (forall i i', corr (length (w_auxs (y_w z))) i i' -> same_sampler_at Q (corr (length (w_auxs (y_w z)))) y y' i i') /\
    (forall k, same_opt (corr (length (w_auxs (y_w z)))) (dget (y_aux y) k) (dget (y_aux y') k)) /\
    same_opt (corr (length (w_auxs (y_w z)))) (y_der y) (y_der y') /\
    dkeys (y_aux y') = filter (fun k => dmem (y_aux y) k) (map (@name_of E) plan) /\
    (y_sp y' = y_sp z /\ y_spm y' = y_spm z /\ y_lum y' = y_lum z /\ y_lumm y' = y_lumm z /\ y_seed y' = y_seed z /\
     y_name y' = y_name z /\ y_flux y' = y_flux z /\ y_fluxset y' = y_fluxset z /\ y_dsel y' = y_dsel z /\ y_dset y' = y_dset z /\
     y_ssel y' = y_ssel z).
Proof.
  intros Hin Hz1 Hz2. set (base := length (w_auxs (y_w z))). unfold load_aux. rewrite Hin. cbn [items].
  destruct (gather_ok E rg Q HQ y plan L Hready Hnd (nil, nil) z) as (sels & new & L' & Hg & Hb).
  { intros a _. split; reflexivity. }
  cbn [fst snd app] in Hg. fold base in Hg.
  match goal with |- context [gather rg L ?x ?zz] => rewrite (Hg : gather rg L x zz = _) end. cbn [rbind fst snd].
  set (auxs := indexed E plan base).
  assert (Hauxk : forall p a, nth_error plan p = Some a -> dget auxs (name_of a) = Some (base + p)).
  { intros p a Hp. apply dget_indexed; [exact Hnd|]. exists p, a. auto. }
  assert (Hat : forall p a, nth_error plan p = Some a -> at_name auxs (name_of a) = base + p).
  { intros p a Hp. unfold at_name. now rewrite (Hauxk p a Hp). }
  (* every secondary is in the plan *)
  assert (Hsecs : forall p a k j, nth_error plan p = Some a -> In (k, j) (a_sec (a_ln a)) ->
            exists q b, nth_error ids q = Some j /\ nth_error plan q = Some b /\ name_of b = k).
  { intros p a k j Hp Hkj. destruct (at_ids p a Hp) as (i & Hi & Hia & Hr). destruct (sv_secs Hy Hr Hia) as [_ Hk].
    destruct (Hk k j Hkj) as (b & Hbj & Hbk). assert (Hrj : reach y j) by (eapply reach_sec; eauto).
    destruct (in_plan _ _ Hrj Hbj) as (q & Hq1 & Hq2). exists q, b. auto. }
  set (z1 := grown E z sels new). set (h := w_auxs (y_w z1)).
  assert (Hh : h = (w_auxs (y_w z) ++ new)%list) by reflexivity.
  assert (Hlen : length new = length plan) by (symmetry; exact (Forall2_len _ _ _ Hb)).
  assert (Hnew : forall p a, nth_error plan p = Some a -> exists b, nth_error h (base + p) = Some b /\
            built E Q y (w_sels (y_w z) ++ sels)%list a b /\ unlinked E b).
  { intros p a Hp. destruct (Forall2_nth _ _ _ Hb _ _ Hp) as (b & Hbp & H1 & H2). exists b. split; [|auto].
    rewrite Hh, nth_error_app2 by (unfold base; lia). replace (base + p - length (w_auxs (y_w z))) with p by (unfold base; lia). exact Hbp. }
  set (nm := fun c => match nth_error h c with Some b => name_of b | None => "" end).
  assert (Hnm : names_are E nm h) by (intros c b Hc; unfold nm; now rewrite Hc).
  assert (Hnmp : forall p a, nth_error plan p = Some a -> nm (base + p) = name_of a).
  { intros p a Hp. destruct (Hnew p a Hp) as (b & Hbh & (Hst & _) & _). unfold nm. rewrite Hbh. unfold name_of. now rewrite Hst. }
  set (D := links_of E auxs plan).
  assert (HDin : forall x c, In (x, c) D -> exists p a k j q b, nth_error plan p = Some a /\ In (k, j) (a_sec (a_ln a)) /\
      nth_error ids q = Some j /\ nth_error plan q = Some b /\ name_of b = k /\ x = base + p /\ c = base + q).
  { intros x c Hxc. unfold D, links_of in Hxc. apply in_flat_map in Hxc. destruct Hxc as (a & Ha & Hm).
    apply in_map_iff in Hm. destruct Hm as ([k j] & [= <- <-] & Hkj). apply In_nth_error in Ha. destruct Ha as (p & Hp).
    destruct (Hsecs p a k j Hp Hkj) as (q & b & Hq1 & Hq2 & Hbk). subst k. exists p, a, (name_of b), j, q, b.
    cbn [fst]. rewrite (Hat p a Hp), (Hat q b Hq2). repeat (split; [assumption || reflexivity|]). reflexivity. }
  assert (Hplt : forall p a, nth_error plan p = Some a -> base + p < length h).
  { intros p a Hp. rewrite Hh, app_length, Hlen. assert (p < length plan) by (apply nth_error_Some; congruence). unfold base. lia. }
  destruct (run_links_ok E nm D (y_w z1)) as (h' & Hrun & Hlnk).
  { intros x c Hxc. destruct (HDin x c Hxc) as (p & a & k & j & q & b & H1 & H2 & H3 & H4 & H5 & -> & ->). split; eauto. }
  { exact Hnm. }
  assert (Hlink : link (E := E) auxs (sec_table E plan) (y_w z1) = (Ok tt, w_set_auxs h' (y_w z1))).
  { rewrite link_run; [exact Hrun|]. intros a Ha. apply In_nth_error in Ha. destruct Ha as (p & Hp). split.
    - rewrite (Hauxk p a Hp). discriminate.
    - intros [k j] Hkj. destruct (Hsecs p a k j Hp Hkj) as (q & b & _ & Hq & <-). cbn [fst]. rewrite (Hauxk q b Hq). discriminate. }
  set (z2 := with_w z1 (w_set_auxs h' (y_w z1))).
  unfold bind at 1. unfold in_w. rewrite Hlink. fold z2.
  rewrite drop_filter by (unfold auxs; now rewrite keys_indexed). set (rem := filter (fun kv => negb (is_sec_name E plan (fst kv))) auxs).
  (* what the linked samplers look like *)
  assert (Hnew' : forall p a, nth_error plan p = Some a -> exists b', nth_error h' (base + p) = Some b' /\
            built E Q y (w_sels (y_w z) ++ sels)%list a b' /\
            a_sec (a_ln b') = map (fun kv => (fst kv, at_name auxs (fst kv))) (a_sec (a_ln a)) /\
            a_issec (a_ln b') = existsb (fun pc => Nat.eqb (snd pc) (base + p)) D).
  { intros p a Hp. destruct (Hnew p a Hp) as (b & Hbh & Hbuilt & Hun1 & Hun2). destruct Hlnk as [_ Hlnk].
    destruct (Hlnk (base + p) b Hbh) as (b' & Hb' & S1 & Y1 & E1 & C1 & I1). exists b'. split; [exact Hb'|].
    split; [|split].
    - destruct Hbuilt as (B1 & B2 & s & s' & B3 & B4 & B5). split; [congruence|]. split; [now rewrite Y1|]. exists s, s'. rewrite E1. auto.
    - rewrite C1. unfold D, auxs. rewrite (children_links E _ plan base Hnd eq_refl p a Hp). rewrite Hun1. fold auxs.
      rewrite sets_fresh; [| |reflexivity]; rewrite map_map.
      + cbn [app]. apply map_ext_in. intros [k j] Hkj. cbn [fst]. destruct (Hsecs p a k j Hp Hkj) as (q & b2 & _ & Hq & <-).
        now rewrite (Hat q b2 Hq), (Hnmp q b2 Hq).
      + destruct (at_ids p a Hp) as (i & Hi & Hia & Hr). destruct (sv_secs Hy Hr Hia) as [Hndk _].
        erewrite map_ext_in; [exact Hndk|]. intros [k j] Hkj. cbn [fst]. destruct (Hsecs p a k j Hp Hkj) as (q & b2 & _ & Hq & <-).
        now rewrite (Hat q b2 Hq), (Hnmp q b2 Hq).
    - rewrite I1, Hun2. reflexivity. }
  assert (Hrem : forall k i', In (k, i') rem <-> exists p a, nth_error plan p = Some a /\ name_of a = k /\ i' = base + p /\ is_sec_name E plan k = false).
  { intros k i'. unfold rem. rewrite filter_In. cbn [fst]. split.
    - intros [H1 H2]. apply indexed_nth in H1. destruct H1 as (p & a & Hp & Hn & ->). exists p, a.
      apply Bool.negb_true_iff in H2. auto.
    - intros (p & a & Hp & Hn & -> & Hs). rewrite Hs. split; [|reflexivity]. apply dget_In. rewrite <- Hn. now apply Hauxk. }
  assert (Hlum : forall p a, nth_error plan p = Some a -> is_lum E h' (base + p) = match k_lum (kind_of a) with Some _ => true | None => false end).
  { intros p a Hp. destruct (Hnew' p a Hp) as (b' & Hb' & (Hst & _) & _). unfold is_lum. rewrite Hb'. unfold kind_of. now rewrite Hst. }
  assert (Hndrem : NoDup (dkeys rem)). { apply NoDup_filter_keys. unfold auxs. now rewrite keys_indexed. }
  assert (Hreg : iterM (fun kv => add_quantity (E := E) (IsSampler (snd kv))) rem z2 = (Ok tt, fold_left (reg1 E h') rem z2)).
  { apply register_ok.
    - reflexivity.
    - intros k i' Hki. apply Hrem in Hki. destruct Hki as (p & a & Hp & Hn & -> & Hs).
      destruct (Hnew' p a Hp) as (b' & Hb' & (Hst & _) & _ & His). exists b'. split; [exact Hb'|]. split; [unfold name_of in *; now rewrite Hst|].
      rewrite His. destruct (existsb _ D) eqn:Hex; [|reflexivity]. exfalso. rewrite existsb_exists in Hex.
      destruct Hex as ([x c] & Hxc & Hc). cbn [snd] in Hc. apply Nat.eqb_eq in Hc.
      destruct (HDin x c Hxc) as (p2 & a2 & k2 & j2 & q & b & H1 & H2 & H3 & H4 & H5 & _ & Hc2). assert (q = p) by lia. subst q.
      assert (b = a) by congruence. subst b. rewrite Hn in H5. subst k2. clear - Hs H1 H2.
      assert (Ht : is_sec_name E plan k = true); [|congruence]. unfold is_sec_name. rewrite existsb_exists. exists a2.
      split; [now apply nth_error_In in H1|]. rewrite existsb_exists. exists (k, j2). split; [exact H2|]. cbn. apply String.eqb_refl.
    - exact Hndrem.
    - intros k _. change (y_aux z2) with (y_aux z). rewrite Hz1. reflexivity. }
  match goal with |- context [iterM ?f rem z2] => rewrite (Hreg : iterM f rem z2 = _) end.
  set (y' := fold_left (reg1 E h') rem z2).
  destruct (reg_fold E h' rem z2) as (F1 & F2 & F3 & F4 & F5 & F6 & F7 & F8 & F9 & F10 & F11 & F12 & F13 & F14 & _ & _).
  fold y' in F1, F2, F3, F4, F5, F6, F7, F8, F9, F10, F11, F12, F13, F14.
  exists y', (dset inp "auxiliary samplers" (TDict L')), sels. split; [reflexivity|].
  assert (Haux' : y_aux y' = filter (fun kv => negb (is_lum E h' (snd kv))) rem).
  { rewrite F1. change (y_aux z2) with (y_aux z). now rewrite Hz1. }
  assert (Hnd' : NoDup (dkeys (y_aux y'))). { rewrite Haux'. now apply NoDup_filter_keys. }
  assert (Hin' : forall k i', In (k, i') (y_aux y') <-> exists p a, nth_error plan p = Some a /\ name_of a = k /\ i' = base + p /\
             is_sec_name E plan k = false /\ k_lum (kind_of a) = None).
  { intros k i'. rewrite Haux', filter_In, Hrem. cbn [snd]. split.
    - intros [(p & a & Hp & Hn & -> & Hs) Hl]. exists p, a. rewrite (Hlum p a Hp) in Hl. destruct (k_lum (kind_of a)); [discriminate|]. auto.
    - intros (p & a & Hp & Hn & -> & Hs & Hl). split; [exists p, a; auto|]. rewrite (Hlum p a Hp), Hl. reflexivity. }
  split; [rewrite F3; reflexivity|]. split; [|split; [|split; [|split]]].
  - intros i i' (p & Hpi & ->). destruct (at_plan p i Hpi) as (a & Hpa & Hia & Hr).
    destruct (Hnew' p a Hpa) as (b' & Hb' & (Hst & Hpar & s & s' & Hs1 & Hs2 & Hs3) & Hsec & _).
    exists a, b'. split; [exact Hia|]. split; [rewrite F3; exact Hb'|]. split; [congruence|]. split; [exact Hpar|]. split.
    + exists s, s'. split; [exact Hs1|]. split; [rewrite F3; exact Hs2|exact Hs3].
    + rewrite Hsec. assert (Hall : forall k j, In (k, j) (a_sec (a_ln a)) -> corr base j (at_name auxs k)).
      { intros k j Hkj. destruct (Hsecs p a k j Hpa Hkj) as (q & b & Hq1 & Hq2 & <-). exists q. split; [exact Hq1|]. now apply Hat. }
      clear - Hall. induction (a_sec (a_ln a)) as [|[k j] d IH]; cbn; constructor.
      * cbn. split; [reflexivity|]. apply Hall. now left.
      * apply IH. intros k' j' H. apply Hall. now right.
  - intros k. destruct (dget (y_aux y) k) as [i|] eqn:Hk.
    + apply dget_In in Hk. destruct (sv_keys Hy _ _ Hk) as (a & Ha & Hn & Hl). subst k.
      assert (Hr : reach y i) by (eapply reach_top; eauto).
      destruct (in_plan _ _ Hr Ha) as (p & Hp1 & Hp2). assert (Hd : dget (y_aux y') (name_of a) = Some (base + p)).
      { apply In_dget; [exact Hnd'|]. apply Hin'. exists p, a. repeat split; auto. now apply (top_iff i a Hr Ha Hl). }
      rewrite Hd. exists p. auto.
    + destruct (dget (y_aux y') k) as [i'|] eqn:Hk'; [|exact I]. exfalso. apply dget_In, Hin' in Hk'.
      destruct Hk' as (p & a & Hp & Hn & -> & Hs & Hl). destruct (at_ids p a Hp) as (i & Hi & Hia & Hr). subst k.
      apply (top_iff i a Hr Hia Hl) in Hs. apply (In_dget _ _ _ (sv_nodup Hy)) in Hs. congruence.
  - rewrite F2. change (y_der z2) with (y_der z). rewrite Hz2. destruct (y_der y) as [i|] eqn:Hd.
    + assert (Hr : reach y i) by now apply reach_der. destruct (sv_aux Hy Hr) as (a & Ha & _).
      destruct (sv_der Hy Hd Ha) as [Hl _]. destruct (in_plan _ _ Hr Ha) as (p & Hp1 & Hp2).
      rewrite (fold_der h' rem (base + p)).
      * assert (Hex : existsb (fun kv => is_lum E h' (snd kv)) rem = true).
        { rewrite existsb_exists. exists (name_of a, base + p). split.
          - apply Hrem. exists p, a. repeat split; auto. now apply (der_iff i a Hr Ha Hl).
          - cbn. rewrite (Hlum p a Hp2). now destruct (k_lum (kind_of a)). }
        rewrite Hex. exists p. auto.
      * intros k j Hkj Hlj. apply Hrem in Hkj. destruct Hkj as (q & b & Hq & Hn & -> & Hs). rewrite (Hlum q b Hq) in Hlj.
        destruct (at_ids q b Hq) as (ib & Hib & Hibb & Hrb). subst k. assert (Hlb : k_lum (kind_of b) <> None) by now destruct (k_lum (kind_of b)).
        apply (der_iff ib b Hrb Hibb Hlb) in Hs. assert (ib = i) by congruence. subst ib. f_equal. now apply (ids_inj q p i).
    + rewrite (fold_der h' rem 0).
      * destruct (existsb _ rem) eqn:Hex; [|exact I]. exfalso. rewrite existsb_exists in Hex. destruct Hex as ([k j] & Hkj & Hlj).
        cbn [snd] in Hlj. apply Hrem in Hkj. destruct Hkj as (q & b & Hq & Hn & -> & Hs). rewrite (Hlum q b Hq) in Hlj.
        destruct (at_ids q b Hq) as (ib & Hib & Hibb & Hrb). subst k. assert (Hlb : k_lum (kind_of b) <> None) by now destruct (k_lum (kind_of b)).
        apply (der_iff ib b Hrb Hibb Hlb) in Hs. congruence.
      * intros k j Hkj Hlj. exfalso. apply Hrem in Hkj. destruct Hkj as (q & b & Hq & Hn & -> & Hs). rewrite (Hlum q b Hq) in Hlj.
        destruct (at_ids q b Hq) as (ib & Hib & Hibb & Hrb). subst k. assert (Hlb : k_lum (kind_of b) <> None) by now destruct (k_lum (kind_of b)).
        apply (der_iff ib b Hrb Hibb Hlb) in Hs. congruence.
  - rewrite Haux'. unfold rem, auxs.
    assert (Hgen : forall l b, (forall p a, nth_error l p = Some a -> exists q, nth_error plan q = Some a /\ b + p = base + q) ->
      dkeys (filter (fun kv => negb (is_lum E h' (snd kv))) (filter (fun kv => negb (is_sec_name E plan (fst kv))) (indexed E l b))) =
      filter (fun k => dmem (y_aux y) k) (map (@name_of E) l)).
    { induction l as [|a l IH]; intros b Hpl; [reflexivity|]. cbn [indexed map filter fst].
      assert (IH' := IH (S b)). rewrite <- IH'; clear IH IH'.
      2:{ intros p a' Hp. destruct (Hpl (S p) a' Hp) as (q & Hq1 & Hq2). exists q. split; [exact Hq1|lia]. }
      destruct (Hpl 0 a eq_refl) as (q & Hq1 & Hq2). rewrite Nat.add_0_r in Hq2. subst b.
      destruct (at_ids q a Hq1) as (i & Hi & Hia & Hr).
      assert (Hdm : dmem (y_aux y) (name_of a) = negb (is_sec_name E plan (name_of a)) && negb (is_lum E h' (base + q))).
      { rewrite (Hlum q a Hq1). destruct (k_lum (kind_of a)) eqn:Hl.
        - rewrite Bool.andb_false_r. unfold dmem. destruct (dget (y_aux y) (name_of a)) as [i2|] eqn:Hd; [|reflexivity].
          apply dget_In in Hd. destruct (sv_keys Hy _ _ Hd) as (a2 & Ha2 & Hn2 & Hl2).
          assert (i2 = i). { apply (sv_names Hy (reach_top _ _ _ Hd) Hr Ha2 Hia Hn2). } subst i2. congruence.
        - rewrite Bool.andb_true_r. unfold dmem. destruct (is_sec_name E plan (name_of a)) eqn:Hs; cbn [negb].
          + destruct (dget (y_aux y) (name_of a)) as [i2|] eqn:Hd; [|reflexivity]. exfalso.
            apply dget_In in Hd. destruct (sv_keys Hy _ _ Hd) as (a2 & Ha2 & Hn2 & Hl2).
            assert (i2 = i). { apply (sv_names Hy (reach_top _ _ _ Hd) Hr Ha2 Hia Hn2). } subst i2.
            apply (top_iff i a Hr Hia Hl) in Hd. congruence.
          + apply (top_iff i a Hr Hia Hl) in Hs. apply (In_dget _ _ _ (sv_nodup Hy)) in Hs. now rewrite Hs. }
      rewrite Hdm. destruct (is_sec_name E plan (name_of a)); cbn [negb andb]; [reflexivity|].
      cbn [filter snd]. destruct (is_lum E h' (base + q)); reflexivity. }
    apply Hgen. intros p a Hp. exists p. auto.
  - change (y_sp z2) with (y_sp z) in F4. change (y_spm z2) with (y_spm z) in F5. change (y_lum z2) with (y_lum z) in F6.
    change (y_lumm z2) with (y_lumm z) in F7. change (y_seed z2) with (y_seed z) in F8. change (y_name z2) with (y_name z) in F9.
    change (y_flux z2) with (y_flux z) in F10. change (y_fluxset z2) with (y_fluxset z) in F11. change (y_dsel z2) with (y_dsel z) in F12.
    change (y_dset z2) with (y_dset z) in F13. change (y_ssel z2) with (y_ssel z) in F14. auto 20.
Qed.
End L.
