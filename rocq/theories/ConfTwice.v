(** What [from_dict] does to its input, and saving what was loaded. *)
From Verif Require Import Base BaseFacts Env ParamModel SelModel DistModel AuxModel SynthModel Tree ConfModel ConfSpec ConfProofs ConfLink ConfLoad ConfRead ConfSave.
Open Scope string_scope.

Section T.
Variable E : env.
Notation V := (V E).
Notation synth := (synth E).
Notation sampler := (sampler E).
Notation world := (world E).
Notation tree := (tree V).
Variable rg : registry E.

(** ** The first part reads the input only *)
Definition agree (inp inp' : dict tree) : Prop := forall k, k <> "auxiliary samplers" -> dget inp k = dget inp' k.
Lemma agree_dset inp t : agree inp (dset inp "auxiliary samplers" t).
Proof. intros k N. rewrite dget_dset. apply String.eqb_neq in N. now rewrite N. Qed.

Lemma load_base_agree w w' inp inp' y0 : agree inp inp' -> load_base rg w inp = Ok y0 -> exists y0', load_base rg w' inp' = Ok y0'.
Proof.
  intros A. unfold load_base, load_lum, load_sp. rewrite <- !A by discriminate.
  match goal with |- context [rbind ?X _ = Ok _] => destruct X as [lum|]; [|discriminate] end. cbn [rbind].
  match goal with |- context [rbind ?X _ = Ok _] => destruct X as [sp|]; [|discriminate] end. cbn [rbind].
  match goal with |- context [rbind ?X _ = Ok _] => destruct X as [sd|]; [|discriminate] end. cbn [rbind].
  destruct sd; try discriminate. destruct sp; [|discriminate]. destruct lum as [[|]|]; eauto; discriminate.
Qed.
Lemma load_one_agree inp inp' key fl di ob f z z' z1 : agree inp inp' -> key <> "auxiliary samplers" ->
  load_one E rg inp key fl di ob f z = (Ok tt, z1) -> exists z1', load_one E rg inp' key fl di ob f z' = (Ok tt, z1').
Proof.
  intros A N. unfold load_one, selection_of. rewrite <- A by exact N. match goal with |- match ?X with _ => _ end z = _ -> _ => destruct X as [t|] end; [|intros _; exists z'; reflexivity].
  unfold bind, lift. destruct (load_sel rg true t); [|discriminate]. intros _. unfold alloc_sel, modify. eexists. reflexivity.
Qed.
Lemma sels_agree inp inp' z z' z1 : agree inp inp' ->
  (load_flux rg inp ;; load_distance rg inp ;; load_spatial rg inp) z = (Ok tt, z1) ->
  exists z1', (load_flux rg inp' ;; load_distance rg inp' ;; load_spatial rg inp') z' = (Ok tt, z1').
Proof.
  intros A. rewrite !load_flux_one, !load_dist_one. unfold bind.
  destruct (load_one E rg inp "flux selection" _ _ _ _ z) as [[[]|] z2] eqn:H1; [|discriminate].
  destruct (fun N => load_one_agree _ inp' _ _ _ _ _ _ z' _ A N H1) as (z2' & H1'); [discriminate|]. rewrite H1'.
  destruct (load_one E rg inp "distance selection" _ _ _ _ z2) as [[[]|] z3] eqn:H2; [|discriminate].
  destruct (fun N => load_one_agree _ inp' _ _ _ _ _ _ z2' _ A N H2) as (z3' & H2'); [discriminate|]. rewrite H2'.
  rewrite !load_spatial_one. intros H3. eapply load_one_agree; eauto. discriminate.
Qed.

(** ** Samplers' entries *)
Definition popped (kv kv' : string * tree) : Prop :=
  fst kv = fst kv' /\ exists e e', snd kv = TDict e /\ snd kv' = TDict e' /\
    dget e "type" <> None /\ dget e "observed" <> None /\
    e' = ddel (ddel (ddel (ddel (ddel e "type") "observed") "selection") "secondary") "init variables".
Lemma ddel_none {A} (d : dict A) k : dget d k = None -> ddel d k = d.
Proof.
  induction d as [|[k' v] d IH]; cbn [dget ddel]; [reflexivity|]. destruct (String.eqb k k'); [discriminate|].
  intros H. now rewrite IH.
Qed.
Lemma pop_if_eq k (d : dict tree) : pop_if E k d = (Ok (dget d k), ddel d k).
Proof. unfold pop_if. destruct (dget d k) eqn:H; [reflexivity|]. now rewrite ddel_none. Qed.
Lemma split_popped (e d' : dict tree) s : split_entry E e = (Ok s, d') ->
  dget e "type" <> None /\ dget e "observed" <> None /\
  d' = ddel (ddel (ddel (ddel (ddel e "type") "observed") "selection") "secondary") "init variables".
Proof.
  unfold split_entry, bind, get, ret. unfold pop at 1. destruct (dget e "type") as [ty|] eqn:H1; [|discriminate].
  unfold pop at 1. destruct (dget (ddel e "type") "observed") as [ob|] eqn:H2; [|discriminate].
  rewrite !pop_if_eq. intros [= _ <-]. rewrite dget_ddel_neq in H2 by discriminate. rewrite H2. repeat split; discriminate.
Qed.
Lemma gather_popped L : forall acc z acc' z' L', gather rg L acc z = (Ok acc', z', L') -> Forall2 popped L L'.
Proof.
  induction L as [|[nm t] L IH]; intros acc z acc' z' L'; cbn [gather].
  - intros [= <- <- <-]. constructor.
  - destruct t as [| | | | | | | | |e]; try discriminate. destruct (split_entry E e) as [[s|] d'] eqn:Hs; [|discriminate].
    destruct (gather1 rg nm s acc z) as [[acc1|] z1]; [|discriminate].
    destruct (gather rg L acc1 z1) as [[x z2] r'] eqn:Hg. intros H. injection H as H1 H2 H3. subst. constructor; [|now apply (IH acc1 z1 acc' z')].
    split; [reflexivity|]. exists e, d'. split; [reflexivity|]. split; [reflexivity|]. now apply split_popped in Hs.
Qed.

(** ** The input after a successful call *)
Theorem from_dict_input w inp y inp' : from_dict rg w inp = (Ok y, inp') ->
  match dget inp "auxiliary samplers" with
  | None => inp' = inp
  | Some t => exists L L', t = TDict L /\ inp' = dset inp "auxiliary samplers" (TDict L') /\ Forall2 popped L L'
  end.
Proof.
  unfold from_dict. destruct (load_base rg w inp) as [y0|]; [|discriminate].
  destruct ((_ ;; _ ;; _) y0) as [[u|] y1]; [|discriminate]. unfold load_aux.
  destruct (dget inp "auxiliary samplers") as [t|]; [|now intros [= _ <-]].
  destruct t as [| | | | | | | | |L]; try discriminate. cbn [items].
  destruct (gather rg L ([], []) y1) as [[x z] L'] eqn:Hg. intros H. injection H as H1 H2.
  destruct x as [acc|]; [|discriminate]. exists L, L'. split; [reflexivity|]. split; [now subst|]. now apply gather_popped in Hg.
Qed.
Lemma dset_same {A} (d : dict A) k v : dget d k = Some v -> dset d k v = d.
Proof.
  induction d as [|[k' v'] d IH]; cbn [dget dset]; [discriminate|]. destruct (String.eqb_spec k k') as [->|N].
  - now intros [= ->].
  - intros H. now rewrite IH.
Qed.
Theorem from_dict_no_samplers w inp y inp' : from_dict rg w inp = (Ok y, inp') ->
  dget inp "auxiliary samplers" = None \/ dget inp "auxiliary samplers" = Some (TDict []) -> inp' = inp.
Proof.
  intros H [N|N]; apply from_dict_input in H; rewrite N in H; [exact H|].
  destruct H as (L & L' & [= <-] & -> & F). inversion F; subst. now apply dset_same.
Qed.

(** In terms of keys. *)
Definition entries_proper (L : dict tree) : Prop := forall k e, In (k, TDict e) L -> NoDup (dkeys e).
Lemma popped_emptied L L' : entries_proper L -> Forall2 popped L L' -> Forall2 (emptied E) L L'.
Proof.
  intros P F. induction F as [|[k t] [k' t'] L L' (H1 & e & e' & H2 & H3 & _ & _ & H4) F IH]; constructor.
  - cbn [fst snd] in *. subst. split; [reflexivity|]. exists e, (ddel (ddel (ddel (ddel (ddel e "type") "observed") "selection") "secondary") "init variables").
    split; [reflexivity|]. split; [reflexivity|]. assert (N := P k' e (or_introl eq_refl)). intros k. unfold reserved. cbn [existsb].
    destruct (String.eqb_spec k "type") as [->|N1]; [cbn [orb]; rewrite !(dget_ddel_neq _ _ "type") by discriminate; now apply dget_ddel_eq|].
    destruct (String.eqb_spec k "observed") as [->|N2]; [cbn [orb]; rewrite !(dget_ddel_neq _ _ "observed") by discriminate; now apply dget_ddel_eq, NoDup_ddel|].
    destruct (String.eqb_spec k "selection") as [->|N3]; [cbn [orb]; rewrite !(dget_ddel_neq _ _ "selection") by discriminate; now apply dget_ddel_eq, NoDup_ddel, NoDup_ddel|].
    destruct (String.eqb_spec k "secondary") as [->|N4]; [cbn [orb]; rewrite !(dget_ddel_neq _ _ "secondary") by discriminate; now apply dget_ddel_eq, NoDup_ddel, NoDup_ddel, NoDup_ddel|].
    destruct (String.eqb_spec k "init variables") as [->|N5]; [cbn [orb]; now apply dget_ddel_eq, NoDup_ddel, NoDup_ddel, NoDup_ddel, NoDup_ddel|].
    cbn [orb]. now rewrite !dget_ddel_neq by assumption.
  - apply IH. intros k2 e2 H. apply (P k2 e2). now right.
Qed.

(** ** The second call *)
Theorem from_dict_again w w' inp y inp' nm e l : from_dict rg w inp = (Ok y, inp') ->
  dget inp "auxiliary samplers" = Some (TDict ((nm, TDict e) :: l)) -> NoDup (dkeys e) ->
  fst (from_dict rg w' inp') = Err KeyError.
Proof.
  intros H Hx Nd. assert (H' := from_dict_input _ _ _ _ H). rewrite Hx in H'. destruct H' as (L & L' & [= <-] & -> & F).
  inversion F as [|? [nm' t'] ? L2 Hp F']; subst. destruct Hp as (Hp1 & e0 & e' & Hp2 & Hp3 & _ & _ & Hp4).
  cbn [fst snd] in *. injection Hp2 as <-. subst nm' t' e'. clear F F'.
  unfold from_dict in *. destruct (load_base rg w inp) as [y0|] eqn:Hb; [|discriminate].
  set (e' := ddel (ddel (ddel (ddel (ddel e "type") "observed") "selection") "secondary") "init variables") in *.
  set (inp' := dset inp "auxiliary samplers" (TDict ((nm, TDict e') :: L2))) in *.
  assert (A : agree inp inp') by apply agree_dset.
  destruct (load_base_agree w w' inp inp' y0 A Hb) as (y0' & ->).
  match type of H with context [match ?m y0 with _ => _ end] => destruct (m y0) as [[[]|] y1] eqn:Hs; [|discriminate] end.
  destruct (sels_agree inp inp' y0 y0' y1 A Hs) as (y1' & Hs').
  match goal with |- context [bind ?m ?f y0'] => rewrite (Hs' : bind m f y0' = _) end.
  unfold load_aux. unfold inp'. rewrite dget_dset, String.eqb_refl. cbn [items gather].
  assert (Ht : dget e' "type" = None). { unfold e'. rewrite !dget_ddel_neq by discriminate. now apply dget_ddel_eq. }
  assert (Hsp : split_entry E e' = (Err KeyError, e')).
  { unfold split_entry, bind. unfold pop at 1. now rewrite Ht. }
  rewrite Hsp. reflexivity.
Qed.

(** ** Saving what was loaded *)
Section Save.
Variables y y' : synth.
Hypothesis Hs : same_synth eq y y'.
Hypothesis Hk : dkeys (y_aux y') = dkeys (y_aux y).

Lemma sel_entry_same i i' : same_selector_at eq y y' i i' -> selection_entry (y_w y) i = selection_entry (y_w y') i'.
Proof.
  intros (s & s' & H1 & H2 & [T _ P _]). unfold selection_entry, sel_parameters. rewrite H1, H2. cbn [of_opt rbind]. now rewrite T, P.
Qed.
Lemma entry_same (R : nat -> nat -> Prop) ty i i' a a' : same_sampler_at eq R y y' i i' -> nth_error (w_auxs (y_w y)) i = Some a -> nth_error (w_auxs (y_w y')) i' = Some a' ->
  conf_entry ty (w_sels (y_w y)) a = conf_entry ty (w_sels (y_w y')) a'.
Proof.
  intros (a0 & a0' & H1 & H2 & St & P & (s & s' & S1 & S2 & [T _ SP _]) & F) Ha Ha'. assert (a0 = a) by congruence. assert (a0' = a') by congruence. subst a0 a0'.
  unfold conf_entry, sel_parameters. rewrite S1, S2. cbn [of_opt rbind]. rewrite St, P, T, SP.
  replace (map (fun kv => TStr (fst kv)) (a_sec (a_ln a)) : list tree) with (map (fun kv => TStr (fst kv)) (a_sec (a_ln a')) : list tree); [reflexivity|].
  clear - F. induction F as [|kv kv' l l' [H _] _ IH]; cbn; [reflexivity|]. now rewrite H, IH.
Qed.
Lemma objects_same (R : nat -> nat -> Prop) n : (forall i i', R i i' -> same_sampler_at eq R y y' i i') -> forall i i' acc, R i i' ->
  sec_objects n (y_w y) i acc = sec_objects n (y_w y') i' acc.
Proof.
  intros HR. induction n as [|n IH]; intros i i' acc Hi; [reflexivity|]. rewrite !sec_objects_S.
  assert (Hsa := HR _ _ Hi). destruct Hsa as (a & a' & H1 & H2 & St & P & Sl & F). rewrite H1, H2. cbn [of_opt rbind].
  assert (Hg : forall l l' acc, Forall2 (fun kv kv' => fst kv = fst kv' /\ R (snd kv) (snd kv')) l l' -> objs E n (y_w y) l acc = objs E n (y_w y') l' acc).
  { clear - IH. intros l l' acc F. revert acc. induction F as [|[k j] [k' j'] l l' [_ H] _ IHF]; intros acc; [reflexivity|].
    rewrite !objs_cons. cbn [snd] in H. rewrite (IH j j' acc H). destruct (sec_objects n (y_w y') j' acc); [apply IHF|reflexivity]. }
  rewrite (Hg _ _ acc F). destruct (objs E n (y_w y') (a_sec (a_ln a')) acc); [|reflexivity]. cbn [rbind].
  rewrite (entry_same R _ i i' a a') by auto. unfold name_of. now rewrite St.
Qed.
Lemma conf_top_same (R : nat -> nat -> Prop) rl k ty i i' acc : (forall i i', R i i' -> same_sampler_at eq R y y' i i') -> R i i' ->
  conf_top rl (y_w y) k ty i acc = conf_top rl (y_w y') k ty i' acc.
Proof.
  intros HR Hi. unfold conf_top. assert (Hsa := HR _ _ Hi). destruct Hsa as (a & a' & H1 & H2 & St & P & Sl & F). rewrite H1, H2. cbn [of_opt rbind].
  rewrite (entry_same R ty i i' a a') by auto. destruct (conf_entry ty (w_sels (y_w y')) a'); [|reflexivity]. cbn [rbind].
  rewrite (objects_same R rl HR i i' _ Hi). destruct F; reflexivity.
Qed.
Lemma pairs_same (R : nat -> nat -> Prop) : forall (d d' : dict nat), NoDup (dkeys d) -> dkeys d' = dkeys d -> (forall k, same_opt R (dget d k) (dget d' k)) ->
  Forall2 (fun kv kv' => fst kv = fst kv' /\ R (snd kv) (snd kv')) d d'.
Proof.
  induction d as [|[k i] d IH]; intros [|[k' i'] d'] Nd Hd Hg; try discriminate; [constructor|]. cbn in Hd. injection Hd as -> Hd.
  cbn in Nd. inversion Nd as [|? ? Hni Nd']; subst. constructor.
  - split; [reflexivity|]. specialize (Hg k). cbn [dget] in Hg. rewrite String.eqb_refl in Hg. exact Hg.
  - apply IH; [exact Nd'|exact Hd|]. intros k2. specialize (Hg k2). cbn [dget] in Hg. destruct (String.eqb_spec k2 k) as [Heq|]; [|exact Hg]. subst k2.
    rewrite (proj2 (dget_None d k)) by exact Hni. rewrite (proj2 (dget_None d' k)) by (unfold dkeys in *; now rewrite Hd). exact I.
Qed.
Lemma tops_same (R : nat -> nat -> Prop) rl : (forall i i', R i i' -> same_sampler_at eq R y y' i i') -> forall d d', 
  Forall2 (fun kv kv' => fst kv = fst kv' /\ R (snd kv) (snd kv')) d d' -> forall acc, tops E rl (y_w y) d acc = tops E rl (y_w y') d' acc.
Proof.
  intros HR d d' F. induction F as [|[k i] [k' i'] d d' [H1 H2] _ IH]; intros acc; [reflexivity|]. cbn [fst snd] in H1, H2. subst k'.
  rewrite !tops_cons. assert (Hsa := HR _ _ H2). destruct Hsa as (a & a' & A1 & A2 & St & _). rewrite A1, A2. cbn [of_opt rbind].
  rewrite St, (conf_top_same R rl k _ i i' acc HR H2). destruct (conf_top _ _ _ _ _ acc); [apply IH|reflexivity].
Qed.
Theorem save_same rl : NoDup (dkeys (y_aux y)) -> to_dict rl y' = to_dict rl y.
Proof.
  intros Nd. destruct Hs as [S1 S2 (S3 & S4 & S5) S6 S7 S8 S9 S10 S11 S12 (R & R1 & R2 & R3 & R4 & R5)].
  symmetry. unfold to_dict. cbv zeta. rewrite S1, S5, S6, S8, S10.
  assert (Hl : forall X : dict tree, match y_lum y with None => X | Some l => (X ++ [("luminosity distribution", TDict [(m_type (y_lumm y), tdict (truth (ld_par l)))])])%list end =
               match y_lum y' with None => X | Some l => (X ++ [("luminosity distribution", TDict [(m_type (y_lumm y'), tdict (truth (ld_par l)))])])%list end).
  { intros X. destruct (y_lum y), (y_lum y'); cbn in S7; try easy. destruct S7 as (_ & _ & H1 & H2). now rewrite H1, H2. }
  rewrite Hl.
  assert (Hf : y_fluxset y' = true -> selection_entry (y_w y) (y_flux y) = selection_entry (y_w y') (y_flux y')).
  { intros F. apply sel_entry_same, S9. congruence. }
  assert (Hd : y_dset y' = true -> selection_entry (y_w y) (y_dsel y) = selection_entry (y_w y') (y_dsel y')).
  { intros F. apply sel_entry_same, S11. congruence. }
  assert (Hss : forall X : dict tree, match y_ssel y with None => Ok X | Some i => rmap (fun t => X ++ [("spatial selection", t)])%list (selection_entry (y_w y) i) end =
      match y_ssel y' with None => Ok X | Some i => rmap (fun t => X ++ [("spatial selection", t)])%list (selection_entry (y_w y') i) end).
  { intros X. destruct (y_ssel y) as [i|], (y_ssel y') as [i'|]; cbn in S12; try easy. now rewrite (sel_entry_same i i'). }
  assert (Ht : tops E rl (y_w y) (y_aux y) [] = tops E rl (y_w y') (y_aux y') []).
  { apply (tops_same R rl R1). apply pairs_same; auto. }
  match goal with |- rbind ?A _ = rbind ?B _ => assert (HA : A = B) by (destruct (y_fluxset y'); [now rewrite Hf|reflexivity]); rewrite HA; destruct B as [o2|]; [|reflexivity] end.
  cbn [rbind].
  match goal with |- rbind ?A _ = rbind ?B _ => assert (HB : A = B) by (destruct (y_dset y'); [now rewrite Hd|reflexivity]); rewrite HB; destruct B as [o3|]; [|reflexivity] end.
  cbn [rbind].
  match goal with |- rbind ?A _ = rbind ?B _ => assert (HC : A = B) by exact (Hss _); rewrite HC; destruct B as [o4|]; [|reflexivity] end. cbn [rbind].
  match goal with |- rbind ?A _ = rbind ?B _ => change A with (tops E rl (y_w y) (y_aux y) []); change B with (tops E rl (y_w y') (y_aux y') []) end.
  rewrite Ht. destruct (tops E rl (y_w y') (y_aux y') []) as [a1|]; [|reflexivity]. cbn [rbind].
  destruct (y_der y) as [i|], (y_der y') as [i'|]; cbn in R5; try easy.
  assert (Hsa := R1 _ _ R5). destruct Hsa as (a & a' & A1 & A2 & St & _). rewrite A1, A2. cbn [of_opt rbind].
  unfold name_of. rewrite St. now rewrite (conf_top_same R rl _ _ i i' a1 R1 R5).
Qed.
End Save.
End T.
