(** Linking secondaries and registering the rest. *)
From Verif Require Import Base BaseFacts Env ParamModel SelModel DistModel AuxModel SynthModel Tree ConfModel ConfSpec ConfProofs.
Open Scope string_scope.

Section K.
Variable E : env.
Notation V := (V E).
Notation synth := (synth E).
Notation sampler := (sampler E).
Notation world := (world E).

Definition run_links (D : list (nat * nat)) : AM E unit := iterM (fun pc => set_secondary (E := E) (fst pc) (snd pc)) D.
Definition children (D : list (nat * nat)) (j : nat) : list nat := map snd (filter (fun pc => Nat.eqb (fst pc) j) D).
Definition sets (nm : nat -> string) (cs : list nat) (d : dict nat) : dict nat := fold_left (fun d c => dset d (nm c) c) cs d.
Definition linked (nm : nat -> string) (D : list (nat * nat)) (h h' : list sampler) : Prop :=
  length h' = length h /\
  forall j b, nth_error h j = Some b -> exists b', nth_error h' j = Some b' /\
    a_st b' = a_st b /\ a_dy b' = a_dy b /\ a_sel (a_ln b') = a_sel (a_ln b) /\
    a_sec (a_ln b') = sets nm (children D j) (a_sec (a_ln b)) /\
    a_issec (a_ln b') = a_issec (a_ln b) || existsb (fun pc => Nat.eqb (snd pc) j) D.
Definition names_are (nm : nat -> string) (h : list sampler) : Prop := forall c b, nth_error h c = Some b -> nm c = name_of b.

Lemma linked_names nm D h h' : linked nm D h h' -> names_are nm h -> names_are nm h'.
Proof.
  intros [Hl H] Hn c b' Hb'. destruct (nth_error h c) as [b|] eqn:Hb.
  - destruct (H c b Hb) as (b2 & Hb2 & Hst & _). rewrite Hb' in Hb2. injection Hb2 as <-.
    unfold name_of. rewrite Hst. now apply Hn.
  - apply nth_error_None in Hb. assert (c < length h') by (apply nth_error_Some; congruence). lia.
Qed.
Lemma linked_nil nm h : linked nm [] h h.
Proof. split; [reflexivity|]. intros j b Hb. exists b. cbn. rewrite Bool.orb_false_r. auto 10. Qed.
Lemma linked_trans nm D1 D2 h h1 h2 : linked nm D1 h h1 -> linked nm D2 h1 h2 -> linked nm (D1 ++ D2) h h2.
Proof.
  intros [L1 H1] [L2 H2]. split; [congruence|]. intros j b Hb.
  destruct (H1 j b Hb) as (b1 & Hb1 & S1 & Y1 & E1 & C1 & I1). destruct (H2 j b1 Hb1) as (b2 & Hb2 & S2 & Y2 & E2 & C2 & I2).
  exists b2. split; [exact Hb2|]. split; [congruence|]. split; [congruence|]. split; [congruence|]. split.
  - rewrite C2, C1. unfold sets, children. now rewrite filter_app, map_app, fold_left_app.
  - rewrite I2, I1, existsb_app. now rewrite Bool.orb_assoc.
Qed.
Lemma set_secondary_ok nm p c (w : world) : p < length (w_auxs w) -> c < length (w_auxs w) -> names_are nm (w_auxs w) ->
  exists h', set_secondary p c w = (Ok tt, w_set_auxs h' w) /\ linked nm [(p, c)] (w_auxs w) h'.
Proof.
  intros Hp Hc Hn.
  destruct (nth_error (w_auxs w) p) as [a|] eqn:Ha; [|apply nth_error_None in Ha; lia].
  destruct (nth_error (w_auxs w) c) as [b|] eqn:Hb; [|apply nth_error_None in Hb; lia].
  unfold set_secondary, bind, get_aux, put_aux, modify. rewrite Ha, Hb. cbn [of_opt w_auxs w_set_auxs].
  destruct (Nat.eq_dec c p) as [<-|N].
  - rewrite nth_lset_eq by lia. cbn [of_opt].
    rewrite Ha in Hb. injection Hb as <-. eexists. split; [reflexivity|]. split; [now rewrite !lset_length|].
    intros j x Hx. destruct (Nat.eq_dec c j) as [<-|Nj].
    + rewrite nth_lset_eq by (rewrite lset_length; lia).
      rewrite Ha in Hx. injection Hx as <-. eexists. split; [reflexivity|]. unfold children. cbn. rewrite Nat.eqb_refl. cbn. rewrite Bool.orb_true_r.
      rewrite (Hn c a Ha). auto 10.
    + rewrite !nth_lset_neq by congruence. exists x. split; [exact Hx|].
      assert (Hcj : Nat.eqb c j = false) by now apply Nat.eqb_neq. unfold children. cbn. rewrite Hcj. cbn. rewrite Bool.orb_false_r. auto 10.
  - rewrite nth_lset_neq by congruence. rewrite Ha. cbn [of_opt]. eexists. split; [reflexivity|]. split; [now rewrite !lset_length|].
    intros j x Hx. unfold children. cbn [filter fst snd map existsb].
    destruct (Nat.eq_dec p j) as [<-|Nj].
    + rewrite nth_lset_eq by (rewrite lset_length; lia). rewrite Nat.eqb_refl. cbn [map snd].
      rewrite Ha in Hx. injection Hx as <-. eexists. split; [reflexivity|]. cbn.
      assert (Hcp : Nat.eqb c p = false) by now apply Nat.eqb_neq. rewrite Hcp. cbn. rewrite Bool.orb_false_r, (Hn c b Hb). auto 10.
    + assert (Hpj : Nat.eqb p j = false) by now apply Nat.eqb_neq. rewrite Hpj. rewrite nth_lset_neq by congruence.
      destruct (Nat.eq_dec c j) as [<-|Nc].
      * rewrite nth_lset_eq by lia. rewrite Nat.eqb_refl.
        rewrite Hb in Hx. injection Hx as <-. eexists. split; [reflexivity|]. cbn. rewrite Bool.orb_true_r. auto 10.
      * assert (Hcj : Nat.eqb c j = false) by now apply Nat.eqb_neq. rewrite Hcj. rewrite nth_lset_neq by congruence.
        exists x. split; [exact Hx|]. cbn. rewrite Bool.orb_false_r. auto 10.
Qed.
Lemma run_links_ok nm D : forall (w : world), (forall p c, In (p, c) D -> p < length (w_auxs w) /\ c < length (w_auxs w)) ->
  names_are nm (w_auxs w) -> exists h', run_links D w = (Ok tt, w_set_auxs h' w) /\ linked nm D (w_auxs w) h'.
Proof.
  induction D as [|[p c] D IH]; intros w Hin Hn.
  - exists (w_auxs w). split; [|apply linked_nil]. cbn. now destruct w.
  - destruct (Hin p c (or_introl eq_refl)) as [Hp Hc].
    destruct (set_secondary_ok nm p c w Hp Hc Hn) as (h1 & H1 & L1).
    destruct (IH (w_set_auxs h1 w)) as (h2 & H2 & L2).
    { intros p' c' H. cbn. destruct L1 as [-> _]. now apply Hin; right. }
    { cbn. now apply (linked_names _ _ _ _ L1). }
    exists h2. split.
    + unfold run_links. cbn [iterM fst snd]. erewrite bind_ok by exact H1. exact H2.
    + exact (linked_trans nm [(p, c)] D _ _ _ L1 L2).
Qed.

(** What the code does is to run links. *)
Definition at_name (auxs : dict nat) (s : string) : nat := match dget auxs s with Some i => i | None => 0 end.
Lemma link1_run auxs p (d : dict nat) : (forall kv, In kv d -> dget auxs (fst kv) <> None) -> forall w,
  link1 (E := E) auxs p (map (fun kv => Some (fst kv)) d) w = run_links (map (fun kv => (p, at_name auxs (fst kv))) d) w.
Proof.
  induction d as [|[s j] d IH]; intros Hin w; cbn [map link1 fst]; [reflexivity|].
  unfold run_links. cbn [iterM fst snd]. unfold bind at 1, lift. unfold at_name at 1.
  destruct (dget auxs s) as [i|] eqn:Hs; [|now elim (Hin (s, j) (or_introl eq_refl))]. cbn [of_opt]. unfold bind.
  destruct (set_secondary p i w) as [[[]|e] w']; [|reflexivity]. apply IH. intros kv H. now apply Hin; right.
Qed.
Definition links_of (auxs : dict nat) (plan : list sampler) : list (nat * nat) :=
  flat_map (fun a => map (fun kv => (at_name auxs (name_of a), at_name auxs (fst kv))) (a_sec (a_ln a))) plan.
Lemma run_links_app D1 D2 (w : world) : run_links (D1 ++ D2)%list w = (run_links D1 ;; run_links D2) w.
Proof.
  revert w. induction D1 as [|pc D1 IH]; intros w; [reflexivity|]. unfold run_links in *. cbn [app iterM]. unfold bind in *.
  destruct (set_secondary (fst pc) (snd pc) w) as [[[]|e] w']; [apply IH|reflexivity].
Qed.
Lemma link_run auxs plan : (forall a, In a plan -> dget auxs (name_of a) <> None /\
    forall kv, In kv (a_sec (a_ln a)) -> dget auxs (fst kv) <> None) -> forall (w : world),
  link (E := E) auxs (sec_table E plan) w = run_links (links_of auxs plan) w.
Proof.
  unfold link. induction plan as [|a plan IH]; intros Hin w; [reflexivity|].
  destruct (Hin a (or_introl eq_refl)) as [Ha Hs]. unfold links_of. cbn [flat_map]. rewrite run_links_app.
  cbn [sec_table map iterM fst snd]. unfold bind at 1 2. unfold lift.
  destruct (dget auxs (name_of a)) as [i|] eqn:Hi; [|contradiction]. cbn [of_opt]. unfold sec_names. rewrite link1_run by exact Hs.
  replace (at_name auxs (name_of a)) with i by (unfold at_name; now rewrite Hi). unfold bind.
  destruct (run_links (map (fun kv : string * nat => (i, at_name auxs (fst kv))) (a_sec (a_ln a))) w) as [[[]|e] w']; [|reflexivity].
  apply IH. intros b H. now apply Hin; right.
Qed.

(** Positions of the new samplers. *)
Lemma dget_indexed plan : NoDup (map (@name_of E) plan) -> forall base k i,
  dget (indexed E plan base) k = Some i <-> exists p a, nth_error plan p = Some a /\ name_of a = k /\ i = base + p.
Proof.
  induction plan as [|a plan IH]; intros Hnd base k i; cbn [indexed dget].
  - split; [discriminate|]. intros (p & a & H & _). destruct p; discriminate.
  - cbn [map] in Hnd. inversion Hnd as [|? ? Hni Hnd']; subst. destruct (String.eqb_spec k (name_of a)) as [->|N].
    + split.
      * intros [= <-]. exists 0, a. repeat split. lia.
      * intros (p & a' & H & Hn & ->). destruct p as [|p]; [f_equal; lia|]. cbn in H. apply nth_error_In in H.
        elim Hni. rewrite <- Hn. now apply in_map.
    + rewrite (IH Hnd'). split; intros (p & a' & H & Hn & ->).
      * exists (S p), a'. repeat split; auto. lia.
      * destruct p as [|p]; [cbn in H; injection H as <-; now elim N|]. exists p, a'. repeat split; auto. lia.
Qed.
Lemma keys_indexed plan : forall base, dkeys (indexed E plan base) = map (@name_of E) plan.
Proof. induction plan as [|a plan IH]; intros base; cbn; [reflexivity|]. f_equal. apply IH. Qed.
Lemma at_indexed plan base p a : NoDup (map (@name_of E) plan) -> nth_error plan p = Some a ->
  at_name (indexed E plan base) (name_of a) = base + p.
Proof.
  intros Hnd H. unfold at_name. assert (Hd : dget (indexed E plan base) (name_of a) = Some (base + p)).
  { apply dget_indexed; [exact Hnd|]. exists p, a. auto. }
  now rewrite Hd.
Qed.

(** The secondaries each new sampler ends up with. *)
Lemma children_links auxs plan base : NoDup (map (@name_of E) plan) -> auxs = indexed E plan base -> forall p a,
  nth_error plan p = Some a ->
  children (links_of auxs plan) (base + p) = map (fun kv => at_name auxs (fst kv)) (a_sec (a_ln a)).
Proof.
  intros Hnd ->. set (auxs := indexed E plan base).
  assert (Hat : forall p a, nth_error plan p = Some a -> at_name auxs (name_of a) = base + p) by (intros; now apply at_indexed).
  assert (Hgen : forall l q, (forall p a, nth_error l p = Some a -> nth_error plan (q + p) = Some a) -> forall j,
    children (links_of auxs l) (base + j) =
    match (if (q <=? j)%nat then nth_error l (j - q) else None) with
    | Some a => map (fun kv => at_name auxs (fst kv)) (a_sec (a_ln a)) | None => [] end).
  { induction l as [|a l IH]; intros q Hl j.
    - destruct (q <=? j)%nat; [destruct (j - q)|]; reflexivity.
    - unfold links_of. cbn [flat_map]. unfold children. rewrite filter_app, map_app.
      fold (links_of auxs l). fold (children (links_of auxs l) (base + j)).
      rewrite (IH (S q)) by (intros p b Hb; replace (S q + p) with (q + S p) by lia; now apply Hl).
      assert (Ha : at_name auxs (name_of a) = base + q). { apply Hat. rewrite <- (Nat.add_0_r q). now apply Hl. }
      rewrite Ha. destruct (Nat.eqb_spec q j) as [->|N].
      + replace (S j <=? j)%nat with false by (symmetry; apply Nat.leb_gt; lia). rewrite Nat.leb_refl, Nat.sub_diag. cbn [nth_error].
        rewrite app_nil_r. clear. induction (a_sec (a_ln a)) as [|kv d IH]; cbn; [reflexivity|]. rewrite Nat.eqb_refl. cbn. now rewrite IH.
      + assert (Hnil : map snd (filter (fun pc : nat * nat => Nat.eqb (fst pc) (base + j))
           (map (fun kv : string * nat => (base + q, at_name auxs (fst kv))) (a_sec (a_ln a)))) = []).
        { induction (a_sec (a_ln a)) as [|kv d IHd]; cbn; [reflexivity|].
          replace (Nat.eqb (base + q) (base + j)) with false by (symmetry; apply Nat.eqb_neq; lia). exact IHd. }
        rewrite Hnil. cbn [app]. destruct (Nat.leb_spec q j) as [Hq|Hq].
        * replace (S q <=? j)%nat with true by (symmetry; apply Nat.leb_le; lia).
          replace (j - q) with (S (j - S q)) by lia. reflexivity.
        * replace (S q <=? j)%nat with false by (symmetry; apply Nat.leb_gt; lia). reflexivity. }
  intros p a Hp. rewrite (Hgen plan 0) by (intros p' a' H; exact H). cbn [Nat.leb]. rewrite Nat.sub_0_r, Hp. reflexivity.
Qed.
Lemma sets_fresh nm cs : forall d, NoDup (map nm cs) -> (forall c, In c cs -> dget d (nm c) = None) ->
  sets nm cs d = (d ++ map (fun c => (nm c, c)) cs)%list.
Proof.
  induction cs as [|c cs IH]; intros d Hnd Hf; cbn; [now rewrite app_nil_r|]. cbn in Hnd. inversion Hnd as [|? ? Hni Hnd']; subst.
  rewrite dset_fresh by (apply Hf; now left). fold (sets nm cs (d ++ [(nm c, c)])%list). rewrite IH; [now rewrite <- app_assoc|exact Hnd'|].
  intros c' Hc'. rewrite dget_app. rewrite Hf by now right. cbn [dget].
  destruct (String.eqb_spec (nm c') (nm c)) as [Heq|]; [|reflexivity]. elim Hni. rewrite <- Heq. now apply in_map.
Qed.

(** ** Dropping the secondaries *)
Lemma ddel_filter {A} (d : dict A) k : NoDup (dkeys d) -> ddel d k = filter (fun kv => negb (String.eqb k (fst kv))) d.
Proof.
  induction d as [|[k' v] d IH]; cbn [ddel dkeys map fst filter]; intros H; [reflexivity|]. inversion H as [|? ? Hni Hnd]; subst.
  destruct (String.eqb_spec k k') as [<-|N]; cbn [negb].
  - clear - Hni. induction d as [|[k2 v2] d IH]; cbn; [reflexivity|]. cbn in Hni.
    destruct (String.eqb_spec k k2) as [<-|]; [now elim Hni; left|]. cbn. f_equal. apply IH. tauto.
  - now rewrite IH.
Qed.
Definition is_sec_name (plan : list sampler) (k : string) : bool :=
  existsb (fun a => existsb (fun kv => String.eqb (fst kv) k) (a_sec (a_ln a))) plan.
Lemma NoDup_filter_keys {A} (f : string * A -> bool) (d : dict A) : NoDup (dkeys d) -> NoDup (dkeys (filter f d)).
Proof.
  induction d as [|kv d IH]; cbn; intros H; [constructor|]. inversion H; subst. destruct (f kv); [|auto]. cbn. constructor; [|auto].
  intros Hin. apply H2. unfold dkeys in *. apply in_map_iff in Hin. destruct Hin as (x & Hx & Hin). apply filter_In in Hin.
  rewrite <- Hx. apply in_map. tauto.
Qed.
Lemma drop1_filter (d : dict nat) : forall auxs, NoDup (dkeys auxs) ->
  drop1 auxs (map (fun kv : string * nat => Some (fst kv)) d) =
  filter (fun kv => negb (existsb (fun kv2 => String.eqb (fst kv2) (fst kv)) d)) auxs.
Proof.
  unfold drop1. induction d as [|[k j] d IH]; intros auxs Hnd.
  - cbn. clear. induction auxs as [|x l IH]; cbn; [reflexivity|]. now rewrite <- IH.
  - cbn [map fold_left fst]. rewrite ddel_filter by exact Hnd. rewrite IH by now apply NoDup_filter_keys.
    clear. induction auxs as [|x l IH]; [reflexivity|]. cbn [filter existsb fst].
    destruct (String.eqb k (fst x)); cbn [negb orb]; [exact IH|].
    cbn [filter]. rewrite IH. reflexivity.
Qed.
Lemma drop_filter plan : forall auxs, NoDup (dkeys auxs) ->
  drop auxs (sec_table E plan) = filter (fun kv => negb (is_sec_name plan (fst kv))) auxs.
Proof.
  unfold drop. induction plan as [|a plan IH]; intros auxs Hnd.
  - cbn. clear. induction auxs as [|x l IH]; cbn; [reflexivity|]. now rewrite <- IH.
  - cbn [sec_table map fold_left snd]. unfold sec_names. rewrite drop1_filter by exact Hnd.
    fold (sec_table E plan). rewrite IH by now apply NoDup_filter_keys.
    clear. induction auxs as [|x l IH]; [reflexivity|]. cbn [filter is_sec_name existsb].
    destruct (existsb (fun kv2 : string * nat => String.eqb (fst kv2) (fst x)) (a_sec (a_ln a))); cbn [negb orb]; [exact IH|].
    cbn [filter]. rewrite IH. reflexivity.
Qed.

(** ** Registering *)
Definition is_lum (h : list sampler) (i : nat) : bool :=
  match nth_error h i with Some a => match k_lum (kind_of a) with Some _ => true | None => false end | None => false end.
Definition reg1 (h : list sampler) (z : synth) (kv : string * nat) : synth :=
  if is_lum h (snd kv) then with_der z (Some (snd kv)) else with_aux z (y_aux z ++ [kv])%list.
Lemma register_ok h (l : dict nat) : forall z, w_auxs (y_w z) = h ->
  (forall k i, In (k, i) l -> exists a, nth_error h i = Some a /\ name_of a = k /\ a_issec (a_ln a) = false) ->
  NoDup (dkeys l) -> (forall k, In k (dkeys l) -> dget (y_aux z) k = None) ->
  iterM (fun kv => add_quantity (E := E) (IsSampler (snd kv))) l z = (Ok tt, fold_left (reg1 h) l z).
Proof.
  induction l as [|[k i] l IH]; intros z Hh Hl Hnd Hf; [reflexivity|]. cbn [iterM fold_left fst snd].
  cbn [dkeys map fst] in Hnd. inversion Hnd as [|? ? Hni Hnd']; subst.
  destruct (Hl k i (or_introl eq_refl)) as (a & Ha & Hn & Hs).
  assert (Hadd : add_quantity (E := E) (IsSampler i) z = (Ok tt, reg1 (w_auxs (y_w z)) z (k, i))).
  { unfold add_quantity, bind, in_w, get_aux. rewrite Ha. cbn [of_opt]. unfold reg1, is_lum. cbn [snd]. rewrite Ha.
    replace (with_w z (y_w z)) with z by now destruct z. destruct (k_lum (kind_of a)); [reflexivity|].
    rewrite Hs. cbn [get]. unfold get. unfold dmem. rewrite Hn, (Hf k (or_introl eq_refl)). unfold modify.
    rewrite dset_fresh by (apply Hf; now left). reflexivity. }
  erewrite bind_ok by exact Hadd. apply IH.
  - unfold reg1. destruct (is_lum (w_auxs (y_w z)) (snd (k, i))); reflexivity.
  - intros k' i' H. apply Hl. now right.
  - exact Hnd'.
  - intros k' Hk'. unfold reg1. destruct (is_lum (w_auxs (y_w z)) (snd (k, i))); cbn.
    + apply Hf. now right.
    + rewrite dget_app, Hf by now right. cbn [dget]. destruct (String.eqb_spec k' k) as [->|]; [contradiction|reflexivity].
Qed.
Lemma reg_fold h l : forall z, let z' := fold_left (reg1 h) l z in
  y_aux z' = (y_aux z ++ filter (fun kv => negb (is_lum h (snd kv))) l)%list /\
  y_der z' = fold_left (fun d kv => if is_lum h (snd kv) then Some (snd kv) else d) l (y_der z) /\
  y_w z' = y_w z /\ y_sp z' = y_sp z /\ y_spm z' = y_spm z /\ y_lum z' = y_lum z /\ y_lumm z' = y_lumm z /\ y_seed z' = y_seed z /\
  y_name z' = y_name z /\ y_flux z' = y_flux z /\ y_fluxset z' = y_fluxset z /\ y_dsel z' = y_dsel z /\ y_dset z' = y_dset z /\
  y_ssel z' = y_ssel z /\ y_nmodel z' = y_nmodel z /\ y_spaces z' = y_spaces z.
Proof.
  induction l as [|[k i] l IH]; intros z; cbn [fold_left filter snd].
  - cbn. rewrite app_nil_r. auto 20.
  - specialize (IH (reg1 h z (k, i))). cbn in IH. cbn. decompose [and] IH. clear IH.
    unfold reg1 in *. cbn [snd] in *. destruct (is_lum h i); cbn in *.
    + auto 20.
    + rewrite <- app_assoc in *. auto 20.
Qed.
End K.
