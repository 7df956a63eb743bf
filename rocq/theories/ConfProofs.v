(** Lemmas on saving and loading. *)
From Verif Require Import Base BaseFacts Env ParamModel SelModel DistModel AuxModel SynthModel Tree ConfModel ConfSpec.
Open Scope string_scope.

Section C.
Variable E : env.
Notation V := (V E).
Notation synth := (synth E).
Notation sampler := (sampler E).
Notation world := (world E).
Notation tree := (tree V).
Variable rg : registry E.
Notation accepts := (accepts E).
Notation settable := (settable E).

(** ** Parameters *)
Definition nums (l : dict V) : dict tree := map (fun kv => (fst kv, TNum (snd kv))) l.
Lemma tdict_nums l : tdict l = TDict (nums l). Proof. reflexivity. Qed.
Lemma dget_nums l k : dget (nums l) k = option_map (@TNum V) (dget l k).
Proof. induction l as [|[k' v] l IH]; cbn; [reflexivity|]. destruct (String.eqb k k'); [reflexivity|exact IH]. Qed.
Lemma keys_nums l : dkeys (nums l) = dkeys l.
Proof. unfold dkeys, nums. rewrite map_map. reflexivity. Qed.

Lemma set_attr_num ps other k v o p : dget ps k = Some p -> accepts p v ->
  exists o', set_attr rg ps other k (TNum v) o = Ok o' /\ po_store o' = dset (po_store o) k (Some v).
Proof.
  intros Hp (Hf & Hmin & Hmax). unfold set_attr. rewrite Hp. cbn [float_of rbind]. unfold param_set. rewrite Hf.
  assert (H1 : check_bound (fun v m => vle E m v) (pd_vmin p) (Some v) = Ok tt).
  { unfold check_bound. destruct (pd_vmin p) as [m|]; [|reflexivity]. now rewrite (Hmin m eq_refl). }
  assert (H2 : check_bound (fun v m => vle E v m) (pd_vmax p) (Some v) = Ok tt).
  { unfold check_bound. destruct (pd_vmax p) as [m|]; [|reflexivity]. now rewrite (Hmax m eq_refl). }
  rewrite H1. cbn [rbind]. rewrite H2. eexists. split; [reflexivity|]. cbn. unfold touch_norm. now destruct (pd_norm p).
Qed.
Definition somes (l : dict V) : dict (option V) := map (fun kv => (fst kv, Some (snd kv))) l.
Lemma set_attrs_nums ps other l : forall o, NoDup (dkeys l) -> (forall k, In k (dkeys l) -> ~ In k (dkeys (po_store o))) ->
  settable ps l -> exists o', set_attrs rg ps other (nums l) o = Ok o' /\ po_store o' = (po_store o ++ somes l)%list.
Proof.
  induction l as [|[k v] l IH]; intros o Hn Hf Hs; cbn [nums map set_attrs fst snd somes].
  - exists o. now rewrite app_nil_r.
  - cbn in Hn. inversion Hn as [|? ? Hni Hn']; subst.
    destruct (Hs k v) as (p & Hp & Ha); [cbn; now rewrite String.eqb_refl|].
    destruct (set_attr_num ps other k v o p Hp Ha) as (o1 & -> & Ho1). cbn [rbind].
    assert (Hk : po_store o1 = (po_store o ++ [(k, Some v)])%list).
    { rewrite Ho1. apply dset_fresh, dget_None, Hf. now left. }
    destruct (IH o1) as (o' & Ho' & Hst).
    + exact Hn'.
    + intros k' Hin Hin'. rewrite Hk in Hin'. unfold dkeys in Hin'. rewrite map_app in Hin'. apply in_app_or in Hin'.
      destruct Hin' as [H|[<-|[]]]; [now apply (Hf k' (or_intror Hin))|now apply Hni].
    + intros k' v' H'. apply Hs. cbn. destruct (String.eqb_spec k' k) as [->|]; [|exact H'].
      apply dget_In in H'. apply (in_map fst) in H'. now elim Hni.
    + exists o'. split; [exact Ho'|]. rewrite Hst, Hk, <- app_assoc. reflexivity.
Qed.
Lemma truth_somes l : truth_of (somes l) = l.
Proof. induction l as [|[k v] l IH]; cbn; [reflexivity|]. unfold somes in IH. now rewrite IH. Qed.
Lemma set_attrs_new ps other l : NoDup (dkeys l) -> settable ps l ->
  exists o, set_attrs rg ps other (nums l) (pobj_new V) = Ok o /\ truth o = l.
Proof.
  intros Hn Hs. destruct (set_attrs_nums ps other l (pobj_new V) Hn) as (o & Ho & Hst); [intros k _ []|exact Hs|].
  exists o. split; [exact Ho|]. unfold truth. rewrite Hst. apply truth_somes.
Qed.
Lemma NoDup_truth (s : dict (option V)) : NoDup (dkeys s) -> NoDup (dkeys (truth_of s)).
Proof.
  induction s as [|[k [v|]] s IH]; cbn; intros H; auto; inversion H; subst; auto. constructor; auto.
  intros Hin. apply H2. clear - Hin. induction s as [|[k' [v'|]] s IH]; cbn in *; tauto.
Qed.
Lemma settable_same ps d l : same_dict d l -> settable ps d -> settable ps l.
Proof. intros H Hs k v Hk. apply Hs. now rewrite H. Qed.

(** The comparison of parameter dictionaries, and the written forms of a dictionary:
    [l] is what is read back. *)
Variable Q : dict V -> dict V -> Prop.
Hypothesis HQ : forall d l, Q d l -> same_dict d l.

(** ** Distributions *)
Lemma load_sp_ok inp d m l r :
  sp_known rg d m -> Q (truth (sd_par d)) l -> NoDup (dkeys l) ->
  dget inp "spatial distribution" = Some (TDict ((m_type m, tdict l) :: r)) ->
  dget r "is_rate" = option_map (@TBool V) (m_rate m) ->
  exists d', load_sp rg inp = Ok (DSpatial d' m) /\ sd_cls d' = sd_cls d /\ sd_name d' = sd_name d /\ truth (sd_par d') = l.
Proof.
  intros (d0 & m0 & Hr & Hc & Hn & Hp & Hmt & Hmf & Hmr & (_ & Hs) & Hir) HQl Hnd Hin Hrate. unfold load_sp. rewrite Hin.
  cbn [of_opt rbind first_item fst snd]. unfold load_dist. rewrite Hr. cbn [rbind]. rewrite tdict_nums. cbn [items rbind].
  rewrite Hp. destruct (set_attrs_new (sc_params (sd_cls d0)) (rg_other rg (m_type m)) l Hnd) as (o & Ho & Ht).
  { rewrite Hc. apply (settable_same _ _ _ (HQ _ _ HQl) Hs). }
  rewrite Ho. cbn [rbind]. destruct m0 as [ty fm rt]. destruct m as [ty' fm' rt']. cbn [m_type m_form m_rate] in *. subst.
  destruct rt as [b0|].
  - destruct rt' as [b|]; [|destruct Hmr as [_ Hmr]; specialize (Hmr eq_refl); discriminate].
    cbn [items rbind dget]. destruct (String.eqb_spec "is_rate" ty') as [Heq|Hne]; [symmetry in Heq; contradiction|].
    rewrite Hrate. cbn [option_map of_opt rbind]. eexists. split; [reflexivity|]. cbn. auto.
  - destruct rt' as [b|]; [destruct Hmr as [Hmr _]; specialize (Hmr eq_refl); discriminate|].
    eexists. split; [reflexivity|]. cbn. auto.
Qed.
Lemma load_lum_ok inp d m l :
  lum_known rg d m -> Q (truth (ld_par d)) l -> NoDup (dkeys l) ->
  dget inp "luminosity distribution" = Some (TDict [(m_type m, tdict l)]) ->
  exists d', load_lum rg inp = Ok (Some (DLuminosity d' m)) /\ ld_cls d' = ld_cls d /\ ld_name d' = ld_name d /\ truth (ld_par d') = l.
Proof.
  intros (d0 & Hr & Hc & Hn & Hp & _ & Hs) HQl Hnd Hin. unfold load_lum. rewrite Hin.
  cbn [of_opt rbind first_item fst snd]. unfold load_dist. rewrite Hr. cbn [rbind]. rewrite tdict_nums. cbn [items rbind].
  rewrite Hp. destruct (set_attrs_new (lc_params (ld_cls d0)) (rg_other rg (m_type m)) l Hnd) as (o & Ho & Ht).
  { rewrite Hc. apply (settable_same _ _ _ (HQ _ _ HQl) Hs). }
  rewrite Ho. cbn [rbind]. eexists. split; [reflexivity|]. cbn. auto.
Qed.

(** ** Selections *)
Definition role (flux dist obs : bool) : source :=
  if flux then SFlux else if obs then SObserved else if dist then SDistance else SNothing.
Lemma load_sel_ok own flux dist obs s l :
  (flux && obs = false /\ flux && dist = false /\ obs && dist = false) ->
  sel_known rg (role flux dist obs) own s -> Q (truth (s_par s)) l -> NoDup (dkeys l) ->
  exists s', load_sel rg (negb own) (TDict [(s_type s, tdict l)]) = Ok s' /\
    same_selector Q s (sel_flag flux dist obs s').
Proof.
  intros (F1 & F2 & F3) (c & Hr & Hk & Ht & Hp & (_ & Hs) & Ho & Hl) HQl Hnd. unfold load_sel.
  cbn [first_item rbind fst snd]. rewrite Hr. cbn [rbind]. rewrite tdict_nums. cbn [items_or_none items rbind].
  assert (Hfil : (if negb own then nums l else filter (fun kv => sc_own c (fst kv)) (nums l)) = nums l).
  { destruct own; [|reflexivity]. cbn [negb]. specialize (Ho eq_refl).
    assert (Hall : forall kv, In kv (nums l) -> sc_own c (fst kv) = true).
    { intros [k t] Hin. unfold nums in Hin. apply in_map_iff in Hin. destruct Hin as ([k' v'] & [= <- <-] & Hin).
      cbn. apply (Ho k' v'). rewrite (HQ _ _ HQl). now apply In_dget. }
    clear - Hall. induction (nums l) as [|kv r IH]; cbn; [reflexivity|]. rewrite (Hall kv (or_introl eq_refl)).
    f_equal. apply IH. intros kv' H. apply Hall. now right. }
  rewrite Hfil, Hp. destruct (set_attrs_new (sel_class (s_kind (sc_new c))) (rg_other rg (s_type s)) l Hnd) as (o & Ho' & Htr).
  { rewrite Hk. apply (settable_same _ _ _ (HQ _ _ HQl) Hs). }
  rewrite Ho'. cbn [rbind]. eexists. split; [reflexivity|]. split; cbn; try congruence.
  intros L. destruct (Hl L) as [Hs1 Hs2]. rewrite Hs1. clear - Hs2 F1 F2 F3.
  unfold source_of, sel_flag, with_par, role in *. cbn.
  destruct (s_fflux (sc_new c)), (s_flum (sc_new c)), (s_fobs (sc_new c)), (s_fdist (sc_new c)), flux, dist, obs; cbn in *;
    try discriminate; try reflexivity; destruct Hs2 as [Hs2|(Hs2 & Hs3 & Hs4)]; congruence.
Qed.

(** ** One sampler *)
Lemma dget_ddel_neq {A} (d : dict A) k k2 : k2 <> k -> dget (ddel d k) k2 = dget d k2.
Proof.
  intros N. induction d as [|[k' v] d IH]; cbn [ddel dget]; [reflexivity|].
  destruct (String.eqb_spec k k') as [<-|N']; cbn [dget].
  - destruct (String.eqb_spec k2 k); [contradiction|reflexivity].
  - now rewrite IH.
Qed.
Lemma dkeys_ddel {A} (d : dict A) k k2 : In k2 (dkeys (ddel d k)) -> In k2 (dkeys d).
Proof.
  induction d as [|[k' v] d IH]; cbn [ddel dkeys map fst]; [easy|]. destruct (String.eqb k k'); cbn; [now right|].
  intros [H|H]; [now left|right; now apply IH].
Qed.
Lemma NoDup_ddel {A} (d : dict A) k : NoDup (dkeys d) -> NoDup (dkeys (ddel d k)).
Proof.
  induction d as [|[k' v] d IH]; cbn [ddel dkeys map fst]; intros H; [constructor|]. inversion H; subst.
  destruct (String.eqb k k'); [assumption|]. cbn. constructor; [|now apply IH]. intros Hin. now apply H2, (dkeys_ddel _ k).
Qed.
Lemma dget_ddel_eq {A} (d : dict A) k : NoDup (dkeys d) -> dget (ddel d k) k = None.
Proof.
  induction d as [|[k' v] d IH]; cbn [ddel dkeys map fst]; intros H; [reflexivity|]. inversion H; subst.
  destruct (String.eqb_spec k k') as [<-|N]; [now apply dget_None|]. cbn [dget].
  destruct (String.eqb_spec k k'); [contradiction|now apply IH].
Qed.

(** [e] is the entry of sampler [a], in some order. *)
Definition entry_of (y : synth) (a : sampler) (e : dict tree) : Prop :=
  exists s l ls,
    nth_error (w_sels (y_w y)) (a_sel (a_ln a)) = Some s /\
    dget e "type" = Some (TStr (a_type (a_st a))) /\
    dget e "observed" = Some (TBool (a_observed (a_st a))) /\
    dget e "selection" = Some (TDict [(s_type s, tdict ls)]) /\
    dget e "secondary" = Some (TList (map (fun kv => TStr (fst kv)) (a_sec (a_ln a)))) /\
    dget e "init variables" = None /\
    ddel (ddel (ddel (ddel e "type") "observed") "selection") "secondary" = nums l /\
    Q (truth (a_par (a_dy a))) l /\ NoDup (dkeys l) /\
    Q (truth (s_par s)) ls /\ NoDup (dkeys ls).

Lemma split_ok y a e : entry_of y a e -> exists s l ls,
  split_entry E e = (Ok (ASpec E (TStr (a_type (a_st a))) (TBool (a_observed (a_st a)))
      (Some (TDict [(s_type s, tdict ls)])) (Some (TList (map (fun kv => TStr (fst kv)) (a_sec (a_ln a))))) None (nums l)), nums l) /\
  nth_error (w_sels (y_w y)) (a_sel (a_ln a)) = Some s /\
  Q (truth (a_par (a_dy a))) l /\ NoDup (dkeys l) /\ Q (truth (s_par s)) ls /\ NoDup (dkeys ls).
Proof.
  intros (s & l & ls & Hs & H1 & H2 & H3 & H4 & H5 & H6 & R). exists s, l, ls. split; [|now split].
  unfold split_entry, pop, pop_if, bind. rewrite H1.
  rewrite dget_ddel_neq by discriminate. rewrite H2.
  rewrite !dget_ddel_neq by discriminate. rewrite H3.
  rewrite !dget_ddel_neq by discriminate. rewrite H4.
  rewrite !dget_ddel_neq by discriminate. rewrite H5. unfold get, ret. now rewrite H6.
Qed.
Lemma construct_ok (c : auxcls E) (st : astat E) : makes c st -> construct c (a_name st) (a_observed st) [] = Ok st.
Proof.
  unfold makes, construct, or_else. intros [H|[[H1 H]|[(H1 & H2 & H)|(H1 & H2 & H3 & st0 & H & T1 & T2 & T3 & T4 & T5)]]].
  - now rewrite H.
  - now rewrite H1, H.
  - now rewrite H1, H2, H.
  - rewrite H1, H2, H3, H. cbn [rbind]. rewrite T1, T2, T3, T4, T5. now destruct st.
Qed.
(** What a sampler becomes. *)
Definition built (y : synth) (sels : list (selector E)) (a b : sampler) : Prop :=
  a_st b = a_st a /\ Q (truth (a_par (a_dy a))) (truth (a_par (a_dy b))) /\
  exists s s', nth_error (w_sels (y_w y)) (a_sel (a_ln a)) = Some s /\
    nth_error sels (a_sel (a_ln b)) = Some s' /\ same_selector Q s s'.
Definition unlinked (b : sampler) : Prop := a_sec (a_ln b) = [] /\ a_issec (a_ln b) = false.
Lemma built_more y sels more a b : built y sels a b -> built y (sels ++ more)%list a b.
Proof.
  intros (H1 & H2 & s & s' & H3 & H4 & H5). split; [exact H1|]. split; [exact H2|]. exists s, s'. split; [exact H3|].
  split; [|exact H5]. rewrite nth_error_app1; [exact H4|]. apply nth_error_Some. congruence.
Qed.
(** [y] with more objects. *)
Definition grown (z : synth) (sels : list (selector E)) (auxs : list sampler) : synth :=
  with_w z (World (w_g (y_w z)) (w_n (y_w z)) (w_sels (y_w z) ++ sels)%list (w_auxs (y_w z) ++ auxs)%list (w_log (y_w z))).
Lemma grown_grown z s1 a1 s2 a2 : grown (grown z s1 a1) s2 a2 = grown z (s1 ++ s2)%list (a1 ++ a2)%list.
Proof. unfold grown, with_w. cbn. now rewrite !app_assoc. Qed.
Lemma grown_nil z : grown z [] [] = z.
Proof. unfold grown, with_w. rewrite !app_nil_r. destruct z as [[] ]. reflexivity. Qed.

Lemma build_ok y a s l ls sec z :
  aux_known rg y a -> nth_error (w_sels (y_w y)) (a_sel (a_ln a)) = Some s ->
  Q (truth (a_par (a_dy a))) l -> NoDup (dkeys l) -> Q (truth (s_par s)) ls -> NoDup (dkeys ls) ->
  exists sels b, build_aux rg (name_of a) (ASpec E (TStr (a_type (a_st a))) (TBool (a_observed (a_st a)))
      (Some (TDict [(s_type s, tdict ls)])) sec None (nums l)) z = (Ok (length (w_auxs (y_w z))), grown z sels [b]) /\
    built y (w_sels (y_w z) ++ sels)%list a b /\ unlinked b.
Proof.
  intros ((c & Hc & Hm) & (_ & Hset) & _ & s0 & Hs0 & Hk) Hs Ql Nl Qs Ns. rewrite Hs in Hs0. injection Hs0 as <-.
  destruct (load_sel_ok true false false true s ls) as (s' & Hl & Hsame); auto.
  destruct (set_attrs_new (k_params (kind_of a)) (ac_other c) l Nl) as (o & Ho & Ht).
  { apply (settable_same _ _ _ (HQ _ _ Ql) Hset). }
  exists [unity E "unity"; sel_flag false false true s'].
  exists (Sampler (a_st a) (ALink nil false nil (S (length (w_sels (y_w z))))) (ADyn o false None None None None None)).
  split; [|split; [|now split]].
  - unfold build_aux. cbn [as_type as_observed as_init as_sel as_params]. unfold bind, lift. rewrite Hc.
    unfold name_of. rewrite (construct_ok _ _ Hm). unfold alloc_sel.
    change (a_kind (a_st a)) with (kind_of a). rewrite Ho. cbn [negb] in Hl. rewrite Hl. unfold alloc_aux, grown, with_w.
    cbn. rewrite app_length, <- app_assoc. cbn. rewrite Nat.add_1_r. reflexivity.
  - split; [reflexivity|]. split; [cbn; now rewrite Ht|]. exists s, (sel_flag false false true s'). split; [exact Hs|].
    split; [|exact Hsame]. cbn [a_ln a_sel]. rewrite nth_error_app2 by lia.
    replace (S (length (w_sels (y_w z))) - length (w_sels (y_w z))) with 1 by lia. reflexivity.
Qed.

(** ** All of them *)
Definition sec_names (a : sampler) : list (option string) := map (fun kv => Some (fst kv)) (a_sec (a_ln a)).
Lemma names_of_strs (d : dict nat) : names_of E (map (fun kv => TStr (fst kv)) d : list tree) = Ok (map (fun kv => Some (fst kv)) d).
Proof. induction d as [|[k j] d IH]; cbn; [reflexivity|]. now rewrite IH. Qed.

Definition ready (y : synth) (a : sampler) (kv : string * tree) : Prop :=
  fst kv = name_of a /\ aux_known rg y a /\ exists e, snd kv = TDict e /\ entry_of y a e.
Fixpoint indexed (l : list sampler) (n : nat) : dict nat :=
  match l with nil => nil | a :: r => (name_of a, n) :: indexed r (S n) end.
Definition sec_table (l : list sampler) : dict (list (option string)) := map (fun a => (name_of a, sec_names a)) l.

Lemma gather_ok y plan L : Forall2 (ready y) plan L -> NoDup (map (@name_of E) plan) -> forall acc z,
  (forall a, In a plan -> dget (fst acc) (name_of a) = None /\ dget (snd acc) (name_of a) = None) ->
  exists sels new L', gather rg L acc z =
      (Ok (fst acc ++ indexed plan (length (w_auxs (y_w z))), snd acc ++ sec_table plan)%list, grown z sels new, L') /\
    Forall2 (fun a b => built y (w_sels (y_w z) ++ sels)%list a b /\ unlinked b) plan new.
Proof.
  induction 1 as [|a [nm t] plan L Ha HL IH]; intros Hnd [acc1 acc2] z Hf; cbn [gather].
  - exists [], [], []. cbn. rewrite !app_nil_r, grown_nil. now split.
  - cbn [map] in Hnd. inversion Hnd as [|? ? Hni Hnd']; subst.
    destruct Ha as (Hnm & Hk & e & He & Hent). cbn [fst snd] in Hnm, He. subst nm t.
    destruct (split_ok _ _ _ Hent) as (s & l & ls & -> & Hs & Q1 & N1 & Q2 & N2).
    destruct (build_ok y a s l ls (Some (TList (map (fun kv => TStr (fst kv)) (a_sec (a_ln a))))) z Hk Hs Q1 N1 Q2 N2)
      as (sels1 & b & Hb & Hbuilt & Hun).
    unfold gather1, bind, lift. cbn [as_sec secondaries_of]. rewrite names_of_strs. cbn [rmap]. rewrite Hb. cbn [ret].
    destruct (Hf a (or_introl eq_refl)) as [Hf1 Hf2]. cbn [fst snd] in Hf1, Hf2. cbn [fst snd].
    rewrite (dset_fresh _ _ _ Hf1), (dset_fresh _ _ _ Hf2). fold (sec_names a).
    destruct (IH Hnd' ((acc1 ++ [(name_of a, length (w_auxs (y_w z)))])%list, (acc2 ++ [(name_of a, sec_names a)])%list) (grown z sels1 [b]))
      as (sels2 & new & L' & Hg & Hall).
    { intros a' Hin. cbn [fst snd]. rewrite !dget_app. destruct (Hf a' (or_intror Hin)) as [G1 G2]. cbn [fst snd] in G1, G2. rewrite G1, G2.
      assert (N : name_of a' <> name_of a). { intros Heq. apply Hni. rewrite <- Heq. now apply in_map. }
      cbn [dget]. apply String.eqb_neq in N. rewrite N. now split. }
    exists (sels1 ++ sels2)%list, (b :: new), ((name_of a, TDict (nums l)) :: L'). split.
    + match goal with |- context [gather rg L ?x ?zz] => rewrite (Hg : gather rg L x zz = _) end. cbn [fst snd indexed sec_table map]. rewrite grown_grown. cbn [app].
      assert (Hlen : length (w_auxs (y_w (grown z sels1 [b]))) = S (length (w_auxs (y_w z)))).
      { cbn. rewrite app_length. cbn. lia. }
      rewrite Hlen, <- !app_assoc. reflexivity.
    + constructor.
      * split; [|exact Hun]. rewrite app_assoc. now apply built_more.
      * eapply Forall2_impl; [|exact Hall]. cbn. intros a' b' [Hb1 Hb2]. rewrite app_assoc. now split.
Qed.
End C.
