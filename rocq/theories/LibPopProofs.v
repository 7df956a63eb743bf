(** Lemmas on the predefined populations. *)
From Verif Require Import Base BaseFacts Env ParamModel SelModel DistModel DistSpec AuxModel SynthModel LibPopModel LibPopSpec.
Open Scope string_scope.

Section L.
Variable E : env.
Notation V := (V E).
Variable fo : formulas E.
Variable w : world E.

(** Assigning one parameter that is declared free with an optional lower bound. *)
Definition in_min (c : pclass V) (k : string) (v : V) : bool :=
  match dget c k with
  | Some d => match pd_vmin d with Some m => vle E m v | None => true end
  | None => true
  end.
Definition plain (c : pclass V) : Prop :=
  forall k d, dget c k = Some d -> pd_free d = true /\ pd_vmax d = None.
Lemma assign1_spec c k v o : plain c ->
  (exists d, dget c k = Some d) ->
  (in_min c k v = true -> exists o', assign1 E c (k, v) o = Ok o' /\ po_store o' = dset (po_store o) k (Some v)) /\
  (in_min c k v = false -> assign1 E c (k, v) o = Err RuntimeError).
Proof.
  intros Hp [d Hd]. destruct (Hp k d Hd) as [Hf Hx]. unfold in_min, assign1. cbn [fst snd]. rewrite Hd. unfold param_set.
  rewrite Hf, Hx. assert (Hs : po_store (touch_norm d k o) = po_store o) by (unfold touch_norm; now destruct (pd_norm d)).
  destruct (pd_vmin d) as [m|]; cbn.
  - split; intros H; rewrite H; cbn; [|reflexivity]. eexists. split; [reflexivity|]. cbn. now rewrite Hs.
  - split; [|discriminate]. intros _. eexists. split; [reflexivity|]. cbn. now rewrite Hs.
Qed.
Fixpoint dsets (l : list (string * V)) (s : dict (option V)) : dict (option V) :=
  match l with nil => s | (k, v) :: r => dsets r (dset s k (Some v)) end.
Lemma assigns_spec c l : plain c -> (forall kv, In kv l -> exists d, dget c (fst kv) = Some d) -> forall o,
  (forallb (fun kv => in_min c (fst kv) (snd kv)) l = true ->
     exists o', assigns E c l o = Ok o' /\ po_store o' = dsets l (po_store o)) /\
  (forallb (fun kv => in_min c (fst kv) (snd kv)) l = false -> assigns E c l o = Err RuntimeError).
Proof.
  intros Hp. induction l as [|[k v] l IH]; intros Hin o; cbn [assigns forallb dsets fst snd].
  - split; [|discriminate]. intros _. exists o. auto.
  - destruct (assign1_spec c k v o Hp (Hin (k, v) (or_introl eq_refl))) as [H1 H2].
    specialize (IH (fun kv H => Hin kv (or_intror H))).
    destruct (in_min c k v); cbn [andb].
    + destruct (H1 eq_refl) as (o' & -> & Hs). cbn [rbind]. rewrite <- Hs. apply IH.
    + split; [discriminate|]. intros _. rewrite H2 by reflexivity. reflexivity.
Qed.
Lemma dsets_fresh l s : NoDup (dkeys l) -> (forall k, In k (dkeys l) -> ~ In k (dkeys s)) ->
  dsets l s = (s ++ map (fun kv => (fst kv, Some (snd kv))) l)%list.
Proof.
  revert s. induction l as [|[k v] l IH]; intros s Hn Hf; cbn [dsets map fst snd].
  - now rewrite app_nil_r.
  - cbn in Hn. inversion Hn as [|? ? Hni Hn']; subst.
    assert (Hk : dset s k (Some v) = (s ++ [(k, Some v)])%list) by (apply dset_fresh, dget_None; apply Hf; now left).
    rewrite Hk, IH; [now rewrite <- app_assoc|assumption|].
    intros k' Hin Hin'. unfold dkeys in Hin'. rewrite map_app in Hin'. apply in_app_or in Hin'. destruct Hin' as [H|[<-|[]]].
    + now apply (Hf k' (or_intror Hin)).
    + now apply Hni.
Qed.
Lemma truth_some l : truth_of (map (fun kv : string * V => (fst kv, Some (snd kv))) l) = l.
Proof. induction l as [|[k v] l IH]; cbn; [reflexivity|]. now rewrite IH. Qed.

(** The keyword arguments as a list of pairs. *)
Definition args_of (arg : string -> V) (ks : list string) : list (string * V) := map (fun k => (k, arg k)) ks.
Lemma keys_args arg ks : dkeys (args_of arg ks) = ks.
Proof. unfold dkeys, args_of. rewrite map_map. apply map_id. Qed.
Lemma dget_args arg ks k v : dget (args_of arg ks) k = Some v <-> In k ks /\ v = arg k.
Proof.
  induction ks as [|k' ks IH]; cbn; [easy|]. destruct (String.eqb_spec k k') as [->|N].
  - split; [intros [= <-]; auto|intros [_ ->]; reflexivity].
  - rewrite IH. split; intros [H1 H2]; split; auto. destruct H1 as [H1|H1]; [now elim N|assumption].
Qed.
Lemma assigns_new c arg ks : plain c -> (forall k, In k ks -> exists d, dget c k = Some d) -> NoDup ks ->
  (forallb (fun k => in_min c k (arg k)) ks = true ->
     exists o, assigns E c (args_of arg ks) (pobj_new V) = Ok o /\ truth o = args_of arg ks) /\
  (forallb (fun k => in_min c k (arg k)) ks = false -> assigns E c (args_of arg ks) (pobj_new V) = Err RuntimeError).
Proof.
  intros Hp Hd Hn. destruct (assigns_spec c (args_of arg ks) Hp) with (o := pobj_new V) as [H1 H2].
  { intros [k v] Hin. cbn. apply Hd. rewrite <- (keys_args arg ks). apply (in_map fst) in Hin. exact Hin. }
  assert (Hf : forallb (fun kv => in_min c (fst kv) (snd kv)) (args_of arg ks) = forallb (fun k => in_min c k (arg k)) ks).
  { clear. unfold args_of. induction ks as [|k ks IH]; cbn; [reflexivity|]. now rewrite IH. }
  rewrite Hf in H1, H2. split; [|exact H2]. intros H. destruct (H1 H) as (o & Ho & Hs). exists o. split; [exact Ho|].
  unfold truth. rewrite Hs, dsets_fresh; [apply truth_some| |cbn; tauto]. now rewrite keys_args.
Qed.

(** Whether an argument list is accepted: [ks] are assigned in this order, [nn] must
    not be negative. *)
Definition accepted (arg : string -> V) (nn : list string) : bool := forallb (fun k => vle E (vofnat E 0) (arg k)) nn.
Definition same_set (a b : list string) : Prop := forall k, In k a <-> In k b.
Definition min_is (c : pclass V) (ks nn : list string) : Prop :=
  forall arg, forallb (fun k => in_min c k (arg k)) ks = accepted arg nn.

Lemma assign_sp_spec cls nm ps reads rate arg ks nn :
  plain ps -> (forall k, In k ks -> exists d, dget ps k = Some d) -> NoDup ks -> min_is ps ks nn ->
  (accepted arg nn = true -> exists x, assign_sp (spatial fo cls nm ps reads rate) (args_of arg ks) = Ok x /\
     m_type (snd x) = cls /\ m_rate (snd x) = rate /\ sd_name (fst x) = nm /\ truth (sd_par (fst x)) = args_of arg ks) /\
  (accepted arg nn = false -> assign_sp (spatial fo cls nm ps reads rate) (args_of arg ks) = Err RuntimeError).
Proof.
  intros Hp Hd Hn Hm. destruct (assigns_new ps arg ks Hp Hd Hn) as [H1 H2]. rewrite Hm in H1, H2.
  unfold assign_sp, spatial. cbn [fst snd sd_cls sd_new sc_params sd_par]. split; intros H.
  - destruct (H1 H) as (o & -> & Ht). cbn [rbind]. eexists. split; [reflexivity|]. cbn. auto.
  - rewrite (H2 H). reflexivity.
Qed.
Lemma assign_lum_spec cls nm ps dr pr arg ks nn :
  plain ps -> (forall k, In k ks -> exists d, dget ps k = Some d) -> NoDup ks -> min_is ps ks nn ->
  (accepted arg nn = true -> exists x, assign_lum (luminosity fo cls nm ps dr pr) (args_of arg ks) = Ok x /\
     m_type (snd x) = cls /\ ld_name (fst x) = nm /\ truth (ld_par (fst x)) = args_of arg ks) /\
  (accepted arg nn = false -> assign_lum (luminosity fo cls nm ps dr pr) (args_of arg ks) = Err RuntimeError).
Proof.
  intros Hp Hd Hn Hm. destruct (assigns_new ps arg ks Hp Hd Hn) as [H1 H2]. rewrite Hm in H1, H2.
  unfold assign_lum, luminosity. cbn [fst snd ld_cls lc_params ld_par]. split; intros H.
  - destruct (H1 H) as (o & -> & Ht). cbn [rbind]. eexists. split; [reflexivity|]. cbn. auto.
  - rewrite (H2 H). reflexivity.
Qed.

(** The five spatial populations. *)
Definition sp_result (s : sp_doc) (arg : string -> V) (seed : Z) (lum : option (lumobj E)) (rate : bool) (r : res (synth E)) : Prop :=
  (accepted arg (sd_nonneg s) = true -> exists y, r = Ok y /\
     m_type (y_spm y) = sd_type s /\ m_rate (y_spm y) = (if sd_rated s then Some rate else None) /\
     exactly (truth (sd_par (y_sp y))) arg (sd_args s) /\
     y_lum y = option_map fst lum /\ (forall l, lum = Some l -> y_lumm y = snd l) /\
     y_seed y = seed /\ y_aux y = [] /\ y_der y = None /\ y_fluxset y = false /\ y_dset y = false /\ y_ssel y = None) /\
  (accepted arg (sd_nonneg s) = false -> r = Err RuntimeError).

Lemma sp_result_intro s arg seed lum rate nm ps reads ks :
  plain ps -> (forall k, In k ks -> exists d, dget ps k = Some d) -> NoDup ks -> min_is ps ks (sd_nonneg s) ->
  same_set ks (sd_args s) ->
  sp_result s arg seed lum rate
    (let? sp := assign_sp (spatial fo (sd_type s) nm ps reads (if sd_rated s then Some rate else None)) (args_of arg ks) in
     Ok (population_synth w sp lum seed)).
Proof.
  intros Hp Hd Hn Hm Hs.
  destruct (assign_sp_spec (sd_type s) nm ps reads (if sd_rated s then Some rate else None) arg ks (sd_nonneg s) Hp Hd Hn Hm) as [H1 H2].
  split; intros H.
  - destruct (H1 H) as (x & -> & Ht & Hr & Hnm & Htr). cbn [rbind]. eexists. split; [reflexivity|].
    unfold population_synth, synth_new. cbn [y_spm y_sp y_lum y_lumm y_seed y_aux y_der y_fluxset y_dset y_ssel].
    split; [exact Ht|]. split; [exact Hr|]. split.
    { intros k v. rewrite Htr, dget_args. now rewrite (Hs k). }
    split; [reflexivity|]. split; [intros l ->; reflexivity|]. repeat split.
  - rewrite (H2 H). reflexivity.
Qed.

Lemma accepted_in arg nn : accepted arg nn = true <-> forall k, In k nn -> vle E (vofnat E 0) (arg k) = true.
Proof. unfold accepted. apply forallb_forall. Qed.

Ltac s1 := intros k d; cbn; repeat (destruct (String.eqb _ _); [intros [= <-]; now split|]); discriminate.
Ltac s2 := intros k Hk; cbn in Hk; repeat destruct Hk as [<-|Hk]; [..|destruct Hk]; cbn; eauto.
Ltac s3 := repeat (apply NoDup_cons; [cbn; intuition discriminate|]); apply NoDup_nil.
Ltac s4 := intros arg0; unfold accepted; cbn; rewrite ?Bool.andb_true_r;
       repeat match goal with |- context [vle E ?a ?b] => destruct (vle E a b) end; reflexivity.
Ltac s5 := intros k; cbn; tauto.

Lemma sphere_ok arg seed lum rate : sp_result sphere arg seed lum rate (SphericalPopulation fo w (arg "Lambda") (arg "r_max") seed lum).
Proof. apply (sp_result_intro sphere arg seed lum rate _ _ _ ["Lambda"; "r_max"]); [s1|s2|s3|s4|s5]. Qed.
Lemma zpow_sphere_ok arg seed lum rate :
  sp_result zpow_sphere arg seed lum rate (ZPowerSphericalPopulation fo w (arg "Lambda") (arg "delta") (arg "r_max") seed lum).
Proof. apply (sp_result_intro zpow_sphere arg seed lum rate _ _ _ ["Lambda"; "r_max"; "delta"]); [s1|s2|s3|s4|s5]. Qed.
Lemma zpow_cosmo_ok arg seed lum rate :
  sp_result zpow_cosmo arg seed lum rate (ZPowerCosmoPopulation fo w (arg "Lambda") (arg "delta") (arg "r_max") seed lum rate).
Proof. apply (sp_result_intro zpow_cosmo arg seed lum rate _ _ _ ["Lambda"; "r_max"; "delta"]); [s1|s2|s3|s4|s5]. Qed.
Lemma sfr_ok arg seed lum rate :
  sp_result sfr arg seed lum rate
    (SFRPopulation fo w (arg "r0") (arg "a") (arg "rise") (arg "decay") (arg "peak") (arg "r_max") seed lum rate).
Proof. apply (sp_result_intro sfr arg seed lum rate _ _ _ ["r0"; "a"; "rise"; "decay"; "peak"; "r_max"]); [s1|s2|s3|s4|s5]. Qed.
Lemma milky_way_ok arg seed lum rate :
  sp_result milky_way arg seed lum rate
    (MWRadialPopulation fo w (arg "rho") (arg "a") (arg "b") (arg "R1") (arg "R0") (arg "r_max") seed lum).
Proof. apply (sp_result_intro milky_way arg seed lum rate _ _ _ ["rho"; "a"; "b"; "R1"; "R0"; "r_max"]); [s1|s2|s3|s4|s5]. Qed.

Definition lum_result (d : lum_doc) (arg : string -> V) (r : res (lumobj E)) : Prop :=
  (accepted arg (lm_nonneg d) = true -> exists x, r = Ok x /\ m_type (snd x) = lm_type d /\
     exactly (truth (ld_par (fst x))) arg (lm_args d)) /\
  (accepted arg (lm_nonneg d) = false -> r = Err RuntimeError).
Lemma lum_result_intro d arg nm ps dr pr :
  plain ps -> (forall k, In k (lm_args d) -> exists x, dget ps k = Some x) -> NoDup (lm_args d) -> min_is ps (lm_args d) (lm_nonneg d) ->
  lum_result d arg (assign_lum (luminosity fo (lm_type d) nm ps dr pr) (args_of arg (lm_args d))).
Proof.
  intros Hp Hd Hn Hm. destruct (assign_lum_spec (lm_type d) nm ps dr pr arg (lm_args d) (lm_nonneg d) Hp Hd Hn Hm) as [H1 H2].
  split; [|exact H2]. intros H. destruct (H1 H) as (x & Hx & Ht & _ & Htr). exists x. split; [exact Hx|]. split; [exact Ht|].
  intros k v. rewrite Htr. apply dget_args.
Qed.
Lemma pareto_ok arg : lum_result pareto arg (assign_lum (ParetoDistribution fo) [("Lmin", arg "Lmin"); ("alpha", arg "alpha")]).
Proof. apply (lum_result_intro pareto); [s1|s2|s3|s4]. Qed.
Lemma schechter_ok arg : lum_result schechter arg (assign_lum (SchechterDistribution fo) [("Lmin", arg "Lmin"); ("alpha", arg "alpha")]).
Proof. apply (lum_result_intro schechter); [s1|s2|s3|s4]. Qed.
Lemma lognormal_ok arg : lum_result lognormal arg (assign_lum (LogNormalDistribution fo) [("mu", arg "mu"); ("tau", arg "tau")]).
Proof. apply (lum_result_intro lognormal); [s1|s2|s3|s4]. Qed.
Lemma log10normal_ok arg : lum_result log10normal arg (assign_lum (Log10NormalDistribution fo) [("mu", arg "mu"); ("tau", arg "tau")]).
Proof. apply (lum_result_intro log10normal); [s1|s2|s3|s4]. Qed.
Lemma broken_ok arg : lum_result broken arg (assign_lum (BPLDistribution fo)
  [("Lmin", arg "Lmin"); ("alpha", arg "alpha"); ("Lbreak", arg "Lbreak"); ("beta", arg "beta"); ("Lmax", arg "Lmax")]).
Proof. apply (lum_result_intro broken); [s1|s2|s3|s4]. Qed.

(** Both together. *)
Definition pop_result (c : popclass) (arg : string -> V) (seed : Z) (lum : option (lumobj E)) (rate : bool) (r : res (synth E)) : Prop :=
  (accepted arg (sd_nonneg (fst (documented c)) ++ lum_nonneg (snd (documented c)))%list = true ->
     exists y, r = Ok y /\ as_documented c arg seed lum rate y) /\
  (accepted arg (sd_nonneg (fst (documented c)) ++ lum_nonneg (snd (documented c)))%list = false -> r = Err RuntimeError).
Lemma pop_sp c arg seed lum rate r : snd (documented c) = None ->
  sp_result (fst (documented c)) arg seed lum rate r -> pop_result c arg seed lum rate r.
Proof.
  intros Hn [H1 H2]. unfold pop_result. rewrite Hn. cbn [lum_nonneg]. rewrite app_nil_r. split; [|exact H2].
  intros H. destruct (H1 H) as (y & Hy & Ht & Hr & He & Hl & Hm & Hs & Hb). exists y. split; [exact Hy|].
  split; try assumption. rewrite Hn. auto.
Qed.
Lemma pop_lum c arg seed lum rate d lr (k : lumobj E -> res (synth E)) : snd (documented c) = Some d ->
  lum_result d arg lr -> (forall l, sp_result (fst (documented c)) arg seed (Some l) rate (k l)) ->
  pop_result c arg seed lum rate (let? l := lr in k l).
Proof.
  intros Hn [L1 L2] Hk. unfold pop_result. rewrite Hn. cbn [lum_nonneg]. unfold accepted. rewrite forallb_app.
  fold (accepted arg (sd_nonneg (fst (documented c)))). fold (accepted arg (lm_nonneg d)).
  destruct (accepted arg (lm_nonneg d)).
  - destruct (L1 eq_refl) as (x & -> & Hxt & Hxe). cbn [rbind]. destruct (Hk x) as [H1 H2]. rewrite Bool.andb_true_r.
    split; [|exact H2]. intros H. destruct (H1 H) as (y & Hy & Ht & Hr & He & Hl & Hm & Hs & Hb). exists y. split; [exact Hy|].
    split; try assumption. rewrite Hn. rewrite (Hm x eq_refl). split; [exact Hxt|]. exists (fst x). split; [exact Hl|exact Hxe].
  - rewrite (L2 eq_refl). rewrite Bool.andb_false_r. split; [discriminate|reflexivity].
Qed.
Lemma build_spec c arg seed lum rate : pop_result c arg seed lum rate (build fo w c arg seed lum rate).
Proof.
  destruct c; cbn [build];
    first [ apply pop_sp; [reflexivity|] | eapply pop_lum; [reflexivity| |intros l] ];
    first [ apply sphere_ok | apply zpow_sphere_ok | apply zpow_cosmo_ok | apply sfr_ok | apply milky_way_ok
          | apply pareto_ok | apply schechter_ok | apply lognormal_ok | apply log10normal_ok | apply broken_ok ].
Qed.
End L.
