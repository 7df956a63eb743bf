(** C79: the predefined populations can be kept. *)
From Coq Require Import Ascii.
From Verif Require Import Base BaseFacts Env ParamModel SelModel DistModel AuxModel Tree PopModel SynthModel LibPopModel HdfModel HdfSpec KeptSpec KeptProofs KeptTop.
Open Scope string_scope.

Section L.
Variable E : env.
Notation V := (V E).
Variable fo : formulas E.
Variable w : world E.

Definition names_plain (c : pclass V) : Prop := forall k d, dget c k = Some d -> plain_name k.
Definition sound_store (c : pclass V) (o : pobj V) : Prop := named_parameters c o /\ forall k, ~ In (k, None) (po_store o).
Lemma assign1_sound (c : pclass V) k v o o' : names_plain c -> sound_store c o -> assign1 E c (k, v) o = Ok o' ->
  sound_store c o' /\ (forall x u, dget (po_store o) x = Some (Some u) -> exists u', dget (po_store o') x = Some (Some u')) /\
  (forall d, dget c k = Some d -> dget (po_store o') k = Some (Some v)).
Proof.
  intros PC [N O]. unfold assign1. cbn [fst snd]. destruct (dget c k) as [d|] eqn:D.
  - unfold param_set. assert (T := touch_named E c o k d N D). assert (TS := touch_store E d k o).
    assert (X : forall r o1, (r, PObj (dset (po_store (touch_norm d k o)) k (Some v)) (po_norm (touch_norm d k o))) = (Ok tt : res unit, o1) -> r = Ok tt -> sound_store c o1 /\
      (forall x u, dget (po_store o) x = Some (Some u) -> exists u', dget (po_store o1) x = Some (Some u')) /\ (forall d0, Some d = Some d0 -> dget (po_store o1) k = Some (Some v))).
    { intros r o1 Y _. injection Y as _ <-. rewrite TS. destruct T as ((T1 & T2) & T3 & T4). rewrite TS in T1, T2. split; [split; [split; [|split; [exact T3|exact T4]]|]|]; cbn.
      - apply plain_dset; [now split|eauto].
      - intros x Z. apply In_dset in Z. destruct Z as [(_ & Z)|Z]; [discriminate|now apply (O x)].
      - split; [|intros d0 _; rewrite dget_dset, String.eqb_refl; reflexivity]. intros x u Z. rewrite dget_dset. destruct (String.eqb x k); eauto. }
    destruct (pd_free d); [|intros Y; cbn in Y; discriminate Y]. match goal with |- context [rbind ?a ?b] => destruct (rbind a b) as [u|e] end; [|intros Y; cbn in Y; discriminate Y].
    intros Y. cbn in Y. injection Y as <-. apply (X (Ok tt)); reflexivity.
  - intros H. injection H as <-. split; [now split|]. split; [eauto|discriminate].
Qed.
Lemma assigns_sound (c : pclass V) l : names_plain c -> forall o o', sound_store c o -> assigns E c l o = Ok o' ->
  sound_store c o' /\ (forall x u, dget (po_store o) x = Some (Some u) -> exists u', dget (po_store o') x = Some (Some u')) /\
  (forall k d, In k (dkeys l) -> dget c k = Some d -> exists v, dget (po_store o') k = Some (Some v)).
Proof.
  intros PC. induction l as [|[k v] l IH]; intros o o' S H; cbn [assigns] in H.
  - injection H as <-. split; [exact S|]. split; [eauto|]. intros k d [].
  - destruct (assign1 E c (k, v) o) as [o1|] eqn:A; [|discriminate]. cbn [rbind] in H. destruct (assign1_sound _ _ _ _ _ PC S A) as (S1 & M1 & G1).
    destruct (IH _ _ S1 H) as (S2 & M2 & G2). split; [exact S2|]. split.
    + intros x u X. destruct (M1 _ _ X) as (u1 & X1). eauto.
    + intros k0 d [<-|I] D; [|eauto]. exact (M2 _ _ (G1 _ D)).
Qed.
Lemma assigns_set (c : pclass V) l o : names_plain c -> (forall k d, dget c k = Some d -> pd_default d = None -> In k (dkeys l)) ->
  assigns E c l (pobj_new V) = Ok o -> set_parameters c o.
Proof.
  intros PC CO H. destruct (assigns_sound c l PC (pobj_new V) o) as (S & _ & G); [split; [split; [apply plain_nil|split; [exact PC|discriminate]]|intros k []]|exact H|].
  destruct S as [N O]. split; [exact N|]. split; [exact O|]. intros k d D DE. eapply G; eauto.
Qed.
Lemma ascii_append a b : is_ascii a = true -> is_ascii b = true -> is_ascii (a ++ b) = true.
Proof. unfold is_ascii. induction a as [|c a IH]; cbn [append list_ascii_of_string forallb]; [easy|]. intros A B. apply andb_prop in A. destruct A as [-> A]. now rewrite IH. Qed.

Definition keepable_lum (l : lumobj E) : Prop :=
  plain_name (ld_name (fst l)) /\ is_ascii (ld_name (fst l)) = true /\ set_parameters (lc_params (ld_cls (fst l))) (ld_par (fst l)) /\ plain_name (m_type (snd l)) /\ is_ascii (m_form (snd l)) = true.
Definition keepable_sp (s : spobj E) : Prop :=
  plain_name (sd_name (fst s)) /\ is_ascii (sd_name (fst s)) = true /\ set_parameters (sc_params (sd_cls (fst s))) (sd_par (fst s)) /\ plain_name (m_type (snd s)) /\ m_type (snd s) <> "is_rate" /\ is_ascii (m_form (snd s)) = true.
Hypothesis WA : forall a, In a (w_auxs w) -> keepable_sampler a.
Hypothesis WS : forall s, In s (w_sels w) -> keepable_selector s.
Hypothesis FO : forall c, is_ascii c = true -> is_ascii (fo_form fo c) = true.
Lemma synth_keepable (s : spobj E) lum seed : keepable_sp s -> (forall l, lum = Some l -> keepable_lum l) -> fits64 seed -> keepable (population_synth w s lum seed).
Proof.
  intros (A1 & A2 & A3 & A4 & A5 & A6) L SE. unfold population_synth. apply new_keepable; try assumption.
  - unfold synth_name. destruct lum as [l|]; cbn [option_map]; [|exact A2]. destruct (L l eq_refl) as (_ & B & _). apply ascii_append; [exact A2|]. now apply (ascii_append "_").
  - split; [exact A6|]. destruct lum as [l|]; [|reflexivity]. apply (L l eq_refl).
  - now split.
  - split; [exact A4|]. split; [exact A5|]. destruct lum as [l|]; [|now intros []]. intros _. destruct (L l eq_refl) as (_ & _ & _ & B & _). exact B.
  - intros l X. destruct lum as [l0|]; [|discriminate]. cbn in X. injection X as <-. destruct (L l0 eq_refl) as (B1 & _ & B2 & _). now split.
Qed.
Lemma assign_sp_keepable cls nm ps reads rate l x : plain_name nm -> is_ascii nm = true -> is_ascii cls = true -> plain_name cls -> cls <> "is_rate" -> names_plain ps ->
  (forall k d, dget ps k = Some d -> pd_default d = None -> In k (dkeys l)) -> assign_sp (spatial fo cls nm ps reads rate) l = Ok x -> keepable_sp x.
Proof.
  intros A1 A2 A0 A3 A4 A5 A6 H. unfold assign_sp, spatial in H. cbn [fst snd sd_cls sd_new sc_params sd_par] in H.
  destruct (assigns E ps l (pobj_new V)) as [o|] eqn:Q; [|discriminate]. cbn [rbind] in H. injection H as <-. exact (conj A1 (conj A2 (conj (assigns_set _ _ _ A5 A6 Q) (conj A3 (conj A4 (FO cls A0)))))).
Qed.
Lemma assign_lum_keepable cls nm ps dr pr l x : plain_name nm -> is_ascii nm = true -> is_ascii cls = true -> plain_name cls -> names_plain ps ->
  (forall k d, dget ps k = Some d -> pd_default d = None -> In k (dkeys l)) -> assign_lum (luminosity fo cls nm ps dr pr) l = Ok x -> keepable_lum x.
Proof.
  intros A1 A2 A0 A3 A5 A6 H. unfold assign_lum, luminosity in H. cbn [fst snd ld_cls lc_params ld_par] in H.
  destruct (assigns E ps l (pobj_new V)) as [o|] eqn:Q; [|discriminate]. cbn [rbind] in H. injection H as <-. exact (conj A1 (conj A2 (conj (assigns_set _ _ _ A5 A6 Q) (conj A3 (FO cls A0))))).
Qed.
Ltac pn := unfold plain_name, no_nul; cbn; intuition discriminate.
Ltac nps := intros k d D; apply dget_In in D; cbn in D; repeat (destruct D as [D|D]; [injection D as <- <-; pn|]); destruct D.
Ltac cov := intros k d D; apply dget_In in D; cbn in D; repeat (destruct D as [D|D]; [injection D as <- <-; first [discriminate|intros _; cbn; tauto]|]); destruct D.
Ltac sp H := apply assign_sp_keepable in H; [|pn|reflexivity|reflexivity|pn|discriminate|nps|cov].
Ltac lu H := apply assign_lum_keepable in H; [|pn|reflexivity|reflexivity|pn|nps|cov].
Lemma build_keepable c arg seed lum is_rate y : fits64 seed -> (forall l, lum = Some l -> keepable_lum l) -> build fo w c arg seed lum is_rate = Ok y -> keepable y.
Proof.
  intros SE LU.
  assert (S1 : forall a b l y, (forall x, l = Some x -> keepable_lum x) -> SphericalPopulation fo w a b seed l = Ok y -> keepable y).
  { intros a b l y0 L H. unfold SphericalPopulation in H. match type of H with rbind ?m _ = _ => destruct m as [s|] eqn:Q end; [|discriminate]. injection H as <-. sp Q. now apply synth_keepable. }
  assert (S2 : forall a b d l y, (forall x, l = Some x -> keepable_lum x) -> ZPowerSphericalPopulation fo w a b d seed l = Ok y -> keepable y).
  { intros a b d0 l y0 L H. unfold ZPowerSphericalPopulation in H. match type of H with rbind ?m _ = _ => destruct m as [s|] eqn:Q end; [|discriminate]. injection H as <-. sp Q. now apply synth_keepable. }
  assert (S3 : forall a b d l r y, (forall x, l = Some x -> keepable_lum x) -> ZPowerCosmoPopulation fo w a b d seed l r = Ok y -> keepable y).
  { intros a b d0 l r y0 L H. unfold ZPowerCosmoPopulation in H. match type of H with rbind ?m _ = _ => destruct m as [s|] eqn:Q end; [|discriminate]. injection H as <-. sp Q. now apply synth_keepable. }
  assert (S4 : forall a b d e f g l r y, (forall x, l = Some x -> keepable_lum x) -> SFRPopulation fo w a b d e f g seed l r = Ok y -> keepable y).
  { intros a b d0 e f g l r y0 L H. unfold SFRPopulation in H. match type of H with rbind ?m _ = _ => destruct m as [s|] eqn:Q end; [|discriminate]. injection H as <-. sp Q. now apply synth_keepable. }
  assert (S5 : forall a b d e f g l y, (forall x, l = Some x -> keepable_lum x) -> MWRadialPopulation fo w a b d e f g seed l = Ok y -> keepable y).
  { intros a b d0 e f g l y0 L H. unfold MWRadialPopulation in H. match type of H with rbind ?m _ = _ => destruct m as [s|] eqn:Q end; [|discriminate]. injection H as <-. sp Q. now apply synth_keepable. }
  destruct c; cbn [build]; first [now apply S1|now apply S2|now apply S3|now apply S4|now apply S5|idtac].
  all: unfold ParetoHomogeneousSphericalPopulation, ParetoZPowerSphericalPopulation, ParetoZPowerCosmoPopulation, ParetoSFRPopulation, BPLHomogeneousSphericalPopulation, BPLZPowerSphericalPopulation, BPLZPowerCosmoPopulation, BPLSFRPopulation, LogNormalHomogeneousSphericalPopulation, LogNormalZPowerSphericalPopulation, LogNormalZPowerCosmoPopulation, LogNormalSFRPopulation, Log10NormalHomogeneousSphericalPopulation, Log10NormalZPowerSphericalPopulation, Log10NormalZPowerCosmoPopulation, Log10NormalSFRPopulation, SchechterHomogeneousSphericalPopulation, SchechterZPowerSphericalPopulation, SchechterZPowerCosmoPopulation, SchechterSFRPopulation.
  all: match goal with |- rbind ?m _ = _ -> _ => destruct m as [l|] eqn:Q end; [|discriminate]; cbn [rbind]; lu Q.
  all: first [apply S1|apply S2|apply S3|apply S4|apply S5]; intros x X; injection X as <-; exact Q.
Qed.
End L.
