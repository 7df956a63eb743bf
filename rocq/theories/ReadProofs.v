(** Proofs about the attributes of a population (C91). *)
From Coq Require Import List String Lia DecimalString DecimalNat.
From Verif Require Import Base BaseFacts Env SimVarModel SimVarSpec SimVarProofs AuxModel PopModel PopSpec PopProofs ReadModel ReadSpec.
Import ListNotations.
Open Scope string_scope.

Section P.
Variable E : env.
Notation V := (V E).
Variables (a : popargs E) (p : population E).
Hypothesis H : pop_new a = Ok p.
Notation m := (pa_sel a).

Lemma args : p_args p = a. Proof. exact (proj1 (new_faithful _ _ _ H)). Qed.
Lemma shown_valid (x : simvar V) o l : shows E x o l m -> length o = length m -> length l = length m -> valid x m.
Proof. intros (<- & <- & S) L1 L2. repeat split; assumption. Qed.

Section One.
Variables (x : simvar V) (o l : list V).
Hypothesis S : shows E x o l m.
Hypothesis L1 : length o = length m.
Hypothesis L2 : length l = length m.
Lemma sel_is : exists s, sv_selected x = Ok s /\ sv_obs s = keep true o m /\ sv_lat s = keep true l m.
Proof. eexists. split; [exact (selected_eq _ _ _ (shown_valid _ _ _ S L1 L2))|]. destruct S as (<- & <- & _). auto. Qed.
Lemma non_is : exists s, sv_non_selected x = Ok s /\ sv_obs s = keep false o m /\ sv_lat s = keep false l m.
Proof. eexists. split; [exact (non_selected_eq _ _ _ (shown_valid _ _ _ S L1 L2))|]. destruct S as (<- & <- & _). auto. Qed.
Lemma u1_is (f : V -> V) : exists s, ufunc1 DFloat f x = Ok s /\ shows E s (map f o) (map f l) m.
Proof.
  destruct S as (<- & <- & SS). unfold ufunc1. rewrite SS, sv_new_ok by (cbn [mask_len]; rewrite ?map_length; lia). eexists. split; [reflexivity|]. repeat split.
Qed.
Lemma u2_is (f : V -> V -> V) c : exists s, ufunc2 DFloat f (OScal c) (OVar x) = Ok s /\ shows E s (map (f c) o) (map (f c) l) m.
Proof.
  destruct S as (<- & <- & SS). unfold ufunc2. cbn [obs_arg lat_arg ev2 rbind]. rewrite SS, sv_new_ok by (cbn [mask_len]; rewrite ?map_length; lia). eexists. split; [reflexivity|]. repeat split.
Qed.
End One.

Lemma quantity k x o l : getattr k p = Ok (AVar x) -> shows E x o l m -> is_quantity p k o l m.
Proof. intros G (A & B & C). exists x. auto. Qed.

Theorem quantities : is_quantity p "luminosities" (pa_lum a) (pa_lum a) m /\ is_quantity p "distances" (pa_dist a) (pa_dist a) m /\
  is_quantity p "theta" (pa_theta a) (pa_theta a) m /\ is_quantity p "phi" (pa_phi a) (pa_phi a) m /\
  is_quantity p "fluxes" (pa_fobs a) (pa_flux a) m /\ is_quantity p "fluxes_observed" (pa_fobs a) (pa_flux a) m /\
  is_quantity p "ra" (map (vrad2deg E) (pa_phi a)) (map (vrad2deg E) (pa_phi a)) m /\
  is_quantity p "dec" (map (fun t => vsub E (vofnat E 90) (vrad2deg E t)) (pa_theta a)) (map (fun t => vsub E (vofnat E 90) (vrad2deg E t)) (pa_theta a)) m /\
  match pa_prob a with Some q => is_quantity p "probability" q q m | None => getattr "probability" p = Ok ANone end.
Proof.
  destruct (new_faithful _ _ _ H) as (_ & A1 & A2 & A3 & A4 & A5 & A6 & _). destruct (new_consistent _ _ _ H) as ((L1 & L2 & L3 & L4 & L5 & L6 & _) & _).
  split; [exact (quantity "luminosities" (p_lum p) _ _ eq_refl A1)|]. split; [exact (quantity "distances" (p_dist p) _ _ eq_refl A2)|]. split; [exact (quantity "theta" (p_theta p) _ _ eq_refl A3)|].
  split; [exact (quantity "phi" (p_phi p) _ _ eq_refl A4)|]. split; [exact (quantity "fluxes" (p_flux p) _ _ eq_refl A5)|]. split; [exact (quantity "fluxes_observed" (p_flux p) _ _ eq_refl A5)|].
  split; [|split].
  - destruct (u1_is _ _ _ A4 L4 L4 (vrad2deg E)) as (s & U & Q). apply (quantity "ra" s); [|exact Q].
    change (getattr "ra" p) with (rmap (@AVar E) (ufunc1 DFloat (vrad2deg E) (p_phi p))). now rewrite U.
  - destruct (u1_is _ _ _ A3 L3 L3 (vrad2deg E)) as (s & U & Q).
    assert (LM : length (map (vrad2deg E) (pa_theta a)) = length m) by now rewrite map_length.
    destruct (u2_is _ _ _ Q LM LM (vsub E) (vofnat E 90)) as (s' & U' & Q'). apply (quantity "dec" s').
    + change (getattr "dec" p) with (let? t := ufunc1 DFloat (vrad2deg E) (p_theta p) in rmap (@AVar E) (ufunc2 DFloat (vsub E) (OScal (vofnat E 90)) (OVar t))).
      rewrite U. cbn [rbind]. now rewrite U'.
    + rewrite map_map in Q'. exact Q'.
  - change (getattr "probability" p) with (Ok (or_none (@AVar E) (p_prob p))). destruct (pa_prob a) as [q|], (p_prob p) as [v|] eqn:PV; try contradiction; [|reflexivity].
    apply (quantity "probability" v); [|exact A6]. change (getattr "probability" p) with (Ok (or_none (@AVar E) (p_prob p))). now rewrite PV.
Qed.

Theorem parts : is_variable p "selected_fluxes_observed" (keep true (pa_fobs a) m) (keep true (pa_flux a) m) /\
  is_variable p "selected_distances" (keep true (pa_dist a) m) (keep true (pa_dist a) m) /\
  is_variable p "hidden_fluxes_observed" (keep false (pa_fobs a) m) (keep false (pa_flux a) m) /\
  is_variable p "hidden_distances" (keep false (pa_dist a) m) (keep false (pa_dist a) m) /\
  is_array p "selected_fluxes_latent" (keep true (pa_flux a) m) /\ is_array p "hidden_fluxes_latent" (keep false (pa_flux a) m) /\
  is_array p "luminosities_latent" (pa_lum a) /\ is_array p "fluxes_latent" (pa_flux a) /\ is_array p "known_distances" (pa_known a).
Proof.
  destruct (new_faithful _ _ _ H) as (AR & A1 & A2 & _ & _ & A5 & _). destruct (new_consistent _ _ _ H) as ((L1 & L2 & L3 & L4 & L5 & L6 & _) & _).
  destruct (sel_is _ _ _ A5 L5 L6) as (s & U1 & O1 & T1). destruct (non_is _ _ _ A5 L5 L6) as (n & U2 & O2 & T2).
  destruct (sel_is _ _ _ A2 L2 L2) as (sd & U3 & O3 & T3). destruct (non_is _ _ _ A2 L2 L2) as (nd & U4 & O4 & T4).
  split; [exists s; split; [exact (f_equal (rmap (@AVar E)) U1)|auto]|]. split; [exists sd; split; [exact (f_equal (rmap (@AVar E)) U3)|auto]|].
  split; [exists n; split; [exact (f_equal (rmap (@AVar E)) U2)|auto]|]. split; [exists nd; split; [exact (f_equal (rmap (@AVar E)) U4)|auto]|].
  split; [rewrite <- T1; exact (f_equal latent_of U1)|]. split; [rewrite <- T2; exact (f_equal latent_of U2)|].
  destruct A1 as (_ & <- & _). destruct A5 as (_ & <- & _). split; [reflexivity|]. split; [reflexivity|].
  unfold is_array. rewrite <- AR. reflexivity.
Qed.

Theorem the_rest : getattr "graph" p = Ok (AGraph (pa_graph a)) /\ getattr "truth" p = Ok (ATruth (pa_truth a)) /\ getattr "flux_sigma" p = Ok (ANum (pa_sigma a)) /\
  getattr "pop_synth" p = Ok (match pa_popsynth a with Some t => ASynth t | None => ANone end) /\
  getattr "luminosity_parameters" p = Ok (match pa_lfpar a with Some d => APars d | None => ANone end) /\
  getattr "spatial_parameters" p = Ok (APars (pa_sppar a)) /\ getattr "selection" p = Ok (AMask m) /\
  getattr "n_objects" p = Ok (ANat (length m)) /\ getattr "n_detections" p = Ok (ANat (length (filter (fun b => b) m))) /\
  getattr "n_non_detections" p = Ok (ANat (length (filter negb m))) /\ getattr "has_detections" p = Ok (ABool (existsb (fun b => b) m)).
Proof.
  destruct (new_counts _ _ _ H) as (C1 & C2 & C3 & C4).
  assert (F1 : forall l, count l = length (filter (fun b : bool => b) l)) by (induction l as [|[] l IH]; cbn in *; congruence).
  assert (F2 : forall l, length (filter negb l) + length (filter (fun b : bool => b) l) = length l) by (induction l as [|[] l IH]; cbn; lia).
  assert (F3 : forall l, existsb (fun b : bool => b) l = negb (Nat.eqb (length (filter (fun b : bool => b) l)) 0)) by (induction l as [|[] l IH]; [reflexivity|reflexivity|exact IH]).
  assert (AR := args). rewrite F1 in C2. specialize (F2 m).
  split; [rewrite <- AR; reflexivity|]. split; [rewrite <- AR; reflexivity|]. split; [rewrite <- AR; reflexivity|]. split; [rewrite <- AR; reflexivity|].
  split; [rewrite <- AR; reflexivity|]. split; [rewrite <- AR; reflexivity|]. split; [rewrite <- AR; reflexivity|].
  split; [rewrite <- C1; reflexivity|]. split; [rewrite <- C2; reflexivity|]. split.
  - change (getattr "n_non_detections" p) with (Ok (@ANat E (p_nnon p))). do 2 f_equal. lia.
  - change (getattr "has_detections" p) with (Ok (@ABool E (negb (p_nodet p)))). do 2 f_equal. rewrite F3. f_equal. rewrite <- C2.
    destruct (p_nodet p), (Nat.eqb_spec (p_ndet p) 0) as [Z|Z]; try reflexivity; [destruct (Z (proj1 C4 eq_refl))|discriminate (proj2 C4 Z)].
Qed.

Lemma property_names k r : dget (properties p) k = Some r -> In k readonly.
Proof. intros D. apply dget_In in D. apply (in_map fst) in D. cbn [fst] in D. revert D. unfold properties. cbn [map fst]. unfold readonly. cbn [In]. tauto. Qed.
Lemma aux_get (x : dict (list V * list V)) (y : dict (simvar V)) k t o :
  Forall2 (fun kv kx => fst kx = fst kv /\ shows E (snd kx) (snd (snd kv)) (fst (snd kv)) m) x y -> NoDup (dkeys x) -> In (k, (t, o)) x ->
  exists v, dget y k = Some v /\ shows E v o t m.
Proof.
  intros F. induction F as [|[k0 v0] [k1 v1] x y [Q S] F IH]; [intros _ []|]. cbn [fst snd] in Q, S. subst k1. intros N I. inversion N as [|? ? N1 N2]; subst.
  cbn [dget]. destruct I as [I|I].
  - injection I as -> ->. rewrite String.eqb_refl. eauto.
  - destruct (String.eqb_spec k k0) as [->|D].
    + exfalso. apply N1. apply (in_map fst) in I. exact I.
    + apply IH; assumption.
Qed.
Theorem auxiliary x : pa_aux a = Some x -> NoDup (dkeys x) -> forall k t o, In (k, (t, o)) x -> is_quantity p k o t m.
Proof.
  intros PA N k t o I. destruct (new_faithful _ _ _ H) as (_ & _ & _ & _ & _ & _ & _ & F). rewrite PA in F.
  destruct (aux_get _ _ _ _ _ F N I) as (v & D & S). apply (quantity _ v); [|exact S].
  unfold getattr. destruct (dget (properties p) k) as [r|] eqn:Q; [|now rewrite D].
  exfalso. apply property_names in Q. apply (new_free _ _ _ H _ _ _ PA I). unfold taken. apply in_or_app. now left.
Qed.
Lemma read_quantity k o l : is_quantity p k o l m -> exists v, getattr k p = Ok v.
Proof. intros (x & G & _). eauto. Qed.
Lemma read_variable k o l : is_variable p k o l -> exists v, getattr k p = Ok v.
Proof. intros (x & G & _). eauto. Qed.
Lemma read_array k l : is_array p k l -> exists v, getattr k p = Ok v.
Proof. intros G. unfold is_array in G. eauto. Qed.
Theorem readable k : In k readonly -> ~ In k ["hard_cut"; "distance_probability"; "__weakref__"] -> exists v, getattr k p = Ok v.
Proof.
  intros I N. destruct quantities as (Q1 & Q2 & Q3 & Q4 & Q5 & Q6 & Q7 & Q8 & Q9).
  destruct parts as (P1 & P2 & P3 & P4 & P5 & P6 & P7 & P8 & P9).
  destruct the_rest as (R1 & R2 & R3 & R4 & R5 & R6 & R7 & R8 & R9 & R10 & R11).
  assert (Q9' : exists v, getattr "probability" p = Ok v) by (destruct (pa_prob a); [exact (read_quantity _ _ _ Q9)|eauto]).
  unfold readonly in I. cbn [In] in I, N.
  repeat (destruct I as [<-|I]; [first [now eauto|exact Q9'|eapply read_quantity; eassumption|eapply read_variable; eassumption|eapply read_array; eassumption|exfalso; tauto]|]).
  destruct I.
Qed.
Lemma reads_str n : reads (str_of_nat n) n.
Proof.
  unfold reads, str_of_nat. rewrite NilZero.usu.
  - cbn [option_map]. now rewrite Unsigned.of_to.
  - intros Z. assert (X := Unsigned.of_to n). rewrite Z in X. cbn in X. subst n. discriminate Z.
Qed.
Theorem text : exists s1 s2 s3, repr p = "total number of objects: " ++ s1 ++ newline ++ " number of detections: " ++ s2 ++ newline ++ " number of non-detections: " ++ s3 /\
  reads s1 (length m) /\ reads s2 (length (filter (fun b => b) m)) /\ reads s3 (length (filter negb m)).
Proof.
  destruct (new_counts _ _ _ H) as (C1 & _ & C3 & _). destruct the_rest as (_ & _ & _ & _ & _ & _ & _ & _ & R1 & R2 & _).
  assert (N1 : p_ndet p = length (filter (fun b => b) m)) by (change (Ok (@ANat E (p_ndet p)) = Ok (ANat (length (filter (fun b => b) m)))) in R1; congruence).
  assert (N2 : p_nnon p = length (filter negb m)) by (change (Ok (@ANat E (p_nnon p)) = Ok (ANat (length (filter negb m)))) in R2; congruence).
  eexists _, _, _. split; [reflexivity|]. rewrite C3, C1, <- N1, <- N2. repeat split; apply reads_str.
Qed.
End P.
