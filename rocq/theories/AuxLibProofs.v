(** The values of the predefined auxiliary samplers. *)
From Coq Require Import Reals List String Lra Lia.
From Coquelicot Require Import Coquelicot.
From Verif Require Import Base BaseFacts Env ParamModel SelModel DistModel DistSpec DistProofs AuxModel AuxSpec AuxProofs AuxMore AuxRunSpec AuxRuns LibModel LibSpec LibProofs LibLum LibGeo RealModel AuxLibModel AuxLibSpec.
Import ListNotations.
Open Scope R_scope.
Open Scope string_scope.
Open Scope list_scope.

Section G.
Variable E : env.
(** Every sampler evaluated by a draw. *)
Lemma fresh_made prog fuel i size (w w' : world E) : acyclic w -> (forall j, reaches w i j -> ~ sampled w j) ->
  aux_draw prog fuel i size w = (Ok tt, w') ->
  forall j a, reaches w i j -> at_ w' j a -> a_sampled (a_dy a) = true /\ filled size a /\ made_by_methods size w' a.
Proof.
  intros AC N H j a R A. destruct (fresh_draw _ _ _ _ _ _ _ AC N H j R) as (b & B & S & F & _).
  assert (b = a) by (eapply at_fun; eauto). subst b. split; [exact S|]. split; [exact F|]. destruct AC as (r & RK).
  destruct (draw_made _ _ _ _ _ _ _ r RK H j) as (b & B' & M); [now apply N|exists a; auto|].
  assert (b = a) by (eapply at_fun; eauto). now subst b.
Qed.
End G.

Lemma rdraws_all S A (f : S -> A * S) (P : A -> Prop) n : (forall g, P (fst (f g))) -> forall g, Forall P (fst (rdraws f n g)).
Proof.
  intros H. induction n as [|n IH]; intros g; cbn; [constructor|]. assert (Q := H g). destruct (f g) as [x g1]. specialize (IH g1).
  destruct (rdraws f n g1). cbn in *. now constructor.
Qed.

Section P.
Variable m : machine.
Notation E := (real_env m).
Variable tnorm : R -> R -> mc_st m -> R * mc_st m.
Variable nunif : mc_nst m -> R * mc_nst m.
Variable ppf : R.
Notation kind := (aux_kind m tnorm nunif ppf).
Hypothesis U : unit_uniform m nunif.

Lemma units n g l g' : rdraws (unit1 m) n g = (l, g') -> Forall (fun u => 0 <= u < 1) l /\ length l = n.
Proof.
  intros H. split.
  - replace l with (fst (rdraws (unit1 m) n g)) by now rewrite H. apply rdraws_all. intros s. apply U.
  - replace l with (fst (rdraws (unit1 m) n g)) by now rewrite H. apply rdraws_length.
Qed.
Lemma Forall_map {A B} (f : A -> B) (P : B -> Prop) l : Forall (fun x => P (f x)) l -> Forall P (map f l).
Proof. induction 1; cbn; constructor; auto. Qed.
Lemma all_units {A} (f : R -> A) (P : A -> Prop) l : (forall u, 0 <= u < 1 -> P (f u)) -> Forall (fun u => 0 <= u < 1) l -> Forall P (map f l).
Proof. intros H F. apply Forall_map. eapply Forall_impl; [|exact F]. exact H. Qed.

Lemma in_range_ok lower upper r v : in_range lower upper r = Ok v -> Forall (fun x => lower <= x <= upper) v.
Proof.
  unfold in_range, rbind, rassert. destruct r as [l|]; [|discriminate]. destruct (forallb _ l) eqn:A; [|discriminate].
  destruct (forallb (fun x => leb x upper) l) eqn:B; [|discriminate]. intros [= <-]. rewrite forallb_forall in A, B. apply Forall_forall.
  intros x I. specialize (A x I). specialize (B x I). unfold leb in *. destruct (Rle_dec lower x); [|discriminate]. destruct (Rle_dec x upper); [|discriminate]. lra.
Qed.

Ltac split_reads := repeat match goal with
  | H : Forall2 _ (_ :: _) _ |- _ => inversion H; clear H; subst
  | H : Forall2 _ [] _ |- _ => inversion H; clear H; subst
  end.

(** What a class draws, for parameter values [vals]. *)
Lemma true_in_range c (p : string -> R) vals v size g x g' : c <> Dec -> sensible c p ->
  Forall2 (fun k y => p k = y) (k_treads (kind c)) vals ->
  k_true (kind c) vals v size g = (Ok x, g') -> exists t, x = Some t /\ Forall (documented_range c p) t.
Proof.
  intros ND SE F H. destruct c; try contradiction; cbn [aux_kind measured latent k_treads k_true] in F, H; split_reads;
    unfold from_numpy, plaw_true in H; cbn [sensible documented_range] in *.
  - (* Delta *) cbn in H. injection H as <- <-. eexists. split; [reflexivity|]. apply Forall_forall. intros x I. now apply repeat_spec in I.
  - (* Normal *) match type of H with context [normal_true m ?a ?b ?c] => destruct (normal_true m a b c) as [[t|] g1] end; [|discriminate].
    injection H as <- <-. eexists. split; [reflexivity|]. apply Forall_forall. easy.
  - (* LogNormal *) cbn [lognormal_true] in H. destruct (norm_rvs _ _ _ _ _) as [[t|] g1]; [|discriminate]. injection H as <- <-.
    eexists. split; [reflexivity|]. apply Forall_map, Forall_forall. intros. apply exp_pos.
  - (* Log10Normal *) cbn [log10normal_true] in H. destruct (norm_rvs _ _ _ _ _) as [[t|] g1]; [|discriminate]. injection H as <- <-.
    eexists. split; [reflexivity|]. apply Forall_map, Forall_forall. intros. apply exp_pos.
  - (* TruncNormal *) cbn [trunc_normal_true] in H. destruct (Req_EM_T _ 0); [discriminate|]. destruct (tn_bounds _ _ _ _) as [a b].
    destruct (truncnorm_rvs _ _ _ _ _ _ _ _) as [r g1]. destruct (in_range _ _ r) as [t|] eqn:Q; [|discriminate]. injection H as <- <-.
    eexists. split; [reflexivity|]. exact (in_range_ok _ _ _ _ Q).
  - cbn [trunc_lognormal_true] in H. destruct (ltb _ 0); [discriminate|]. destruct (leb _ 0); [discriminate|]. destruct (Req_EM_T _ 0); [discriminate|]. destruct (tln_bounds _ _ _ _ _) as [a b].
    destruct (truncnorm_rvs _ _ _ _ _ _ _ _) as [r g1]. destruct (in_range _ _ _) as [t|] eqn:Q; [|discriminate]. injection H as <- <-.
    eexists. split; [reflexivity|]. exact (in_range_ok _ _ _ _ Q).
  - cbn [trunc_log10normal_true] in H. destruct (ltb _ 0); [discriminate|]. destruct (leb _ 0); [discriminate|]. destruct (Req_EM_T _ 0); [discriminate|]. destruct (tl10_bounds _ _ _ _ _) as [a b].
    destruct (truncnorm_rvs _ _ _ _ _ _ _ _) as [r g1]. destruct (in_range _ _ _) as [t|] eqn:Q; [|discriminate]. injection H as <- <-.
    eexists. split; [reflexivity|]. exact (in_range_ok _ _ _ _ Q).
  - (* Pareto *) cbn [pareto_true] in H. destruct (leb _ 0) eqn:LA; [discriminate|]. unfold leb in LA. destruct (Rle_dec _ 0) as [|NA]; [discriminate|].
    destruct (rdraws (unit1 m) size (fst g)) as [u g1] eqn:D. injection H as <- <-. destruct (units _ _ _ _ D) as [FU _].
    eexists. split; [reflexivity|]. eapply all_units; [|exact FU]. intros z Z. cbn. unfold pareto_draw, np_pareto.
    assert (1 <= exp (- ln (1 - z) / p "alpha")).
    { rewrite <- exp_0 at 1. destruct (Req_dec z 0) as [->|NZ].
      - rewrite Rminus_0_r, ln_1. replace (- 0 / p "alpha") with 0 by (field; lra). lra.
      - left. apply exp_increasing. apply Rdiv_lt_0_compat; [|lra]. assert (ln (1 - z) < ln 1) by (apply ln_increasing; lra). rewrite ln_1 in *. lra. }
    nra.
  - (* PowerLaw *) destruct (rdraws nunif size (snd g)) as [u g1] eqn:D. injection H as <- <-.
    assert (FU : Forall (fun u => 0 <= u < 1) u).
    { replace u with (fst (rdraws nunif size (snd g))) by now rewrite D. apply rdraws_all. intros s. apply U. }
    eexists. split; [reflexivity|]. eapply all_units; [|exact FU]. intros z Z. cbn.
    destruct (spl_quantile (p "xmin") (p "xmax") (p "alpha") z) as [Q _]; [exact SE|lra|exact Q].
  - (* BrokenPowerLaw *) cbn [bpl_true] in H. destruct (rdraws (unit1 m) size (fst g)) as [u g1] eqn:D.
    destruct (Req_EM_T _ (-1)) as [|N1]; [discriminate|]. destruct (Req_EM_T _ (-1)) as [|N2]; [discriminate|].
    destruct (mc_bern_ok m _); [|discriminate]. destruct (rdraws (mc_bern m _) size g1) as [s g2]. injection H as <- <-.
    destruct (units _ _ _ _ D) as [FU _]. eexists. split; [reflexivity|]. apply Forall_map, Forall_forall. intros [b z] I.
    apply in_combine_r in I. rewrite Forall_forall in FU. specialize (FU z I). cbn [fst snd]. destruct SE as [[S1 S2] S3]. apply sample_range; auto; lra.
  - (* RA *) cbn [ra_true] in H. unfold ra_true in H. destruct (rdraws (unit1 m) size (fst g)) as [u g1] eqn:D. injection H as <- <-. destruct (units _ _ _ _ D) as [FU _].
    eexists. split; [reflexivity|]. eapply all_units; [|exact FU]. intros z Z. cbn. exact (phi_range z Z).
  - (* ViewingAngle *) cbn [va_truth] in H. destruct (rdraws (unit1 m) size (fst g)) as [u g1] eqn:D. injection H as <- <-. destruct (units _ _ _ _ D) as [FU _].
    eexists. split; [reflexivity|]. eapply all_units; [|exact FU]. intros z Z. cbn.
    assert (0 <= z <= 1) as Z' by lra. destruct (va_true_F _ SE _ Z') as [Q1 Q2]. exact Q1.
Qed.

Theorem library_range prog fuel i size w w' c : c <> Dec -> acyclic w -> (forall j, reaches w i j -> ~ sampled w j) ->
  aux_draw prog fuel i size w = (Ok tt, w') ->
  forall j a p, reaches w i j -> at_ w' j a -> kind_of a = kind c -> has_parameters m a p -> sensible c p ->
  true_values_are m (documented_range c p) size a.
Proof.
  intros ND AC N H j a p R A K HP SE. destruct (fresh_made _ _ _ _ _ _ _ AC N H j a R A) as (_ & (t & o & T & O & LT & LO & _) & M).
  destruct M as (tv & tview & g0 & g1 & x & F & _ & KT & AS & _). rewrite K in F, KT.
  destruct (true_in_range c p tv tview size g0 x g1 ND SE) as (t' & -> & G); [|exact KT|].
  - eapply Forall2_impl; [|exact F]. exact HP.
  - cbn in AS. rewrite T in AS. injection AS as <-. exists t. auto.
Qed.

Lemma declination_range (P : R -> Prop) vals v size g x g' : (forall g, P (fst (mc_unif m 0 1 g))) -> k_true (kind Dec) vals v size g = (Ok x, g') ->
  exists t, x = Some t /\ length t = size /\ Forall (fun y => exists u, P u /\ y = acos (1 - 2 * u)) t.
Proof.
  intros HP. cbn [aux_kind latent k_true]. unfold from_numpy, dec_true. destruct (rdraws (unit1 m) size (fst g)) as [u g1] eqn:D. intros [= <- <-].
  assert (FU : Forall P u) by (replace u with (fst (rdraws (unit1 m) size (fst g))) by (now rewrite D); now apply rdraws_all).
  assert (LU : length u = size) by (replace u with (fst (rdraws (unit1 m) size (fst g))) by (now rewrite D); apply rdraws_length).
  eexists. split; [reflexivity|]. split; [now rewrite map_length|]. apply Forall_map. eapply Forall_impl; [|exact FU].
  intros z Z. cbn. exists z. split; [exact Z|]. unfold np_uniform. f_equal. ring.
Qed.
Theorem declination_drawn (P : R -> Prop) prog fuel i size w w' : (forall g, P (fst (mc_unif m 0 1 g))) -> acyclic w -> (forall j, reaches w i j -> ~ sampled w j) ->
  aux_draw prog fuel i size w = (Ok tt, w') ->
  forall j a, reaches w i j -> at_ w' j a -> kind_of a = kind Dec ->
  true_values_are m (fun y => exists u, P u /\ y = acos (1 - 2 * u)) size a.
Proof.
  intros HP AC N H j a R A K. destruct (fresh_made _ _ _ _ _ _ _ AC N H j a R A) as (_ & (t & o & T & O & LT & LO & _) & M).
  destruct M as (tv & tview & g0 & g1 & x & F & _ & KT & AS & _). rewrite K in KT.
  destruct (declination_range P _ _ _ _ _ _ HP KT) as (t' & -> & L & G). cbn in AS. rewrite T in AS. injection AS as <-. exists t. auto.
Qed.

(** ** Observed values *)
Lemma norm_rvs_ok loc s size g o g' : norm_rvs m loc s size g = (Ok o, g') -> 0 <= s /\ measured_from m loc o s /\ (s = 0 -> o = loc /\ g' = g).
Proof.
  unfold norm_rvs. destruct (ltb s 0) eqn:L; [discriminate|]. unfold ltb in L. destruct (Rlt_dec s 0) as [|NL]; [discriminate|].
  destruct (Nat.eqb_spec (length loc) size) as [LL|]; [|discriminate]. cbn [negb]. destruct (Req_EM_T s 0) as [->|NZ].
  - intros [= <- <-]. split; [lra|]. split; [|auto]. exists g. split; [reflexivity|]. intros i x z X _. rewrite X. f_equal. lra.
  - destruct (rdraws (norm1 m) size g) as [z g1] eqn:D. intros [= <- <-]. split; [lra|]. split; [|contradiction].
    assert (LZ : length z = size) by (replace z with (fst (rdraws (norm1 m) size g)) by (now rewrite D); apply rdraws_length).
    exists g. split; [rewrite map_length, combine_length; lia|]. intros i x zi X Z. rewrite LL in Z. change (mc_norm m 0 1) with (norm1 m) in Z. rewrite D in Z. cbn in Z.
    rewrite nth_error_map. assert (C : nth_error (combine loc z) i = Some (x, zi)).
    { clear - X Z. revert loc z X Z. induction i as [|i IH]; intros [|a l] [|b r]; cbn; try discriminate; [congruence|auto]. }
    rewrite C. cbn. f_equal. ring.
Qed.

Lemma obs_measured c vals v size g y g' s t : angle_name c = None -> vw_true v = Some t -> vals = [s] ->
  k_obs (kind c) vals v size g = (Ok y, g') -> exists o, y = Some o /\ 0 <= s /\ measured_from m t o s /\ (s = 0 -> o = t).
Proof.
  intros N T -> H. assert (H' : normal_obs m [s] v size g = (Ok y, g')) by (destruct c; try discriminate; exact H). clear H.
  unfold normal_obs in H'. rewrite T in H'. destruct (norm_rvs m t s size (fst g)) as [[o|] g1] eqn:Q; [|discriminate]. injection H' as <- <-.
  destruct (norm_rvs_ok _ _ _ _ _ _ Q) as (P & M & Z). exists o. split; [reflexivity|]. split; [exact P|]. split; [exact M|]. intros S. now apply Z.
Qed.
Lemma oreads c : angle_name c = None -> k_oreads (kind c) = ["sigma"].
Proof. destruct c; easy. Qed.

Theorem library_observed prog fuel i size w w' c : angle_name c = None -> acyclic w -> (forall j, reaches w i j -> ~ sampled w j) ->
  aux_draw prog fuel i size w = (Ok tt, w') ->
  forall j a, reaches w i j -> at_ w' j a -> kind_of a = kind c ->
  exists t o, a_true (a_dy a) = Some t /\ a_obs (a_dy a) = Some o /\ length t = size /\
    if a_observed (a_st a) then exists s, reads_as a "sigma" s /\ 0 <= s /\ measured_from m t o s /\ (s = 0 -> o = t) else o = t.
Proof.
  intros NA AC N H j a R A K. destruct (fresh_made _ _ _ _ _ _ _ AC N H j a R A) as (_ & (t & o & T & O & LT & LO & OT) & M).
  exists t, o. split; [exact T|]. split; [exact O|]. split; [exact LT|].
  destruct M as (tv & tview & g0 & g1 & x & _ & _ & _ & _ & OB & _). destruct (a_observed (a_st a)); [|now apply OT].
  destruct OB as (ov & oview & g2 & y & F & _ & V & KO & AS). rewrite K in F, KO. rewrite (oreads c NA) in F. inversion F as [|? s ? l RS F' Q1 Q2]. subst. inversion F'. subst.
  rewrite T in V. destruct (obs_measured c _ _ _ _ _ _ s t NA V eq_refl KO) as (o' & -> & P & Z1 & Z2). cbn in AS. rewrite O in AS. injection AS as <-.
  exists s. auto.
Qed.

(** BrokenPowerLawAuxSampler has no parameter [sigma]. *)
Theorem broken_power_law_fails prog fuel i size w a : acyclic w -> (forall j, reaches w i j -> ~ sampled w j) ->
  at_ w i a -> kind_of a = kind BrokenPowerLaw -> a_observed (a_st a) = true -> fst (aux_draw prog fuel i size w) <> Ok tt.
Proof.
  intros AC N A K OB H. destruct (aux_draw prog fuel i size w) as [r w'] eqn:D. cbn in H. subst r.
  destruct (fresh_draw _ _ _ _ _ _ _ AC N D i (reaches_refl _ _)) as (b & B & _).
  destruct (draw_exactly _ _ _ _ _ _ _ AC D) as (t & DR & _). destruct (wiring_at _ _ _ _ _ (dr_wiring DR) A) as (b' & B' & E1 & E2).
  assert (b' = b) by (eapply at_fun; eauto). subst b'.
  assert (K' : kind_of b = kind BrokenPowerLaw) by (unfold kind_of in *; now rewrite E1).
  destruct (library_observed prog fuel i size w w' BrokenPowerLaw eq_refl AC N D i b (reaches_refl _ _) B K') as (t1 & o1 & _ & _ & _ & X).
  rewrite E1, OB in X. destruct X as (s & RS & _). unfold reads_as, reading in RS. rewrite K' in RS. cbn in RS. discriminate.
Qed.
End P.
