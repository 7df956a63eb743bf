(** The mean number of objects over the reals (C62). *)
From Coq Require Import Reals List String Lra Lia.
From Coquelicot Require Import Coquelicot.
From Verif Require Import Base Env ParamModel SimVarModel DistModel DistSpec SizeSpec LibModel PopModel SynthModel SynthSpec LibPopModel RealModel RealSpec RealProofs.
From Verif Require DistProofs SurveySize.
Import ListNotations.
Open Scope R_scope.
Open Scope string_scope.

Section P.
Variable m : machine.
Notation E := (real_env m).
Hypothesis Q : quad_exact m.

Notation poisson_survey := (poisson_survey m).
Lemma unit_det c (o : pobj R) ks v1 v2 : unit_values E c o ks v1 -> unit_values E c o ks v2 -> v1 = v2.
Proof.
  intros F. revert v2. induction F as [|k w ks ws H F IH]; intros v2 G; inversion G; subst; [easy|].
  f_equal; [congruence|auto].
Qed.
Lemma quad_is f (g : R -> R) a b v : (forall x, f x = Ok (g x)) -> ex_RInt g a b -> mc_quad m f a b = Ok v -> v = RInt g a b.
Proof. intros H I R. rewrite (Q f g a b) in R; [congruence|auto|exact I]. Qed.

Lemma mean_integral (c : spcls E) rm vals (g : R -> R) d :
  instance m c rm d -> values E (sc_params c) (sd_par d) (sc_reads c) vals ->
  (forall r, sc_dens c vals r = Ok (g r)) -> ex_RInt g 0 rm -> poisson_survey false d (RInt g 0 rm).
Proof.
  intros (C & W & _ & R) VV D I prog fuel rl fs l10 y p y' <- H. subst c.
  destruct (SurveySize.survey_size_drawn E _ _ _ _ _ _ _ _ _ H W) as (rate & (rm' & vals' & R' & V' & QR) & P); [discriminate|].
  rewrite R in R'. injection R' as <-. rewrite (DistProofs.values_det _ _ _ _ _ _ V' VV) in QR.
  rewrite <- (quad_is _ g _ _ _ D I QR). exact P.
Qed.
Lemma mean_norm (c : spcls E) rm L vals uvals (g : R -> R) d k :
  instance m c rm d -> values E (sc_params c) (sd_par d) (sc_reads c) vals -> unit_values E (sc_params c) (sd_par d) (sc_reads c) uvals ->
  po_norm (sd_par d) = Some k -> dget (po_store (sd_par d)) k <> Some None ->
  (forall r, sc_dens c uvals r = Ok (g r)) -> (forall r, sc_dens c vals r = Ok (L * g r)) -> ex_RInt g 0 rm /\ 0 < RInt g 0 rm ->
  poisson_survey true d L.
Proof.
  intros (C & W & _ & R) VV UV N NS D1 D2 (I & P0) prog fuel rl fs l10 y p y' <- H. subst c.
  destruct (SurveySize.survey_size_drawn E _ _ _ _ _ _ _ _ _ H W) as (rate & (rm' & vals' & R' & V' & uvals' & i & U' & QI & QR) & P).
  { intros _ k' N'. congruence. }
  rewrite N in U'. rewrite R in R'. injection R' as <-.
  rewrite (DistProofs.values_det _ _ _ _ _ _ V' VV) in QR. rewrite (unit_det _ _ _ _ _ U' UV) in QI.
  assert (i = RInt g 0 rm) as -> by exact (quad_is _ g _ _ _ D1 I QI).
  replace L with rate; [exact P|].
  assert (X : is_RInt (fun r => L * (g r / RInt g 0 rm)) 0 rm L).
  { pose proof (is_RInt_scal (V := R_NormedModule) (fun r => g r / RInt g 0 rm) 0 rm L 1) as X.
    assert (Y : is_RInt (fun r => L * (g r / RInt g 0 rm)) 0 rm (L * 1)) by (apply X, scaled_one; [exact I|lra]).
    rewrite Rmult_1_r in Y. exact Y. }
  rewrite <- (is_RInt_unique _ _ _ _ X). refine (quad_is _ _ _ _ _ _ _ QR).
  - intros x. rewrite D2. cbn. f_equal. field. apply Rgt_not_eq. exact P0.
  - now exists L.
Qed.
Lemma mean_untouched (c : spcls E) rm vals (g : R -> R) d :
  instance m c rm d -> values E (sc_params c) (sd_par d) (sc_reads c) vals -> po_norm (sd_par d) = None ->
  (forall r, sc_dens c vals r = Ok (g r)) -> ex_RInt g 0 rm /\ 0 < RInt g 0 rm ->
  poisson_survey true d 1.
Proof.
  intros (C & W & _ & R) VV N D (I & P0) prog fuel rl fs l10 y p y' <- H. subst c.
  destruct (SurveySize.survey_size_drawn E _ _ _ _ _ _ _ _ _ H W) as (rate & (rm' & vals' & R' & V' & uvals' & i & U' & QI & QR) & P).
  { intros _ k' N'. congruence. }
  rewrite N in U'. rewrite R in R'. injection R' as <-. subst uvals'.
  rewrite (DistProofs.values_det _ _ _ _ _ _ V' VV) in QR, QI.
  assert (i = RInt g 0 rm) as -> by exact (quad_is _ g _ _ _ D I QI).
  replace 1 with rate; [exact P|].
  assert (X : is_RInt (fun r => g r / RInt g 0 rm) 0 rm 1) by (apply scaled_one; [exact I|lra]).
  rewrite <- (is_RInt_unique _ _ _ _ X). refine (quad_is _ _ _ _ _ _ _ QR).
  - intros x. rewrite D. reflexivity.
  - now exists 1.
Qed.

(** ** Library instances *)
Variables (sol rel Om h0 : R).
Variables (sky : string -> option (list R -> nat -> mc_st m -> res (spvals E) * mc_st m))
  (draw : string -> list R -> nat -> mc_st m -> res (list R) * mc_st m)
  (phi : string -> list R -> R -> res R) (form : string -> string).
Notation fo := (lib sol rel Om h0 m sky draw phi form).
Notation reads := (reads m).

Lemma sphere_int_value rm : RInt (dens_sphere 1) 0 rm = 4 * PI * rm ^ 3 / 3.
Proof.
  apply is_RInt_unique. apply (is_RInt_ext (fun r => 4 * PI * r ^ 2)).
  - intros x _. unfold dens_sphere, sphere_volume. simpl. field.
  - replace (4 * PI * rm ^ 3 / 3) with ((fun r => 4 * PI * r ^ 3 / 3) rm - (fun r => 4 * PI * r ^ 3 / 3) 0) by (simpl; field).
    apply (is_RInt_derive (V := R_CompleteNormedModule) (fun r => 4 * PI * r ^ 3 / 3) (fun r => 4 * PI * r ^ 2)).
    + intros x _. auto_derive; [easy|]. simpl. field.
    + intros x _. apply derives. auto_derive. easy.
Qed.
Lemma sphere_mean rate rm L d : instance m (sd_cls (fst (ConstantSphericalDistribution fo rate))) rm d -> reads d "Lambda" L ->
  poisson_survey false d (L * (4 / 3 * PI * rm ^ 3)).
Proof.
  intros I HL. assert (P : 0 < rm) by apply I. unfold RealSpec.reads in HL. rewrite (proj1 I) in HL.
  replace (L * (4 / 3 * PI * rm ^ 3)) with (RInt (dens_sphere L) 0 rm).
  - apply (mean_integral _ rm [L] (dens_sphere L) d I); [constructor; [exact HL|constructor]|reflexivity|].
    apply (ex_RInt_ext (fun r => L * dens_sphere 1 r)); [intros x _; unfold dens_sphere; lra|].
    apply (ex_RInt_scal (V := R_NormedModule)). now apply sphere_int.
  - rewrite (RInt_ext _ (fun r => L * dens_sphere 1 r)); [|intros x _; unfold dens_sphere; lra].
    rewrite (RInt_scal (V := R_CompleteNormedModule)); [|now apply sphere_int]. rewrite sphere_int_value. unfold scal; cbn. unfold mult; cbn. field.
Qed.
(** Normalised surveys: the mean is the value of the normalisation parameter. *)
Ltac vals := repeat constructor; assumption.
Ltac unit := repeat constructor; unfold unit_reading; cbn; try reflexivity; assumption.
Notation assigned := (assigned m).
Ltac go Hn I HL vs us g :=
  destruct HL as (N & S & HL); unfold RealSpec.reads in *; rewrite (proj1 I) in *;
  eapply (mean_norm _ _ _ vs us g _ _ I); [vals|unit|exact N|rewrite S; discriminate|reflexivity|intros r; cbn; f_equal|].
Lemma sphere_normalised rate rm L d : instance m (sd_cls (fst (ConstantSphericalDistribution fo rate))) rm d -> assigned d "Lambda" L -> poisson_survey true d L.
Proof.
  intros I HL. assert (P : 0 < rm) by apply I. go tt I HL [L] [1] (dens_sphere 1); [unfold dens_sphere; lra|now apply sphere_int].
Qed.
Lemma zpow_sphere_normalised rate rm L delta d : instance m (sd_cls (fst (ZPowerSphericalDistribution fo rate))) rm d -> assigned d "Lambda" L -> reads d "delta" delta ->
  poisson_survey true d L.
Proof.
  intros I HL H1. assert (P : 0 < rm) by apply I. go tt I HL [L; delta] [1; delta] (dens_zpow_sphere 1 delta); [unfold dens_zpow_sphere; lra|now apply zpow_sphere_int].
Qed.
Hypothesis Hsol : 0 < sol.
Hypothesis HOm : 0 < Om < 1.
Hypothesis Hh : 0 < h0.
Hypothesis Hrel : 0 <= rel < 1.
Lemma zpow_cosmo_normalised rate rm L delta d : instance m (sd_cls (fst (ZPowerCosmoDistribution fo rate))) rm d -> assigned d "Lambda" L -> reads d "delta" delta ->
  poisson_survey true d L.
Proof.
  intros I HL H1. assert (P : 0 < rm) by apply I. go tt I HL [L; delta] [1; delta] (dens_zpow_cosmo sol rel Om h0 rate 1 delta); [unfold dens_zpow_cosmo, Rdiv; ring|now apply zpow_cosmo_int].
Qed.
Lemma uniform_cosmo_normalised rate rm L zmin zmax d : instance m (sd_cls (fst (UniformCosmoDistribution m fo rate))) rm d -> assigned d "r0" L ->
  reads d "zmin" zmin -> reads d "zmax" zmax -> zmin < zmax -> poisson_survey true d L.
Proof.
  intros I HL H1 H2 H3. assert (P : 0 < rm) by apply I.
  go tt I HL [L; zmin; zmax] [1; zmin; zmax] (dens_uniform_cosmo sol rel Om h0 rate 1 zmin zmax); [unfold dens_uniform_cosmo, Rdiv; ring|now apply uniform_cosmo_int].
Qed.
Lemma sfr_normalised rate rm L a rise decay peak d : instance m (sd_cls (fst (SFRDistribution fo rate))) rm d -> assigned d "r0" L ->
  reads d "a" a -> reads d "rise" rise -> reads d "decay" decay -> reads d "peak" peak ->
  0 <= a -> 0 <= rise -> 0 < a + rise -> 0 < decay -> 0 < peak -> poisson_survey true d L.
Proof.
  intros I HL Ha Hb Hc Hd H1 H2 H3 H4 H5. assert (P : 0 < rm) by apply I.
  go tt I HL [L; a; rise; decay; peak] [1; a; rise; decay; peak] (dens_sfr sol rel Om h0 rate 1 a rise decay peak); [unfold dens_sfr, Rdiv; ring|now apply sfr_int].
Qed.
End P.

(** ** Distances (C63) *)
Section Dist.
Variable m : machine.
Notation E := (real_env m).

Lemma grid_in_range rm r : 0 < rm -> evaluated E rm r -> 0 <= r <= rm.
Proof.
  intros P [I|[H1 H2]].
  - unfold grid in I. apply in_app_or in I. destruct I as [I|[<-|[]]]; [|lra]. apply in_map_iff in I. destruct I as (i & <- & I).
    apply in_seq in I. change (0 <= INR i * (rm / INR 499) <= rm). assert (I' : (i < 499)%nat) by lia. apply lt_INR in I'.
    assert (0 <= INR i) by apply pos_INR. assert (Q : 0 < INR 499) by (apply lt_0_INR; lia).
    split; [apply Rmult_le_pos; [lra|left; now apply Rdiv_lt_0_compat]|].
    replace (INR i * (rm / INR 499)) with (INR i / INR 499 * rm) by (field; lra).
    assert (Z : INR i / INR 499 * rm <= 1 * rm); [|lra]. apply Rmult_le_compat_r; [lra|].
    apply (Rmult_le_reg_r (INR 499)); [exact Q|]. unfold Rdiv. rewrite Rmult_assoc, Rinv_l by (apply Rgt_not_eq; exact Q). rewrite Rmult_1_r, Rmult_1_l. left. exact I'.
  - cbn in H1, H2. unfold leb in H1. unfold ltb in H2. destruct (Rle_dec 0 r); [|discriminate]. destruct (Rlt_dec r rm); [|discriminate]. lra.
Qed.
Lemma leb_iff a b : leb a b = true <-> a <= b. Proof. unfold leb. destruct (Rle_dec a b); split; easy. Qed.
Lemma ltb_iff a b : ltb a b = true <-> a < b. Proof. unfold ltb. destruct (Rlt_dec a b); split; easy. Qed.
(** The contract of [np.random.uniform]. *)
Hypothesis U : forall hi s, (0 < hi -> 0 <= fst (mc_unif m 0 hi s) < hi) /\ (0 <= hi -> 0 <= fst (mc_unif m 0 hi s)).
Lemma laws : le_lt_trans E /\ unif_range E /\ unif_nonneg E /\ max_nonneg E /\ div_nonneg E /\ div_pos E.
Proof.
  split; [intros a b c; cbn; rewrite leb_iff, !ltb_iff; lra|].
  split; [intros hi s; cbn; rewrite leb_iff, !ltb_iff; intros H; now apply U|].
  split; [intros hi s; cbn; rewrite !leb_iff; intros H; now apply U|].
  split; [intros a b; cbn; rewrite !leb_iff; intros H1 H2; apply Rle_trans with a; [exact H1|apply Rmax_l]|].
  split; [intros a b; cbn; rewrite !leb_iff, ltb_iff; intros H1 H2; apply Rmult_le_pos; [exact H1|left; now apply Rinv_0_lt_compat]|].
  intros a b; cbn. rewrite leb_iff, !ltb_iff. intros H1 H2. destruct (Rle_lt_or_eq_dec 0 a H1) as [|<-]; [easy|]. unfold Rdiv in H2. lra.
Qed.
Lemma real_distances (c : spcls E) rm vals uvals (f g : R -> R) prog fuel rl fs l10 norm ns (y : synth E) p y' :
  quad_exact m -> instance m c rm (y_sp y) -> sc_sky c = None ->
  values E (sc_params c) (sd_par (y_sp y)) (sc_reads c) vals -> unit_values E (sc_params c) (sd_par (y_sp y)) (sc_reads c) uvals ->
  (forall r, sc_dens c vals r = Ok (f r)) -> (forall r, 0 <= r <= rm -> 0 <= f r) ->
  (norm = true -> (forall r, sc_dens c uvals r = Ok (g r)) /\ ex_RInt g 0 rm /\ 0 < RInt g 0 rm) ->
  (norm = true -> ns = None -> norm_value E (sd_par (y_sp y))) ->
  draw_survey prog fuel rl fs l10 ns norm y = (Ok p, y') ->
  length (sv_lat (p_dist p)) = p_nobj p /\ forall r, In r (sv_lat (p_dist p)) -> 0 <= r < rm /\ 0 < f r.
Proof.
  intros Q (C & W & P & R) SK VV UV D NN NG NV H. subst c. destruct laws as (L1 & L2 & L3 & L4 & L5 & L6).
  destruct (SurveySize.survey_distances E prog fuel rl fs l10 norm ns y p y' rm vals uvals L1 L2 L3 L4 L5 L6 H SK W NV R) as (_ & L & X); auto.
  - now apply ltb_iff.
  - intros r d EV Hd. rewrite D in Hd. injection Hd as <-. apply leb_iff. apply NN. now apply grid_in_range.
  - intros N i Hi. destruct (NG N) as (DG & I & PI). apply ltb_iff. change (0 < i). rewrite (quad_is m Q _ g _ _ _ DG I Hi). exact PI.
  - split; [exact L|]. intros r Hr. destruct (X r Hr) as (X1 & X2 & x & X3 & X4). apply leb_iff in X1. apply ltb_iff in X2. apply ltb_iff in X4.
    rewrite D in X3. injection X3 as <-. split; [split; [exact X1|exact X2]|exact X4].
Qed.
End Dist.
