(** Densities with a bounded slope are followed up to an error (C70). *)
From Coq Require Import Reals ZArith List String Lra Lia.
From Coquelicot Require Import Coquelicot.
From Verif Require Import Base Env ParamModel SimVarModel DistModel DistSpec SizeSpec AuxModel PopModel SynthModel SynthSpec LibModel LibPopModel LibPopSpec LumLibModel RealModel RealSpec RunSpec LawSpec NearSpec.
From Verif Require LibGeo RealProofs Law LawLib.
Import ListNotations.
Open Scope R_scope.

(** Every distance is within half a step of one of the 500. *)
Lemma nearest rm r : 0 < rm -> 0 <= r <= rm -> exists k, (k <= 499)%nat /\ Rabs (r - INR k * (rm / 499)) <= rm / 998.
Proof.
  intros P R0. set (t := r / rm * 499 + 1 / 2).
  assert (T : 0 <= r / rm <= 1). { split; [apply Rdiv_le_0_compat; lra|]. apply Rmult_le_reg_r with rm; [exact P|]. unfold Rdiv. rewrite Rmult_assoc, Rinv_l; lra. }
  destruct (nfloor_ex t) as (k & K1 & K2); [unfold t; lra|]. exists k. split.
  - apply INR_le. rewrite Law.INR499. apply Rnot_lt_le. intros X. assert (499 < k)%nat by (apply INR_lt; rewrite Law.INR499; exact X).
    assert (500 <= k)%nat as Y by lia. apply le_INR in Y. rewrite (INR_IZR_INZ 500) in Y. change (IZR (Z.of_nat 500)) with 500 in Y. unfold t in K1. lra.
  - replace (r - INR k * (rm / 499)) with ((r / rm * 499 - INR k) * (rm / 499)) by (field; lra). rewrite Rabs_mult. rewrite (Rabs_pos_eq (rm / 499)) by lra.
    apply Rle_trans with (1 / 2 * (rm / 499)); [|lra]. apply Rmult_le_compat_r; [lra|]. apply Rabs_le. unfold t in *. lra.
Qed.
Lemma above_max eps f rm M r : 0 < rm -> varies_by eps f rm -> grid_max f rm M -> 0 <= r <= rm -> f r - eps <= M.
Proof.
  intros P S (_ & B) R0. destruct (nearest rm r P R0) as (k & L & D). specialize (B k L).
  assert (G : 0 <= INR k * (rm / 499) <= rm).
  { apply le_INR in L. rewrite Law.INR499 in L. assert (0 <= INR k) by apply pos_INR. split; [apply Rmult_le_pos; lra|]. rewrite <- (Law.at_end rm) at 2. apply Rmult_le_compat_r; lra. }
  specialize (S r _ R0 G D). lra.
Qed.
Lemma varies_nonneg eps f rm : 0 < rm -> varies_by eps f rm -> 0 <= eps.
Proof. intros P V. specialize (V 0 0 ltac:(lra) ltac:(lra)). rewrite Rminus_0_r, Rabs_R0 in V. specialize (V ltac:(lra)). lra. Qed.

Lemma clipped_near (f F : R -> R) (M H rm c eps : R) : 0 < c -> 0 <= M -> 0 <= eps -> H = c * M ->
  (forall r, 0 <= r <= rm -> F r = c * f r /\ 0 <= f r /\ continuous f r /\ f r - eps <= M) -> nearly_follows eps f F H rm.
Proof.
  intros PC HM PE HH HF. exists c. split; [exact PC|]. intros a b L.
  assert (CF : forall r, a <= r <= b -> continuous (fun x => Rmin (f x) M) r) by (intros r Hr; apply Law.min_continuous; apply HF; lra).
  assert (EF : ex_RInt f a b). { apply (ex_RInt_continuous (V := R_CompleteNormedModule)). intros z Hz. rewrite Rmin_left, Rmax_right in Hz by lra. apply HF. lra. }
  assert (EM : ex_RInt (fun x => Rmin (f x) M) a b). { apply (ex_RInt_continuous (V := R_CompleteNormedModule)). intros z Hz. rewrite Rmin_left, Rmax_right in Hz by lra. now apply CF. }
  assert (EC : ex_RInt (fun _ => eps) a b) by apply ex_RInt_const.
  exists (c * RInt (fun x => Rmin (f x) M) a b). split; [|split].
  - exists (fun r => c * Rmin (f r) M). split.
    + intros r Hr. destruct (HF r ltac:(lra)) as (Q & P & _). replace (c * Rmin (f r) M) with (Rmin (F r) H).
      * apply Law.below_int; [subst H; apply Rmult_le_pos; lra|]. rewrite Q. apply Rmult_le_pos; lra.
      * rewrite Q, HH. unfold Rmin. destruct (Rle_dec (c * f r) (c * M)) as [X|X], (Rle_dec (f r) M) as [Y|Y]; try reflexivity; exfalso.
        -- apply Y. apply Rmult_le_reg_l with c; assumption.
        -- apply X. apply Rmult_le_compat_l; lra.
    + apply (is_RInt_scal (V := R_NormedModule)). now apply (RInt_correct (V := R_CompleteNormedModule)).
  - apply Rmult_le_compat_l; [lra|]. replace (eps * (b - a)) with (RInt (fun _ => eps) a b) by (rewrite RInt_const; unfold scal; cbn; unfold mult; cbn; ring).
    change (RInt f a b - RInt (fun _ => eps) a b) with (minus (RInt f a b) (RInt (fun _ => eps) a b)). rewrite <- (RInt_minus (V := R_CompleteNormedModule) f (fun _ => eps) a b EF EC).
    apply RInt_le; [lra|now apply (ex_RInt_minus (V := R_NormedModule))|exact EM|]. intros x Hx. destruct (HF x ltac:(lra)) as (_ & _ & _ & X).
    unfold minus, plus, opp; cbn. unfold Rmin. destruct (Rle_dec (f x) M); lra.
  - apply Rmult_le_compat_l; [lra|]. apply RInt_le; [lra|exact EM|exact EF|]. intros x _. apply Rmin_l.
Qed.
Lemma curve_near normalize progress (i : R) (f : R -> R) (rm M eps : R) : 0 < rm -> 0 <= eps -> (normalize = true -> progress = true /\ 0 < i) -> grid_max f rm M ->
  (forall r, 0 <= r <= rm -> 0 <= f r /\ continuous f r /\ f r - eps <= M) -> nearly_follows eps f (curve normalize progress i f) (height normalize i M) rm.
Proof.
  intros P PE NI GM HF. assert (HM : 0 <= M).
  { destruct GM as ((k & L & <-) & _). apply HF. apply le_INR in L. rewrite Law.INR499 in L. assert (0 <= INR k) by apply pos_INR.
    split; [apply Rmult_le_pos; lra|]. rewrite <- (Law.at_end rm) at 2. apply Rmult_le_compat_r; lra. }
  unfold curve, height. destruct normalize.
  - destruct (NI eq_refl) as [-> PI0]. cbn [andb]. apply (clipped_near f _ M _ rm (/ i) eps); [now apply Rinv_0_lt_compat|exact HM|exact PE|unfold Rdiv; ring|].
    intros r Hr. destruct (HF r Hr) as (A & B & C). split; [unfold Rdiv; ring|]. auto.
  - cbn [andb]. apply (clipped_near f _ M _ rm 1 eps); [lra|exact HM|exact PE|ring|]. intros r Hr. destruct (HF r Hr) as (A & B & C). split; [ring|]. auto.
Qed.

(** The same of densities that agree with a continuous one between zero and [rm]. *)
Lemma near_ext eps (f g F : R -> R) (H rm : R) : (forall r, 0 <= r <= rm -> f r = g r) -> nearly_follows eps g F H rm -> nearly_follows eps f F H rm.
Proof.
  intros Q (c & P & A). exists c. split; [exact P|]. intros a b L. rewrite (RInt_ext (V := R_CompleteNormedModule) f g); [now apply A|].
  intros x Hx. rewrite Rmin_left, Rmax_right in Hx by lra. apply Q. lra.
Qed.
Lemma curve_ext normalize progress (i : R) (f g : R -> R) (rm M eps : R) : 0 < rm -> (forall r, 0 <= r <= rm -> f r = g r) ->
  nearly_follows eps g (curve normalize progress i g) (height normalize i M) rm -> nearly_follows eps g (curve normalize progress i f) (height normalize i M) rm.
Proof.
  intros P Q (c & PC & A). exists c. split; [exact PC|]. intros a b L. destruct (A a b L) as (X & (h & H1 & H2) & B). exists X. split; [|exact B]. exists h. split; [|exact H2].
  intros r Hr. specialize (H1 r Hr). unfold below, curve in *. rewrite (Q r) by lra. exact H1.
Qed.

Section P.
Variable m : machine.
Notation E := (real_env m).
Hypothesis Q : quad_exact m.
Theorem all_near_to (c : spcls E) rm vals uvals (f g u : R -> R) d : instance m c rm d ->
  values E (sc_params c) (sd_par d) (sc_reads c) vals -> unit_values E (sc_params c) (sd_par d) (sc_reads c) uvals ->
  (forall r, sc_dens c vals r = Ok (f r)) -> (forall r, sc_dens c uvals r = Ok (u r)) -> ex_RInt u 0 rm /\ 0 < RInt u 0 rm ->
  (forall r, 0 <= r <= rm -> f r = g r /\ 0 <= g r /\ continuous g r) -> forall eps, varies_by eps f rm ->
  draws_nearly_follow m eps d f rm /\ surveys_nearly_follow m eps d f rm.
Proof.
  intros IN VA UV DE DU UI NN eps VB. assert (P : 0 < rm) by apply IN.
  assert (FG : forall r, 0 <= r <= rm -> f r = g r) by (intros r Hr; apply NN; exact Hr).
  assert (FO : forall normalize progress M, (normalize = true -> progress = true) -> grid_max f rm M ->
    nearly_follows eps f (curve normalize progress (RInt u 0 rm) f) (height normalize (RInt u 0 rm) M) rm).
  { intros normalize progress M NP GM. apply (near_ext eps f g); [exact FG|]. apply curve_ext; [exact P|exact FG|].
    assert (GG : grid_max g rm M).
    { assert (I : forall k, (k <= 499)%nat -> 0 <= INR k * (rm / 499) <= rm).
      { intros k L. apply le_INR in L. rewrite Law.INR499 in L. assert (0 <= INR k) by apply pos_INR. split; [apply Rmult_le_pos; lra|]. rewrite <- (Law.at_end rm) at 2. apply Rmult_le_compat_r; lra. }
      destruct GM as ((k & L & X) & B). split; [exists k; split; [exact L|]; rewrite <- FG by auto; exact X|]. intros j J. rewrite <- FG by auto. auto. }
    apply curve_near; [exact P|exact (varies_nonneg eps f rm P VB)| |exact GG|].
    - intros N. split; [now apply NP|apply UI].
    - intros r Hr. destruct (NN r Hr) as (X & A & B). split; [exact A|]. split; [exact B|]. rewrite <- X. now apply (above_max eps f rm M r). }
  split.
  - intros progress fuel size normalize d' s s' NP H. destruct (Law.draw_exact m Q c rm vals uvals f u d IN VA UV DE DU UI _ _ _ _ _ _ _ H) as (rs & M & L & S & GM & B).
    exists rs, (curve normalize progress (RInt u 0 rm) f), (height normalize (RInt u 0 rm) M). auto.
  - intros progress fuel rl fs l10 ns normalize y p y' NP Y SK NV H. rewrite (proj1 IN) in SK.
    destruct (Law.survey_exact m Q c rm vals uvals f u d IN VA UV DE DU UI _ _ _ _ _ _ _ _ _ _ Y SK NV H) as (M & s & s' & SZ & L & GM & B).
    exists (curve normalize progress (RInt u 0 rm) f), (height normalize (RInt u 0 rm) M), s, s'. auto.
Qed.
Theorem all_near (c : spcls E) rm vals uvals (f u : R -> R) d : instance m c rm d ->
  values E (sc_params c) (sd_par d) (sc_reads c) vals -> unit_values E (sc_params c) (sd_par d) (sc_reads c) uvals ->
  (forall r, sc_dens c vals r = Ok (f r)) -> (forall r, sc_dens c uvals r = Ok (u r)) -> ex_RInt u 0 rm /\ 0 < RInt u 0 rm ->
  (forall r, 0 <= r <= rm -> 0 <= f r /\ continuous f r) -> forall eps, varies_by eps f rm ->
  draws_nearly_follow m eps d f rm /\ surveys_nearly_follow m eps d f rm.
Proof. intros IN VA UV DE DU UI NN. apply (all_near_to c rm vals uvals f f u d IN VA UV DE DU UI). intros r Hr. split; [reflexivity|now apply NN]. Qed.

Variables (sol rel Om h0 : R).
Variables (sky : string -> option (list R -> nat -> mc_st m -> res (spvals E) * mc_st m))
  (draw : string -> list R -> nat -> mc_st m -> res (list R) * mc_st m)
  (phi : string -> list R -> R -> res R) (form : string -> string).
Notation fo := (lib sol rel Om h0 m sky draw phi form).
Notation reads := (reads m).
Ltac vals := repeat constructor; assumption.
Ltac unit := repeat constructor; unfold unit_reading; cbn; try reflexivity; assumption.
Open Scope string_scope.

(** Powers below -2 on a sphere. *)
Lemma zpow_slope L delta r : 0 <= L -> delta <= -2 -> 0 <= r ->
  exists v, is_derive (fun r => L * (4 * PI) * (Rpower (r + 1) (delta + 2) * (1 - / (r + 1)) ^ 2)) r v /\ Rabs v <= L * (4 * PI) * - delta.
Proof.
  intros PL PD PR. assert (PP := PI_RGT_0). set (u := Rpower (r + 1) (delta + 2)). set (t := / (r + 1)).
  assert (T : 0 < t <= 1). { unfold t. split; [apply Rinv_0_lt_compat; lra|]. rewrite <- Rinv_1. apply Rinv_le_contravar; lra. }
  assert (UB : 0 < u <= 1).
  { unfold u, Rpower. split; [apply exp_pos|]. apply Rle_trans with (exp 0); [|rewrite exp_0; lra]. assert (X : (delta + 2) * ln (r + 1) <= 0).
    { assert (0 <= ln (r + 1)). { rewrite <- ln_1. destruct (Req_dec r 0) as [->|N]; [rewrite Rplus_0_l; lra|]. left. apply ln_increasing; lra. } nra. }
    destruct (Rle_lt_or_eq_dec _ _ X) as [X'| ->]; [left; now apply exp_increasing|lra]. }
  exists (L * (4 * PI) * (((delta + 2) * t * u) * (1 - t) ^ 2 + u * (2 * (1 - t) * t ^ 2))). split.
  - unfold u, t, Rpower. auto_derive; [repeat split; lra|]. field. lra.
  - rewrite Rabs_mult, (Rabs_pos_eq (L * (4 * PI))) by nra. apply Rmult_le_compat_l; [nra|].
    assert (A : 0 <= t * u * (1 - t) ^ 2 <= 1). { assert (0 <= (1 - t) ^ 2 <= 1) by nra. assert (0 <= t * u <= 1) by nra. nra. }
    assert (B : 0 <= u * (2 * (1 - t) * t ^ 2) <= 2). { assert (0 <= t ^ 2 <= 1) by nra. assert (0 <= (1 - t) * t ^ 2 <= 1) by nra. nra. }
    apply Rabs_le. replace ((delta + 2) * t * u * (1 - t) ^ 2) with ((delta + 2) * (t * u * (1 - t) ^ 2)) by ring. nra.
Qed.
Lemma zpow_varies L delta rm : 0 <= L -> delta <= -2 -> 0 < rm -> varies_by (4 * PI * L * - delta * (rm / 998)) (dens_zpow_sphere L delta) rm.
Proof.
  intros PL PD PR r s Hr Hs D. assert (PP := PI_RGT_0).
  assert (F : forall x, 0 <= x -> dens_zpow_sphere L delta x = L * (4 * PI) * (Rpower (x + 1) (delta + 2) * (1 - / (x + 1)) ^ 2)).
  { intros x Hx. rewrite Law.zpow_form by exact Hx. replace (x / (x + 1)) with (1 - / (x + 1)) by (field; lra). reflexivity. }
  set (g := fun x => L * (4 * PI) * (Rpower (x + 1) (delta + 2) * (1 - / (x + 1)) ^ 2)). set (K := L * (4 * PI) * - delta).
  assert (G : Rabs (g r - g s) <= K * Rabs (r - s)).
  { destruct (MVT_gen g s r (Derive g)) as (z & Z & ->).
    - intros x Hx. assert (0 <= x) by (unfold Rmin in Hx; destruct (Rle_dec s r); lra). destruct (zpow_slope L delta x PL PD) as (v & V & _); [assumption|].
      apply Derive_correct. exists v. exact V.
    - intros x Hx. assert (0 <= x) by (unfold Rmin in Hx; destruct (Rle_dec s r); lra). destruct (zpow_slope L delta x PL PD) as (v & V & _); [assumption|].
      apply continuity_pt_filterlim. apply (ex_derive_continuous (K := R_AbsRing) (V := R_NormedModule) g). exists v. exact V.
    - assert (0 <= z) by (unfold Rmin in Z; destruct (Rle_dec s r); lra). destruct (zpow_slope L delta z PL PD) as (v & V & B); [assumption|].
      rewrite Rabs_mult. apply Rmult_le_compat_r; [apply Rabs_pos|]. replace (Derive g z) with v by (symmetry; now apply is_derive_unique). exact B. }
  rewrite !F by lra. change (g r - g s <= 4 * PI * L * - delta * (rm / 998)). assert (X := Rle_abs (g r - g s)).
  assert (K * Rabs (r - s) <= K * (rm / 998)) by (apply Rmult_le_compat_l; [unfold K; assert (0 <= L * (4 * PI)) by nra; nra|exact D]).
  unfold K in *. replace (4 * PI * L * - delta * (rm / 998)) with (L * (4 * PI) * - delta * (rm / 998)) by ring. lra.
Qed.
Lemma zpow_near rate rm L delta d : instance m (sd_cls (fst (ZPowerSphericalDistribution fo rate))) rm d -> reads d "Lambda" L -> reads d "delta" delta ->
  0 <= L -> delta <= -2 -> let eps := 4 * PI * L * - delta * (rm / 998) in
  draws_nearly_follow m eps d (dens_zpow_sphere L delta) rm /\ surveys_nearly_follow m eps d (dens_zpow_sphere L delta) rm.
Proof.
  intros I HL HD PL PD eps. assert (P : 0 < rm) by apply I. unfold RealSpec.reads in HL, HD. rewrite (proj1 I) in HL, HD.
  apply (all_near _ rm [L; delta] [1; delta] (dens_zpow_sphere L delta) (dens_zpow_sphere 1 delta) d I); [vals|unit|reflexivity|reflexivity|now apply RealProofs.zpow_sphere_int| |].
  - intros r Hr. split; [now apply Law.zpow_nonneg|now apply Law.zpow_continuous].
  - now apply zpow_varies.
Qed.
(** Cosmological classes. *)
Hypotheses (HS : 0 < sol) (HO : 0 < Om < 1) (HH : 0 < h0) (HR : 0 <= rel < 1).
Lemma zpow_cosmo_near rate rm L delta d : instance m (sd_cls (fst (ZPowerCosmoDistribution fo rate))) rm d -> reads d "Lambda" L -> reads d "delta" delta ->
  0 <= L -> let f := dens_zpow_cosmo sol rel Om h0 rate L delta in forall eps, varies_by eps f rm ->
  draws_nearly_follow m eps d f rm /\ surveys_nearly_follow m eps d f rm.
Proof.
  intros I HL HD PL f eps V. assert (P : 0 < rm) by apply I. unfold RealSpec.reads in HL, HD. rewrite (proj1 I) in HL, HD.
  apply (all_near _ rm [L; delta] [1; delta] f (dens_zpow_cosmo sol rel Om h0 rate 1 delta) d I); [vals|unit|reflexivity|reflexivity|now apply RealProofs.zpow_cosmo_int| |exact V].
  intros x Hx. split.
  - unfold f, dens_zpow_cosmo. apply Rmult_le_pos; [|apply RealProofs.ta_nonneg; lra]. apply Rmult_le_pos; [|apply LibGeo.volume_nonneg; auto; lra].
    apply Rmult_le_pos; [exact PL|]. left. apply exp_pos.
  - unfold f, dens_zpow_cosmo, Rdiv. apply (continuous_mult (K := R_AbsRing)); [|apply RealProofs.ta_continuous; lra].
    apply (continuous_mult (K := R_AbsRing) (fun x => L * Rpower (x + 1) delta)); [|apply RealProofs.volume_continuous; auto; lra].
    apply RealProofs.derives. unfold Rpower. auto_derive. lra.
Qed.
Lemma sfr_near rate rm r0 a rise decay peak d : instance m (sd_cls (fst (SFRDistribution fo rate))) rm d ->
  reads d "r0" r0 -> reads d "a" a -> reads d "rise" rise -> reads d "decay" decay -> reads d "peak" peak ->
  0 <= r0 -> 0 <= a -> 0 <= rise -> 0 < a + rise -> 0 < decay -> 0 < peak ->
  let f := dens_sfr sol rel Om h0 rate r0 a rise decay peak in forall eps, varies_by eps f rm ->
  draws_nearly_follow m eps d f rm /\ surveys_nearly_follow m eps d f rm.
Proof.
  intros I H0 Ha Hb Hc Hd P0 P1 P2 P3 P4 P5 f eps V. assert (P : 0 < rm) by apply I. unfold RealSpec.reads in *. rewrite (proj1 I) in H0, Ha, Hb, Hc, Hd.
  apply (all_near_to _ rm [r0; a; rise; decay; peak] [1; a; rise; decay; peak] f
    (fun z => r0 * (a + rise * z) / (1 + RealProofs.npx decay (z / peak)) * differential_comoving_volume sol rel Om h0 z / time_adjustment rate z)
    (dens_sfr sol rel Om h0 rate 1 a rise decay peak) d I); [vals|unit|reflexivity|reflexivity|now apply RealProofs.sfr_int| |exact V].
  intros z Hz. assert (N := RealProofs.npx_nonneg decay (z / peak)). split; [|split].
  - unfold f, dens_sfr. replace (np_power (z / peak) decay) with (RealProofs.npx decay (z / peak)); [reflexivity|]. unfold RealProofs.npx, np_power.
    assert (X : 0 <= z / peak) by (apply Rdiv_le_0_compat; lra).
    destruct (Rle_dec (z / peak) 0), (Req_EM_T (z / peak) 0); try lra. destruct (Req_EM_T decay 0); [lra|reflexivity].
  - apply Rmult_le_pos; [|apply RealProofs.ta_nonneg; lra]. apply Rmult_le_pos; [|apply LibGeo.volume_nonneg; auto; lra].
    apply Rmult_le_pos; [apply Rmult_le_pos; [lra|]; assert (0 <= rise * z) by (apply Rmult_le_pos; lra); lra|]. left. apply Rinv_0_lt_compat. lra.
  - unfold Rdiv at 1. apply (continuous_mult (K := R_AbsRing) (fun x => r0 * (a + rise * x) / (1 + RealProofs.npx decay (x / peak)) * differential_comoving_volume sol rel Om h0 x)); [|apply RealProofs.ta_continuous; lra].
    apply (continuous_mult (K := R_AbsRing) (fun x => r0 * (a + rise * x) / (1 + RealProofs.npx decay (x / peak)))); [|apply RealProofs.volume_continuous; auto; lra].
    apply (continuous_mult (K := R_AbsRing) (fun x => r0 * (a + rise * x))).
    + apply RealProofs.derives. auto_derive. easy.
    + apply (continuous_comp (fun x => 1 + RealProofs.npx decay (x / peak)) Rinv).
      * apply (continuous_plus (V := R_NormedModule) (fun _ => 1)); [apply continuous_const|].
        apply (continuous_comp (fun x => x / peak) (RealProofs.npx decay)).
        -- apply RealProofs.derives. auto_derive. lra.
        -- apply RealProofs.npx_continuous; [exact P4|]. apply Rdiv_le_0_compat; lra.
      * apply continuous_Rinv. lra.
Qed.
End P.

(** The predefined populations. *)
Lemma nearly_ext eps (f f' F : R -> R) (H rm : R) : (forall r, 0 <= r -> f r = f' r) -> nearly_follows eps f F H rm -> nearly_follows eps f' F H rm.
Proof.
  intros Q (c & P & A). exists c. split; [exact P|]. intros a b L. rewrite (RInt_ext (V := R_CompleteNormedModule) f' f); [now apply A|].
  intros x Hx. rewrite Rmin_left in Hx by lra. symmetry. apply Q. lra.
Qed.
Lemma all_near_ext m eps d (f f' : R -> R) rm : (forall r, 0 <= r -> f r = f' r) ->
  draws_nearly_follow m eps d f rm /\ surveys_nearly_follow m eps d f rm -> draws_nearly_follow m eps d f' rm /\ surveys_nearly_follow m eps d f' rm.
Proof.
  intros Q [A B]. split.
  - intros progress fuel size normalize d' s s' NP H. destruct (A _ _ _ _ _ _ _ NP H) as (rs & F & h & H1 & H2 & H3 & H4). exists rs, F, h. eauto using nearly_ext.
  - intros progress fuel rl fs l10 ns normalize y p y' NP Y SK NV H. destruct (B _ _ _ _ _ _ _ _ _ _ NP Y SK NV H) as (F & h & s & s' & H1 & H2 & H3 & H4).
    exists F, h, s, s'. eauto 10 using nearly_ext.
Qed.
Open Scope string_scope.
Theorem zpow_populations_near m (Q : quad_exact m) ginv gam sol rel Om h0 form (w : world (real_env m)) c arg seed rate (y : synth (real_env m)) lum :
  build (full_lib m ginv gam sol rel Om h0 (fun _ => None) form) w c arg seed lum rate = Ok y -> fst (documented c) = zpow_sphere ->
  0 <= arg "Lambda" -> 0 < arg "r_max" -> arg "delta" <= -2 ->
  let f := fun r => arg "Lambda" * Rpower (1 + r) (arg "delta") * (4 * PI * r ^ 2) in let eps := 4 * PI * arg "Lambda" * - arg "delta" * (arg "r_max" / 998) in
  sc_sky (sd_cls (y_sp y)) = None /\ draws_nearly_follow m eps (y_sp y) f (arg "r_max") /\ surveys_nearly_follow m eps (y_sp y) f (arg "r_max").
Proof.
  intros H D HL HR HD f eps. destruct (LawLib.zpow_part m ginv gam sol rel Om h0 form w _ _ _ _ _ _ H D) as (sp & -> & A).
  destruct (LawLib.zpow_made m ginv gam sol rel Om h0 form _ _ _ _ HL HR A) as (I & RL & RD & SK). split; [exact SK|].
  apply (all_near_ext m eps _ (dens_zpow_sphere (arg "Lambda") (arg "delta"))); [intros r _; apply LawLib.zpow_eq|].
  exact (zpow_near m Q sol rel Om h0 _ _ _ form None _ _ _ _ I RL RD HL HD).
Qed.
(** Some error always does. *)
Lemma varies_somehow f rm : 0 < rm -> (forall r, 0 <= r <= rm -> 0 <= f r /\ continuous f r) -> exists eps, varies_by eps f rm.
Proof.
  intros P H. destruct (continuity_ab_maj f 0 rm ltac:(lra)) as (x & X & _); [intros c Hc; apply continuity_pt_filterlim; now apply H|].
  exists (f x). intros r s Hr Hs _. specialize (X r Hr). destruct (H s Hs). lra.
Qed.
Lemma zpow_cosmo_varies sol rel Om h0 rate L delta rm : 0 < sol -> 0 < Om < 1 -> 0 < h0 -> 0 <= rel < 1 -> 0 <= L -> 0 < rm ->
  exists eps, varies_by eps (dens_zpow_cosmo sol rel Om h0 rate L delta) rm.
Proof.
  intros HS HO HH HR PL P. apply (varies_somehow _ _ P). intros x Hx. split.
  - unfold dens_zpow_cosmo. apply Rmult_le_pos; [|apply RealProofs.ta_nonneg; lra]. apply Rmult_le_pos; [|apply LibGeo.volume_nonneg; auto; lra].
    apply Rmult_le_pos; [exact PL|]. left. apply exp_pos.
  - unfold dens_zpow_cosmo, Rdiv. apply (continuous_mult (K := R_AbsRing)); [|apply RealProofs.ta_continuous; lra].
    apply (continuous_mult (K := R_AbsRing) (fun x => L * Rpower (x + 1) delta)); [|apply RealProofs.volume_continuous; auto; lra].
    apply RealProofs.derives. unfold Rpower. auto_derive. lra.
Qed.
