(** Proofs about the model over the reals. *)
From Coq Require Import Reals ZArith List String Lra Lia.
From Coquelicot Require Import Coquelicot.
From Verif Require Import Base BaseFacts Env ParamModel DistModel DistSpec DistProofs LibModel LibSpec LibGeo SynthModel LibPopModel RealModel RealSpec.
Import ListNotations.
Open Scope R_scope.
Open Scope string_scope.

Section Norm.
Variable m : machine.
Notation E := (real_env m).
Hypothesis Q : quad_exact m.

Lemma scaled_one (g : R -> R) b : ex_RInt g 0 b -> RInt g 0 b <> 0 -> is_RInt (fun r => g r / RInt g 0 b) 0 b 1.
Proof.
  intros Hg Hn. replace 1 with (/ RInt g 0 b * RInt g 0 b) by now field.
  apply (is_RInt_ext (fun r => scal (/ RInt g 0 b) (g r))).
  - intros x _. unfold Rdiv. apply Rmult_comm.
  - apply (is_RInt_scal (V := R_NormedModule) g 0 b (/ RInt g 0 b) (RInt g 0 b)), (RInt_correct (V := R_CompleteNormedModule)), Hg.
Qed.

Lemma draws_density progress fuel size (d d' : sdist E) s s' rm uvals (g : R -> R) :
  wf_par E (sc_params (sd_cls d)) (sd_par d) ->
  reading E (sc_params (sd_cls d)) (sd_par d) "r_max" = Ok rm ->
  unit_values E (sc_params (sd_cls d)) (sd_par d) (sc_reads (sd_cls d)) uvals ->
  (forall r, sc_dens (sd_cls d) uvals r = Ok (g r)) -> ex_RInt g 0 rm ->
  draw_distance progress fuel size true (d, s) = (Ok tt, (d', s')) ->
  exists rs, length rs = size /\ sd_dist d' = Some rs /\ sd_prob d' = Some (map (fun r => g r / RInt g 0 rm) rs).
Proof.
  intros Hw Hr Hu Hd Hg H. destruct (draw_distance_ok E _ _ _ _ _ _ _ _ Hw H) as (rs0 & ps0 & o' & D & Ed & _).
  assert (Hlen : length rs0 = size /\ sd_dist d' = Some rs0).
  { rewrite Ed. split; [|reflexivity]. destruct D as (x1 & x2 & x3 & x4 & x5 & x6 & _ & _ & _ & _ & _ & _ & A & _). exact (proj1 (accept_many_ok E _ _ _ _ _ _ _ _ A)). }
  destruct Hlen as [Hl Hd0]. destruct (normalised_probability E progress fuel size d s d' s' Hw H) as (rm' & u' & i & rs & ps & H1 & H2 & H3 & H4 & H5 & H6).
  rewrite Hr in H1. injection H1 as <-. assert (u' = uvals) by now apply (unit_values_det E _ _ _ _ _ H2). subst u'.
  assert (rs0 = rs) by congruence. subst rs0. exists rs. split; [exact Hl|]. split; [exact H4|]. rewrite H5. f_equal.
  assert (Hi : i = RInt g 0 rm).
  { cbn in H3. rewrite (Q (sc_dens (sd_cls d) uvals) g 0 rm) in H3; [now injection H3|intros x _; apply Hd|exact Hg]. }
  clear H4 H5 Hd0 Hl Ed D. induction H6 as [|r p rs ps (x & Hx & ->) F IH]; cbn [map]; [reflexivity|]. f_equal; [|exact IH].
  rewrite Hd in Hx. injection Hx as <-. cbn. now rewrite Hi.
Qed.

Lemma reports_ratio (c : spcls E) rm uvals (g : R -> R) d :
  instance m c rm d -> unit_values E (sc_params c) (sd_par d) (sc_reads c) uvals ->
  (forall r, sc_dens c uvals r = Ok (g r)) -> ex_RInt g 0 rm -> reports m d (fun r => g r / RInt g 0 rm).
Proof.
  intros (<- & Hw & _ & Hr) Hu Hd Hg progress fuel size d' s s' H.
  exact (draws_density progress fuel size d d' s s' rm uvals g Hw Hr Hu Hd Hg H).
Qed.
Lemma ratio_density (g : R -> R) rm : ex_RInt g 0 rm -> 0 < RInt g 0 rm -> (forall r, 0 <= r <= rm -> 0 <= g r) ->
  density (fun r => g r / RInt g 0 rm) rm.
Proof.
  intros Hg Hi Hp. split.
  - intros r Hr. specialize (Hp r Hr). apply Rmult_le_pos; [exact Hp|]. left. now apply Rinv_0_lt_compat.
  - apply scaled_one; [exact Hg|lra].
Qed.
End Norm.

(** ** The library's densities *)
Lemma pos_int (g : R -> R) b : 0 < b -> (forall x, 0 <= x <= b -> continuous g x) -> (forall x, 0 < x < b -> 0 < g x) ->
  ex_RInt g 0 b /\ 0 < RInt g 0 b.
Proof.
  intros Hb Hc Hp. split.
  - apply (ex_RInt_continuous (V := R_CompleteNormedModule)). rewrite Rmin_left, Rmax_right by lra. exact Hc.
  - apply RInt_gt_0; [exact Hb|exact Hp|intros x Hx; apply Hc; lra].
Qed.
Lemma derives (g : R -> R) x : ex_derive g x -> continuous g x.
Proof. apply (ex_derive_continuous (K := R_AbsRing) (V := R_NormedModule)). Qed.
Lemma sphere_int b : 0 < b -> ex_RInt (dens_sphere 1) 0 b /\ 0 < RInt (dens_sphere 1) 0 b.
Proof.
  intros Hb. apply pos_int; [exact Hb|..]; intros x Hx.
  - apply derives. unfold dens_sphere, sphere_volume. auto_derive. lra.
  - unfold dens_sphere, sphere_volume. assert (0 < PI) by apply PI_RGT_0. rewrite Rmult_1_l, Rdiv_1. apply area_pos. lra.
Qed.
Lemma zpow_sphere_int delta b : 0 < b -> ex_RInt (dens_zpow_sphere 1 delta) 0 b /\ 0 < RInt (dens_zpow_sphere 1 delta) 0 b.
Proof.
  intros Hb. apply pos_int; [exact Hb|..]; intros x Hx.
  - apply derives. unfold dens_zpow_sphere, sphere_volume, Rpower. auto_derive. lra.
  - unfold dens_zpow_sphere, sphere_volume, Rpower. rewrite Rmult_1_l, Rdiv_1. apply Rmult_lt_0_compat; [apply exp_pos|]. apply area_pos. lra.
Qed.
Lemma flatland_int l b : 0 < l -> 0 < b -> ex_RInt (dens_flatland l) 0 b /\ 0 < RInt (dens_flatland l) 0 b.
Proof.
  intros Hl Hb. apply pos_int; [exact Hb|..]; intros x Hx.
  - apply derives. unfold dens_flatland. auto_derive. lra.
  - unfold dens_flatland. lra.
Qed.
Lemma ta_pos rate z : 0 <= z -> 0 < time_adjustment rate z.
Proof. intros H. destruct rate as [[]|]; cbn; lra. Qed.
Lemma ta_continuous rate z : 0 <= z -> continuous (fun z => / time_adjustment rate z) z.
Proof. intros H. apply derives. destruct rate as [[]|]; cbn; auto_derive; lra. Qed.
Section Cosmo.
Variables sol Om h0 rel : R.
Hypothesis Hsol : 0 < sol.
Hypothesis HOm : 0 < Om < 1.
Hypothesis Hh : 0 < h0.
Hypothesis Hrel : 0 <= rel < 1.
Notation volume := (differential_comoving_volume sol rel Om h0).
Lemma gg_derives z : 0 <= z -> ex_derive (gg Om) z.
Proof.
  intros Hz. unfold gg, xx. assert (P : 0 < (1 + z) ^ 3) by (apply pow_lt; lra).
  apply ex_derive_mult.
  - auto_derive. split; [lra|]. split; [|lra]. apply Rgt_not_eq, sqrt_lt_R0. lra.
  - apply (ex_derive_comp Phi (fun z => Om_reduced Om / (1 + z) ^ 3)).
    + eexists. apply Phi_derive. left. exact (xx_pos Om HOm z Hz).
    + auto_derive. cbn in P. lra.
Qed.
Lemma volume_continuous z : 0 <= z -> continuous volume z.
Proof.
  intros Hz. apply derives. unfold differential_comoving_volume, comoving_transverse_distance.
  assert (Hld : ex_derive (fun z => luminosity_distance sol Om h0 z / (1 + z) / Mpc) z).
  { apply (ex_derive_ext (fun z => scale sol Om h0 * ((1 + z) * (gg Om 0 - gg Om z)) / (1 + z) / Mpc)).
    - intros t. now rewrite ld_gg.
    - assert (M := Mpc_pos). assert (G := gg_derives z Hz). auto_derive. repeat split; try exact G; lra. }
  assert (Ha : ex_derive (fun z => cosmo_a rel Om z) z).
  { unfold cosmo_a. auto_derive. assert (1 <= (1 + z) ^ 3) by (apply pow_R1_Rle; lra). nra. }
  assert (Pa := cosmo_a_pos Om rel HOm Hrel z Hz).
  apply ex_derive_mult; [|apply ex_derive_const]. apply ex_derive_div; [|exact Ha|lra].
  apply (ex_derive_mult (fun z => dh sol h0 * (luminosity_distance sol Om h0 z / (1 + z) / Mpc))); [|exact Hld].
  apply (ex_derive_mult (fun _ => dh sol h0)); [apply ex_derive_const|exact Hld].
Qed.
Lemma zpow_cosmo_int rate delta b : 0 < b ->
  ex_RInt (dens_zpow_cosmo sol rel Om h0 rate 1 delta) 0 b /\ 0 < RInt (dens_zpow_cosmo sol rel Om h0 rate 1 delta) 0 b.
Proof.
  intros Hb. apply pos_int; [exact Hb|..]; intros x Hx.
  - unfold dens_zpow_cosmo, Rdiv. apply (continuous_mult (K := R_AbsRing)); [|apply ta_continuous; lra].
    apply (continuous_mult (K := R_AbsRing) (fun x => 1 * Rpower (x + 1) delta)); [|apply volume_continuous; lra].
    apply derives. unfold Rpower. auto_derive. lra.
  - unfold dens_zpow_cosmo. apply Rdiv_lt_0_compat; [|apply ta_pos; lra]. rewrite Rmult_1_l. apply Rmult_lt_0_compat; [apply exp_pos|].
    apply volume_pos; auto; lra.
Qed.
Lemma uniform_cosmo_int rate zmin zmax b : zmin < zmax -> 0 < b ->
  ex_RInt (dens_uniform_cosmo sol rel Om h0 rate 1 zmin zmax) 0 b /\ 0 < RInt (dens_uniform_cosmo sol rel Om h0 rate 1 zmin zmax) 0 b.
Proof.
  intros Hz Hb. apply pos_int; [exact Hb|..]; intros x Hx.
  - unfold dens_uniform_cosmo. apply (continuous_mult (K := R_AbsRing)); [|apply ta_continuous; lra].
    apply (continuous_mult (K := R_AbsRing) (fun x => 1 / (zmax - zmin))); [apply continuous_const|apply volume_continuous; lra].
  - unfold dens_uniform_cosmo. apply Rdiv_lt_0_compat; [|apply ta_pos; lra]. apply Rmult_lt_0_compat; [apply Rdiv_lt_0_compat; lra|].
    apply volume_pos; auto; lra.
Qed.
End Cosmo.
Lemma spiral_int rho R1 R0 a b rm : 0 < rho -> 0 < R1 -> 0 < R0 + R1 -> 0 < rm ->
  ex_RInt (dens_spiral rho R1 R0 a b) 0 rm /\ 0 < RInt (dens_spiral rho R1 R0 a b) 0 rm.
Proof.
  intros Hr H1 H0 Hb. apply pos_int; [exact Hb|..]; intros x Hx.
  - apply derives. unfold dens_spiral, sphere_volume, Rpower. auto_derive. repeat split; try lra. apply Rmult_lt_0_compat; [lra|]. apply Rinv_0_lt_compat. lra.
  - unfold dens_spiral, sphere_volume. rewrite Rdiv_1. apply Rmult_lt_0_compat; [|apply area_pos; lra].
    apply Rmult_lt_0_compat; [|apply exp_pos]. apply Rmult_lt_0_compat; [lra|apply exp_pos].
Qed.
(** [np_power] at non-negative bases, extended by zero. *)
Definition npx (d x : R) : R := if Rle_dec x 0 then 0 else Rpower x d.
Lemma npx_continuous d x : 0 < d -> 0 <= x -> continuous (npx d) x.
Proof.
  intros Hd Hx. destruct (Rle_lt_or_eq_dec 0 x Hx) as [P|<-].
  - apply (continuous_ext_loc (npx d) (fun x => Rpower x d) x).
    + exists (mkposreal x P). intros y Hy. unfold ball in Hy; cbn in Hy; unfold AbsRing_ball, abs, minus, plus, opp in Hy; cbn in Hy.
      unfold npx. destruct (Rle_dec y 0) as [L|]; [|reflexivity]. exfalso. apply Rabs_def2 in Hy. lra.
    + apply derives. unfold Rpower. auto_derive. exact P.
  - apply filterlim_locally. intros eps. assert (Pe : 0 < Rpower eps (/ d)) by apply exp_pos. exists (mkposreal _ Pe). intros y Hy.
    unfold ball in *; cbn in *; unfold AbsRing_ball, abs, minus, plus, opp in *; cbn in *.
    unfold npx. destruct (Rle_dec 0 0) as [_|]; [|lra]. destruct (Rle_dec y 0) as [L|L].
    + replace (0 + - 0) with 0 by ring. rewrite Rabs_R0. apply cond_pos.
    + apply Rabs_def2 in Hy. replace (Rpower y d + - 0) with (Rpower y d) by ring. rewrite Rabs_right; [|left; apply exp_pos].
      replace (pos eps) with (Rpower (Rpower eps (/ d)) d).
      * unfold Rpower at 1 2. apply exp_increasing. apply Rmult_lt_compat_l; [exact Hd|]. apply ln_increasing; lra.
      * rewrite Rpower_mult. replace (/ d * d) with 1 by (field; lra). apply Rpower_1, cond_pos.
Qed.
Lemma npx_nonneg d x : 0 <= npx d x.
Proof. unfold npx. destruct (Rle_dec x 0); [lra|]. left. apply exp_pos. Qed.
Section Sfr.
Variables sol Om h0 rel : R.
Hypothesis Hsol : 0 < sol.
Hypothesis HOm : 0 < Om < 1.
Hypothesis Hh : 0 < h0.
Hypothesis Hrel : 0 <= rel < 1.
Lemma sfr_int rate a rise decay peak b : 0 <= a -> 0 <= rise -> 0 < a + rise -> 0 < decay -> 0 < peak -> 0 < b ->
  ex_RInt (dens_sfr sol rel Om h0 rate 1 a rise decay peak) 0 b /\ 0 < RInt (dens_sfr sol rel Om h0 rate 1 a rise decay peak) 0 b.
Proof.
  intros Ha Hr Har Hd Hp Hb.
  set (g := fun z => 1 * (a + rise * z) / (1 + npx decay (z / peak)) * differential_comoving_volume sol rel Om h0 z / time_adjustment rate z).
  assert (E : forall z, 0 < z < b -> g z = dens_sfr sol rel Om h0 rate 1 a rise decay peak z).
  { intros z Hz. unfold g, dens_sfr. assert (P : 0 < z / peak) by (apply Rdiv_lt_0_compat; lra).
    replace (np_power (z / peak) decay) with (npx decay (z / peak)); [reflexivity|]. unfold npx, np_power.
    destruct (Rle_dec (z / peak) 0); [lra|]. destruct (Req_EM_T (z / peak) 0); [lra|reflexivity]. }
  assert (P : ex_RInt g 0 b /\ 0 < RInt g 0 b).
  { apply pos_int; [exact Hb|..]; intros x Hx.
    - unfold g. apply (continuous_mult (K := R_AbsRing) (fun x => 1 * (a + rise * x) / (1 + npx decay (x / peak)) * differential_comoving_volume sol rel Om h0 x)); [|apply ta_continuous; lra].
      apply (continuous_mult (K := R_AbsRing) (fun x => 1 * (a + rise * x) / (1 + npx decay (x / peak)))); [|apply volume_continuous; lra].
      apply (continuous_mult (K := R_AbsRing) (fun x => 1 * (a + rise * x))).
      + apply derives. auto_derive. easy.
      + apply (continuous_comp (fun x => 1 + npx decay (x / peak)) Rinv).
        * apply (continuous_plus (V := R_NormedModule) (fun _ => 1)); [apply continuous_const|].
          apply (continuous_comp (fun x => x / peak) (npx decay)).
          -- apply derives. auto_derive. lra.
          -- apply npx_continuous; [exact Hd|]. apply Rmult_le_pos; [lra|]. left. apply Rinv_0_lt_compat. lra.
        * apply continuous_Rinv. assert (N := npx_nonneg decay (x / peak)). lra.
    - unfold g. apply Rdiv_lt_0_compat; [|apply ta_pos; lra]. apply Rmult_lt_0_compat; [|apply volume_pos; auto; lra].
      assert (N := npx_nonneg decay (x / peak)). apply Rdiv_lt_0_compat; [|lra].
      assert (0 <= rise * x) by nra. destruct (Rle_lt_or_eq_dec 0 a Ha) as [|<-]; [lra|]. assert (0 < rise * x) by (apply Rmult_lt_0_compat; lra). lra. }
  destruct P as [P1 P2]. assert (M : Rmin 0 b = 0 /\ Rmax 0 b = b) by (rewrite Rmin_left, Rmax_right by lra; easy).
  split.
  - apply (ex_RInt_ext g); [|exact P1]. destruct M as [-> ->]. exact E.
  - rewrite <- (RInt_ext g); [exact P2|]. destruct M as [-> ->]. exact E.
Qed.
End Sfr.

(** ** Library instances *)
Section Inst.
Variable m : machine.
Notation E := (real_env m).
Hypothesis Q : quad_exact m.
Variables (sol rel Om h0 : R).
Variables (sky : string -> option (list R -> nat -> mc_st m -> res (spvals E) * mc_st m))
  (draw : string -> list R -> nat -> mc_st m -> res (list R) * mc_st m)
  (phi : string -> list R -> R -> res R) (form : string -> string).
Notation fo := (lib sol rel Om h0 m sky draw phi form).
Notation reads := (reads m).

Lemma shows_density (c : spcls E) rm uvals (g : R -> R) d :
  instance m c rm d -> unit_values E (sc_params c) (sd_par d) (sc_reads c) uvals ->
  (forall r, sc_dens c uvals r = Ok (g r)) -> ex_RInt g 0 rm /\ 0 < RInt g 0 rm -> (forall r, 0 <= r <= rm -> 0 <= g r) ->
  density (fun r => g r / RInt g 0 rm) rm /\ reports m d (fun r => g r / RInt g 0 rm).
Proof.
  intros Hi Hu Hd [H1 H2] Hp. split; [now apply ratio_density|]. now apply (reports_ratio m Q c rm uvals g d).
Qed.
Ltac unit := repeat constructor; unfold unit_reading; cbn; try reflexivity; assumption.
Lemma sphere_shows rate rm d : instance m (sd_cls (fst (ConstantSphericalDistribution fo rate))) rm d ->
  density (fun r => dens_sphere 1 r / RInt (dens_sphere 1) 0 rm) rm /\ reports m d (fun r => dens_sphere 1 r / RInt (dens_sphere 1) 0 rm).
Proof.
  intros I. assert (P : 0 < rm) by apply I. apply (shows_density _ rm [1] (dens_sphere 1) d I); [unit|reflexivity|now apply sphere_int|].
  intros r Hr. unfold dens_sphere, sphere_volume. assert (X := PI_RGT_0). rewrite Rdiv_1. assert (0 <= r * r) by nra. nra.
Qed.
Lemma sphere_explicit rm r : 0 < rm -> dens_sphere 1 r / RInt (dens_sphere 1) 0 rm = 3 * r ^ 2 / rm ^ 3.
Proof.
  intros P. replace (RInt (dens_sphere 1) 0 rm) with (4 * PI * rm ^ 3 / 3).
  - unfold dens_sphere, sphere_volume. assert (X := PI_RGT_0). field. repeat split; lra.
  - symmetry. apply is_RInt_unique. apply (is_RInt_ext (fun r => 4 * PI * r ^ 2)).
    + intros x _. unfold dens_sphere, sphere_volume. simpl. field.
    + replace (4 * PI * rm ^ 3 / 3) with ((fun r => 4 * PI * r ^ 3 / 3) rm - (fun r => 4 * PI * r ^ 3 / 3) 0) by (simpl; field).
      apply (is_RInt_derive (V := R_CompleteNormedModule) (fun r => 4 * PI * r ^ 3 / 3) (fun r => 4 * PI * r ^ 2)).
      * intros x _. auto_derive; [easy|]. simpl. field.
      * intros x _. apply derives. auto_derive. easy.
Qed.
Lemma vol_nonneg r : 0 <= sphere_volume r.
Proof. unfold sphere_volume. assert (X := PI_RGT_0). assert (0 <= r * r) by nra. nra. Qed.
Lemma zpow_sphere_shows rate rm delta d : instance m (sd_cls (fst (ZPowerSphericalDistribution fo rate))) rm d -> reads d "delta" delta ->
  let g := dens_zpow_sphere 1 delta in
  density (fun r => g r / RInt g 0 rm) rm /\ reports m d (fun r => g r / RInt g 0 rm).
Proof.
  intros I Hd g. assert (P : 0 < rm) by apply I. unfold RealSpec.reads in Hd. rewrite (proj1 I) in Hd.
  apply (shows_density _ rm [1; delta] g d I); [unit|reflexivity|now apply zpow_sphere_int|].
  intros r Hr. unfold g, dens_zpow_sphere. rewrite Rdiv_1. apply Rmult_le_pos; [|apply vol_nonneg]. rewrite Rmult_1_l. left. apply exp_pos.
Qed.
Lemma flatland_shows rate rm l d : instance m (sd_cls (fst (FlatlandDistribution m fo rate))) rm d -> reads d "Lambda" l -> 0 < l ->
  let g := dens_flatland l in
  density (fun r => g r / RInt g 0 rm) rm /\ reports m d (fun r => g r / RInt g 0 rm).
Proof.
  intros I Hd Hl g. assert (P : 0 < rm) by apply I. unfold RealSpec.reads in Hd. rewrite (proj1 I) in Hd.
  apply (shows_density _ rm [l] g d I); [unit|reflexivity|now apply flatland_int|].
  intros r Hr. unfold g, dens_flatland. lra.
Qed.
Lemma flatland_explicit rm l r : 0 < l -> 0 < rm -> dens_flatland l r / RInt (dens_flatland l) 0 rm = 1 / rm.
Proof.
  intros Hl P. replace (RInt (dens_flatland l) 0 rm) with (rm * l).
  - unfold dens_flatland. field. split; lra.
  - symmetry. rewrite (RInt_ext _ (fun _ => l)) by (intros; unfold dens_flatland; lra). rewrite RInt_const. unfold scal; cbn. unfold mult; cbn. lra.
Qed.
Lemma spiral_shows rate rm rho a b R1 R0 d : instance m (sd_cls (fst (SpiralGalaxyDistribution fo rate))) rm d ->
  reads d "rho" rho -> reads d "a" a -> reads d "b" b -> reads d "R1" R1 -> reads d "R0" R0 -> 0 < rho -> 0 < R1 -> 0 < R0 + R1 ->
  let g := dens_spiral rho R1 R0 a b in
  density (fun r => g r / RInt g 0 rm) rm /\ reports m d (fun r => g r / RInt g 0 rm).
Proof.
  intros I Ha Hb Hc Hd He H1 H2 H3 g. unfold RealSpec.reads in *. assert (P : 0 < rm) by apply I. rewrite (proj1 I) in Ha, Hb, Hc, Hd, He.
  apply (shows_density _ rm [rho; R1; R0; a; b] g d I); [unit|reflexivity|now apply spiral_int|].
  intros r Hr. unfold g, dens_spiral. rewrite Rdiv_1. apply Rmult_le_pos; [|apply vol_nonneg]. apply Rmult_le_pos; [|left; apply exp_pos].
  apply Rmult_le_pos; [lra|left; apply exp_pos].
Qed.
Hypothesis Hsol : 0 < sol.
Hypothesis HOm : 0 < Om < 1.
Hypothesis Hh : 0 < h0.
Hypothesis Hrel : 0 <= rel < 1.
Lemma ta_nonneg rate r : 0 <= r -> 0 <= / time_adjustment rate r.
Proof. intros H. left. apply Rinv_0_lt_compat, ta_pos, H. Qed.
Lemma zpow_cosmo_shows rate rm delta d : instance m (sd_cls (fst (ZPowerCosmoDistribution fo rate))) rm d -> reads d "delta" delta ->
  let g := dens_zpow_cosmo sol rel Om h0 rate 1 delta in
  density (fun r => g r / RInt g 0 rm) rm /\ reports m d (fun r => g r / RInt g 0 rm).
Proof.
  intros I Hd g. unfold RealSpec.reads in *. assert (P : 0 < rm) by apply I. rewrite (proj1 I) in Hd.
  apply (shows_density _ rm [1; delta] g d I); [unit|reflexivity|now apply zpow_cosmo_int|].
  intros r Hr. unfold g, dens_zpow_cosmo. apply Rmult_le_pos; [|apply ta_nonneg; lra]. apply Rmult_le_pos; [|apply volume_nonneg; auto; lra].
  rewrite Rmult_1_l. left. apply exp_pos.
Qed.
Lemma uniform_cosmo_shows rate rm zmin zmax d : instance m (sd_cls (fst (UniformCosmoDistribution m fo rate))) rm d ->
  reads d "zmin" zmin -> reads d "zmax" zmax -> zmin < zmax ->
  let g := dens_uniform_cosmo sol rel Om h0 rate 1 zmin zmax in
  density (fun r => g r / RInt g 0 rm) rm /\ reports m d (fun r => g r / RInt g 0 rm).
Proof.
  intros I Ha Hb Hz g. unfold RealSpec.reads in *. assert (P : 0 < rm) by apply I. rewrite (proj1 I) in Ha, Hb.
  apply (shows_density _ rm [1; zmin; zmax] g d I); [unit|reflexivity|now apply uniform_cosmo_int|].
  intros r Hr. unfold g, dens_uniform_cosmo. apply Rmult_le_pos; [|apply ta_nonneg; lra]. apply Rmult_le_pos; [|apply volume_nonneg; auto; lra].
  left. apply Rdiv_lt_0_compat; lra.
Qed.
Lemma sfr_shows rate rm a rise decay peak d : instance m (sd_cls (fst (SFRDistribution fo rate))) rm d ->
  reads d "a" a -> reads d "rise" rise -> reads d "decay" decay -> reads d "peak" peak ->
  0 <= a -> 0 <= rise -> 0 < a + rise -> 0 < decay -> 0 < peak ->
  let g := dens_sfr sol rel Om h0 rate 1 a rise decay peak in
  density (fun r => g r / RInt g 0 rm) rm /\ reports m d (fun r => g r / RInt g 0 rm).
Proof.
  intros I Ha Hb Hc Hd H1 H2 H3 H4 H5 g. unfold RealSpec.reads in *. assert (P : 0 < rm) by apply I. rewrite (proj1 I) in Ha, Hb, Hc, Hd.
  apply (shows_density _ rm [1; a; rise; decay; peak] g d I); [unit|reflexivity|now apply sfr_int|].
  intros r Hr. unfold g, dens_sfr. apply Rmult_le_pos; [|apply ta_nonneg; lra]. apply Rmult_le_pos; [|apply volume_nonneg; auto; lra].
  apply Rmult_le_pos; [nra|]. left. apply Rinv_0_lt_compat. unfold np_power. destruct (Req_EM_T _ 0); [destruct (Req_EM_T decay 0); lra|].
  assert (0 < Rpower (r / peak) decay) by apply exp_pos. lra.
Qed.
End Inst.
