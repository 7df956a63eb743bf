(** C38, over the reals.  [quad_exact] says that [quad] gives the integral of what it
    can evaluate everywhere and integrate; generators are arbitrary. *)
From Coq Require Import Reals List String Lra.
From Coquelicot Require Import Coquelicot.
From Verif Require Import Base Env ParamModel DistModel DistSpec LibModel SynthModel LibPopModel RealModel RealSpec RealProofs RealExamples.
Import ListNotations.
Open Scope R_scope.
Open Scope string_scope.

Section P.
Variable m : machine.
Notation E := (real_env m).

(** For given values of the parameters other than the normalisation ([uvals]: the
    values with one in place of the normalisation) and given maximal distance there is
    one probability density on [[0, r_max]] such that every normalised draw of every
    instance reports it, whatever its normalisation parameter. *)
Theorem C38_integrates_to_one (c : spcls E) rm uvals (g : R -> R) :
  quad_exact m -> (forall r, sc_dens c uvals r = Ok (g r)) ->
  (forall r, 0 <= r <= rm -> 0 <= g r) -> ex_RInt g 0 rm -> 0 < RInt g 0 rm ->
  exists p, density p rm /\
    forall d, instance m c rm d -> unit_values E (sc_params c) (sd_par d) (sc_reads c) uvals -> reports m d p.
Proof.
  intros Q D P I N. exists (fun r => g r / RInt g 0 rm). split; [now apply ratio_density|].
  intros d Hd U. now apply (reports_ratio m Q c rm uvals).
Qed.
(** It is the density of the class divided by its integral. *)
Theorem C38_ratio (c : spcls E) rm uvals (g : R -> R) d :
  quad_exact m -> (forall r, sc_dens c uvals r = Ok (g r)) -> ex_RInt g 0 rm ->
  instance m c rm d -> unit_values E (sc_params c) (sd_par d) (sc_reads c) uvals ->
  reports m d (fun r => g r / RInt g 0 rm).
Proof. intros Q D I Hd U. now apply (reports_ratio m Q c rm uvals). Qed.

(** The classes of the library; [fo] holds their formulas, all other functions being
    arbitrary.  [rate] is the flag [is_rate] of the cosmological ones. *)
Section Lib.
Variables (sol rel Om h0 : R).
Variables (sky : string -> option (list R -> nat -> mc_st m -> res (spvals E) * mc_st m))
  (draw : string -> list R -> nat -> mc_st m -> res (list R) * mc_st m)
  (phi : string -> list R -> R -> res R) (form : string -> string).
Notation fo := (lib sol rel Om h0 m sky draw phi form).
Notation reads := (reads m).

Theorem C38_constant_sphere rate rm d : quad_exact m ->
  instance m (sd_cls (fst (ConstantSphericalDistribution fo rate))) rm d ->
  let p := fun r => 3 * r ^ 2 / rm ^ 3 in density p rm /\ reports m d p.
Proof.
  intros Q I p. destruct (sphere_shows m Q sol rel Om h0 sky draw phi form rate rm d I) as [[D1 D2] S]. assert (P : 0 < rm) by apply I.
  assert (X : forall r, dens_sphere 1 r / RInt (dens_sphere 1) 0 rm = p r) by (intros r; now apply sphere_explicit).
  split; [split|].
  - intros r Hr. rewrite <- X. now apply D1.
  - apply (is_RInt_ext (fun r => dens_sphere 1 r / RInt (dens_sphere 1) 0 rm)); [intros r _; apply X|exact D2].
  - intros a b n d' s s' H. destruct (S a b n d' s s' H) as (rs & H1 & H2 & H3). exists rs. split; [exact H1|]. split; [exact H2|].
    rewrite H3. f_equal. apply map_ext, X.
Qed.
Theorem C38_flatland rate rm l d : quad_exact m ->
  instance m (sd_cls (fst (FlatlandDistribution m fo rate))) rm d -> reads d "Lambda" l -> 0 < l ->
  let p := fun _ => 1 / rm in density p rm /\ reports m d p.
Proof.
  intros Q I Hl Pl p. destruct (flatland_shows m Q sol rel Om h0 sky draw phi form rate rm l d I Hl Pl) as [[D1 D2] S]. assert (P : 0 < rm) by apply I.
  assert (X : forall r, dens_flatland l r / RInt (dens_flatland l) 0 rm = p r) by (intros r; now apply flatland_explicit).
  split; [split|].
  - intros r Hr. rewrite <- (X r). now apply D1.
  - apply (is_RInt_ext (fun r => dens_flatland l r / RInt (dens_flatland l) 0 rm)); [intros r _; apply X|exact D2].
  - intros a b n d' s s' H. destruct (S a b n d' s s' H) as (rs & H1 & H2 & H3). exists rs. split; [exact H1|]. split; [exact H2|].
    rewrite H3. f_equal. apply map_ext, X.
Qed.
Theorem C38_zpower_sphere rate rm delta : quad_exact m -> exists p, forall d,
  instance m (sd_cls (fst (ZPowerSphericalDistribution fo rate))) rm d -> reads d "delta" delta ->
  density p rm /\ reports m d p.
Proof. intros Q. eexists. intros d I H. exact (zpow_sphere_shows m Q sol rel Om h0 sky draw phi form rate rm delta d I H). Qed.
Theorem C38_spiral rate rm rho a b R1 R0 : quad_exact m -> 0 < rho -> 0 < R1 -> 0 < R0 + R1 -> exists p, forall d,
  instance m (sd_cls (fst (SpiralGalaxyDistribution fo rate))) rm d ->
  reads d "rho" rho -> reads d "a" a -> reads d "b" b -> reads d "R1" R1 -> reads d "R0" R0 ->
  density p rm /\ reports m d p.
Proof.
  intros Q H1 H2 H3. eexists. intros d I Ha Hb Hc Hd He.
  exact (spiral_shows m Q sol rel Om h0 sky draw phi form rate rm rho a b R1 R0 d I Ha Hb Hc Hd He H1 H2 H3).
Qed.
(** The cosmological classes, for physical values of the constants. *)
Definition physical : Prop := 0 < sol /\ 0 < Om < 1 /\ 0 < h0 /\ 0 <= rel < 1.
Theorem C38_zpower_cosmo rate rm delta : quad_exact m -> physical -> exists p, forall d,
  instance m (sd_cls (fst (ZPowerCosmoDistribution fo rate))) rm d -> reads d "delta" delta ->
  density p rm /\ reports m d p.
Proof.
  intros Q (P1 & P2 & P3 & P4). eexists. intros d I H. exact (zpow_cosmo_shows m Q sol rel Om h0 sky draw phi form P1 P2 P3 P4 rate rm delta d I H).
Qed.
Theorem C38_uniform_cosmo rate rm zmin zmax : quad_exact m -> physical -> zmin < zmax -> exists p, forall d,
  instance m (sd_cls (fst (UniformCosmoDistribution m fo rate))) rm d -> reads d "zmin" zmin -> reads d "zmax" zmax ->
  density p rm /\ reports m d p.
Proof.
  intros Q (P1 & P2 & P3 & P4) Z. eexists. intros d I H1 H2.
  exact (uniform_cosmo_shows m Q sol rel Om h0 sky draw phi form P1 P2 P3 P4 rate rm zmin zmax d I H1 H2 Z).
Qed.
Theorem C38_sfr rate rm a rise decay peak : quad_exact m -> physical ->
  0 <= a -> 0 <= rise -> 0 < a + rise -> 0 < decay -> 0 < peak -> exists p, forall d,
  instance m (sd_cls (fst (SFRDistribution fo rate))) rm d ->
  reads d "a" a -> reads d "rise" rise -> reads d "decay" decay -> reads d "peak" peak ->
  density p rm /\ reports m d p.
Proof.
  intros Q (P1 & P2 & P3 & P4) H1 H2 H3 H4 H5. eexists. intros d I Ha Hb Hc Hd.
  exact (sfr_shows m Q sol rel Om h0 sky draw phi form P1 P2 P3 P4 rate rm a rise decay peak d I Ha Hb Hc Hd H1 H2 H3 H4 H5).
Qed.
End Lib.
End P.

(** A machine, an instance with any normalisation and a draw that succeeds: what it
    reports is the same density. *)
Example C38_applies lam size : 0 < lam -> exists fuel d' s' rs,
  draw_distance true fuel size true (ball lam, 0%nat) = (Ok tt, (d', s')) /\
  sd_dist d' = Some rs /\ sd_prob d' = Some (map (fun r => 3 * r ^ 2 / INR 10 ^ 3) rs).
Proof.
  intros Hl. destruct (ball_draws lam size Hl) as (fuel & d' & s' & H). exists fuel, d', s'.
  destruct (C38_constant_sphere mach 1 0 (3 / 10) 1 (fun _ => None) (fun _ _ _ s => (Ok [], s)) (fun _ _ _ => Ok 0) (fun c => c) None (INR 10) (ball lam)
              mach_exact (ball_instance lam)) as [_ S].
  destruct (S true fuel size d' 0%nat s' H) as (rs & _ & H2 & H3). exists rs. auto.
Qed.

Print Assumptions C38_integrates_to_one.
Print Assumptions C38_constant_sphere.
Print Assumptions C38_sfr.
Print Assumptions C38_applies.
Print Assumptions C38_ratio.
Print Assumptions C38_flatland.
Print Assumptions C38_zpower_sphere.
Print Assumptions C38_spiral.
Print Assumptions C38_zpower_cosmo.
Print Assumptions C38_uniform_cosmo.
