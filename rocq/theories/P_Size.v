(** C62, C63: the number of objects of a survey and their distances. *)
From Coq Require Import Reals List String.
From Coquelicot Require Import Coquelicot.
From Verif Require Import Base Env ParamModel SimVarModel DistModel DistSpec SizeSpec PopModel SynthModel SynthSpec LibModel LibPopModel RealModel RealSpec Toy DistExamples SynthExamples.
From Verif Require SurveySize RealSize RealExamples.
Import ListNotations.
Open Scope string_scope.
Open Scope nat_scope.

(** One Poisson number, drawn from the generator right after it was seeded with the
    synth's seed, whose mean is the integral of the density. *)
Theorem C62_number_of_objects : forall E prog fuel rl fs l10 norm (y : synth E) p y',
  draw_survey prog fuel rl fs l10 None norm y = (Ok p, y') ->
  wf_par E (sc_params (sd_cls (y_sp y))) (sd_par (y_sp y)) -> (norm = true -> norm_value E (sd_par (y_sp y))) ->
  exists rate, mean_objects norm (y_sp y) rate /\ fst (r_poisson E rate (r_seed E (y_seed y))) = Ok (p_nobj p).
Proof. exact SurveySize.survey_size_drawn. Qed.
Example C62_applies : exists p y', survey None None true (counted (Some 5%Z)) = (Ok p, y') /\ p_nobj p = 5 /\
  wf_par toy (sc_params (sd_cls (y_sp (counted (Some 5%Z))))) (sd_par (y_sp (counted (Some 5%Z)))) /\
  norm_value toy (sd_par (y_sp (counted (Some 5%Z)))).
Proof.
  destruct counted_normalised as (p & y' & H & N). exists p, y'. split; [exact H|]. split; [exact N|]. split; [exact (radial_wf 5%Z)|].
  intros k Q. injection Q as <-. discriminate.
Qed.
(** Nobody assigned or read the normalisation parameter, whose default is five: the
    mean is one. *)
Theorem C62_untouched_default_not_used : exists p y', survey None None true (counted None) = (Ok p, y') /\ p_nobj p = 1 /\
  reading toy (sc_params radial) (sd_par (y_sp (counted None))) "Lambda" = Ok 5%Z.
Proof. destruct counted_untouched as (p & y' & H & N). exists p, y'. split; [exact H|]. split; [exact N|reflexivity]. Qed.

(** Over the reals, for every [quad] that integrates. *)
Section Real.
Variable m : machine.
Notation E := (real_env m).
Hypothesis Q : quad_exact m.

Theorem C62_mean_is_integral (c : spcls E) rm vals (g : R -> R) d :
  instance m c rm d -> values E (sc_params c) (sd_par d) (sc_reads c) vals ->
  (forall r, sc_dens c vals r = Ok (g r)) -> ex_RInt g 0 rm -> poisson_survey m false d (RInt g 0 rm).
Proof. exact (RealSize.mean_integral m Q c rm vals g d). Qed.
(** A density proportional to the normalisation parameter [L] ([uvals]: one in its
    place): the mean of a normalised survey is [L]. *)
Theorem C62_mean_is_normalisation (c : spcls E) rm L vals uvals (g : R -> R) d k :
  instance m c rm d -> values E (sc_params c) (sd_par d) (sc_reads c) vals -> unit_values E (sc_params c) (sd_par d) (sc_reads c) uvals ->
  po_norm (sd_par d) = Some k -> dget (po_store (sd_par d)) k <> Some None ->
  (forall r, sc_dens c uvals r = Ok (g r)) -> (forall r, sc_dens c vals r = Ok (L * g r)%R) -> ex_RInt g 0 rm /\ (0 < RInt g 0 rm)%R ->
  poisson_survey m true d L.
Proof. exact (RealSize.mean_norm m Q c rm L vals uvals g d k). Qed.
(** Without an assigned normalisation it is one. *)
Theorem C62_mean_untouched (c : spcls E) rm vals (g : R -> R) d :
  instance m c rm d -> values E (sc_params c) (sd_par d) (sc_reads c) vals -> po_norm (sd_par d) = None ->
  (forall r, sc_dens c vals r = Ok (g r)) -> ex_RInt g 0 rm /\ (0 < RInt g 0 rm)%R ->
  poisson_survey m true d 1%R.
Proof. exact (RealSize.mean_untouched m Q c rm vals g d). Qed.

(** The library's classes. *)
Variables (sol rel Om h0 : R).
Variables (sky : string -> option (list R -> nat -> mc_st m -> res (spvals E) * mc_st m))
  (draw : string -> list R -> nat -> mc_st m -> res (list R) * mc_st m)
  (phi : string -> list R -> R -> res R) (form : string -> string).
Notation fo := (lib sol rel Om h0 m sky draw phi form).
Theorem C62_sphere rate rm L d : instance m (sd_cls (fst (ConstantSphericalDistribution fo rate))) rm d -> reads m d "Lambda" L ->
  poisson_survey m false d (L * (4 / 3 * PI * rm ^ 3))%R.
Proof. exact (RealSize.sphere_mean m Q sol rel Om h0 sky draw phi form rate rm L d). Qed.
Theorem C62_sphere_normalised rate rm L d : instance m (sd_cls (fst (ConstantSphericalDistribution fo rate))) rm d -> assigned m d "Lambda" L ->
  poisson_survey m true d L.
Proof. exact (RealSize.sphere_normalised m Q sol rel Om h0 sky draw phi form rate rm L d). Qed.
Theorem C62_zpower_sphere_normalised rate rm L delta d : instance m (sd_cls (fst (ZPowerSphericalDistribution fo rate))) rm d ->
  assigned m d "Lambda" L -> reads m d "delta" delta -> poisson_survey m true d L.
Proof. exact (RealSize.zpow_sphere_normalised m Q sol rel Om h0 sky draw phi form rate rm L delta d). Qed.
Hypothesis physical : (0 < sol /\ 0 < Om < 1 /\ 0 < h0 /\ 0 <= rel < 1)%R.
Theorem C62_zpower_cosmo_normalised rate rm L delta d : instance m (sd_cls (fst (ZPowerCosmoDistribution fo rate))) rm d ->
  assigned m d "Lambda" L -> reads m d "delta" delta -> poisson_survey m true d L.
Proof. destruct physical as (P1 & P2 & P3 & P4). exact (RealSize.zpow_cosmo_normalised m Q sol rel Om h0 sky draw phi form P1 P2 P3 P4 rate rm L delta d). Qed.
Theorem C62_uniform_cosmo_normalised rate rm L zmin zmax d : instance m (sd_cls (fst (UniformCosmoDistribution m fo rate))) rm d ->
  assigned m d "r0" L -> reads m d "zmin" zmin -> reads m d "zmax" zmax -> (zmin < zmax)%R -> poisson_survey m true d L.
Proof. destruct physical as (P1 & P2 & P3 & P4). exact (RealSize.uniform_cosmo_normalised m Q sol rel Om h0 sky draw phi form P1 P2 P3 P4 rate rm L zmin zmax d). Qed.
Theorem C62_sfr_normalised rate rm L a rise decay peak d : instance m (sd_cls (fst (SFRDistribution fo rate))) rm d ->
  assigned m d "r0" L -> reads m d "a" a -> reads m d "rise" rise -> reads m d "decay" decay -> reads m d "peak" peak ->
  (0 <= a -> 0 <= rise -> 0 < a + rise -> 0 < decay -> 0 < peak -> poisson_survey m true d L)%R.
Proof. destruct physical as (P1 & P2 & P3 & P4). exact (RealSize.sfr_normalised m Q sol rel Om h0 sky draw phi form P1 P2 P3 P4 rate rm L a rise decay peak d). Qed.
End Real.
(** [quad_exact], [instance] and [assigned] are met. *)
Example C62_real_applies lam : quad_exact RealExamples.mach /\
  instance RealExamples.mach (sd_cls (fst (ConstantSphericalDistribution RealExamples.mlib None))) (INR 10) (RealExamples.ball lam) /\
  assigned RealExamples.mach (RealExamples.ball lam) "Lambda" lam /\ poisson_survey RealExamples.mach true (RealExamples.ball lam) lam.
Proof.
  assert (A : assigned RealExamples.mach (RealExamples.ball lam) "Lambda" lam) by (repeat split; reflexivity).
  split; [exact RealExamples.mach_exact|]. split; [exact (RealExamples.ball_instance lam)|]. split; [exact A|].
  exact (C62_sphere_normalised _ RealExamples.mach_exact 1 0 (3 / 10) 1 (fun _ => None) (fun _ _ _ s => (Ok [], s)) (fun _ _ _ => Ok 0%R) (fun c => c) None
           (INR 10) lam (RealExamples.ball lam) (RealExamples.ball_instance lam) A).
Qed.

(** ** C63.  The distances of a population are in [[0, r_max)], where the density is
    positive, for classes that do not move them when sky positions are drawn. *)
Theorem C63_distances_in_range : forall E prog fuel rl fs l10 norm ns (y : synth E) p y' rm vals uvals,
  le_lt_trans E -> unif_range E -> unif_nonneg E -> max_nonneg E -> div_nonneg E -> div_pos E ->
  draw_survey prog fuel rl fs l10 ns norm y = (Ok p, y') ->
  let c := sd_cls (y_sp y) in let o := sd_par (y_sp y) in
  sc_sky c = None -> wf_par E (sc_params c) o -> (norm = true -> ns = None -> norm_value E o) ->
  reading E (sc_params c) o "r_max" = Ok rm -> vlt E (vofnat E 0) rm = true ->
  values E (sc_params c) o (sc_reads c) vals -> unit_values E (sc_params c) o (sc_reads c) uvals ->
  nonneg_fun E rm (sc_dens c vals) ->
  (norm = true -> forall i, quad E (sc_dens c uvals) (vofnat E 0) rm = Ok i -> vlt E (vofnat E 0) i = true) ->
  sv_obs (p_dist p) = sv_lat (p_dist p) /\ length (sv_lat (p_dist p)) = p_nobj p /\ forall r, In r (sv_lat (p_dist p)) ->
    vle E (vofnat E 0) r = true /\ vlt E r rm = true /\ exists x, sc_dens c vals r = Ok x /\ vlt E (vofnat E 0) x = true.
Proof. exact SurveySize.survey_distances. Qed.
Example C63_applies : exists p y', survey None (Some 6) false (counted (Some 5%Z)) = (Ok p, y') /\
  y_sp (counted (Some 5%Z)) = space (Some 5%Z) /\ sc_sky radial = None /\ nonneg_fun toy 10%Z (sc_dens radial [5%Z]) /\
  reading toy (sc_params radial) (sd_par (space (Some 5%Z))) "r_max" = Ok 10%Z /\
  values toy (sc_params radial) (sd_par (space (Some 5%Z))) (sc_reads radial) [5%Z] /\
  unit_values toy (sc_params radial) (sd_par (space (Some 5%Z))) (sc_reads radial) [1%Z].
Proof.
  destruct (survey_run (survey None (Some 6) false (counted (Some 5%Z))) _ (fun p _ => p_nobj p) 6) as (p & y' & H & _); [vm_compute; reflexivity|].
  exists p, y'. split; [exact H|]. split; [reflexivity|]. split; [reflexivity|]. split; [exact line_nonneg|]. split; [reflexivity|].
  split; repeat constructor.
Qed.
(** Over the reals; [uniform(0, hi)] gives numbers in [[0, hi)]. *)
Theorem C63_real_distances_in_range (m : machine) :
  (forall hi s, (0 < hi -> 0 <= fst (mc_unif m 0 hi s) < hi) /\ (0 <= hi -> 0 <= fst (mc_unif m 0 hi s)))%R ->
  forall (c : spcls (real_env m)) rm vals uvals (f g : R -> R) prog fuel rl fs l10 norm ns (y : synth (real_env m)) p y',
  quad_exact m -> instance m c rm (y_sp y) -> sc_sky c = None ->
  values (real_env m) (sc_params c) (sd_par (y_sp y)) (sc_reads c) vals ->
  unit_values (real_env m) (sc_params c) (sd_par (y_sp y)) (sc_reads c) uvals ->
  (forall r, sc_dens c vals r = Ok (f r)) -> (forall r, 0 <= r <= rm -> 0 <= f r)%R ->
  (norm = true -> (forall r, sc_dens c uvals r = Ok (g r)) /\ ex_RInt g 0 rm /\ (0 < RInt g 0 rm)%R) ->
  (norm = true -> ns = None -> norm_value (real_env m) (sd_par (y_sp y))) ->
  draw_survey prog fuel rl fs l10 ns norm y = (Ok p, y') ->
  length (sv_lat (p_dist p)) = p_nobj p /\ forall r, In r (sv_lat (p_dist p)) -> (0 <= r < rm /\ 0 < f r)%R.
Proof. exact (RealSize.real_distances m). Qed.
(** [SpiralGalaxyDistribution] adds a normal number to each distance after drawing it. *)
Theorem C63_scattered_distances_refuted : exists p y', survey None (Some 6) false jittered = (Ok p, y') /\
  reading toy (sc_params jitter) (sd_par (y_sp jittered)) "r_max" = Ok 10%Z /\ In 12%Z (sv_lat (p_dist p)).
Proof. destruct jittered_survey as (p & y' & H & D). exists p, y'. split; [exact H|]. split; [reflexivity|]. rewrite D. cbn. tauto. Qed.

Print Assumptions C62_number_of_objects.
Print Assumptions C62_untouched_default_not_used.
Print Assumptions C62_mean_is_integral.
Print Assumptions C62_mean_is_normalisation.
Print Assumptions C62_mean_untouched.
Print Assumptions C62_sphere.
Print Assumptions C62_sphere_normalised.
Print Assumptions C62_zpower_sphere_normalised.
Print Assumptions C62_zpower_cosmo_normalised.
Print Assumptions C62_uniform_cosmo_normalised.
Print Assumptions C62_sfr_normalised.
Print Assumptions C63_distances_in_range.
Print Assumptions C63_scattered_distances_refuted.
Print Assumptions C63_real_distances_in_range.
