(** C70: the law of the drawn distances. *)
From Coq Require Import Reals ZArith List String Lra.
From Coquelicot Require Import Coquelicot.
From Verif Require Import Base Env ParamModel SimVarModel DistModel DistSpec SizeSpec AuxModel PopModel SynthModel SynthSpec LibModel LibPopModel LibPopSpec LumLibModel RealModel RealSpec RunSpec LawSpec NearSpec.
From Verif Require Import RealExamples RunExamples.
From Verif Require Law LawLib LawExamples NearLaw NearPops.
Import ListNotations.
Open Scope R_scope.
Open Scope string_scope.

(** Points are proposed in a box and those below the curve accepted.  For a uniform
    point of the box, the chance to accept a distance between [a] and [b] is the
    integral of the curve, cut off at the height of the box. *)
Theorem C70_accepted_area : forall (F : R -> R) (H a b : R), 0 <= H -> a <= b -> (forall r, a <= r <= b -> 0 <= F r /\ continuous F r) ->
  area F H a b (RInt (fun r => Rmin (F r) H) a b) /\ forall A, area F H a b A -> A = RInt (fun r => Rmin (F r) H) a b.
Proof. intros F H a b PH L C. assert (X := Law.area_clipped F H a b PH L C). split; [exact X|]. intros A Y. exact (Law.area_unique _ _ _ _ _ _ L Y X). Qed.
Example C70_area_applies : area (fun r => r) 1 0 1 (RInt (fun r => Rmin r 1) 0 1).
Proof. apply (C70_accepted_area (fun r => r) 1 0 1); [lra|lra|]. intros r Hr. split; [lra|]. apply continuous_id. Qed.

Section Machine.
Variable m : machine.
Notation E := (real_env m).
Hypothesis Q : quad_exact m.

(** What [draw_distance] and surveys accept, for every class of spatial distribution:
    the curve is the density [f] (divided by the integral of the density with unit
    normalisation, if normalised with progress shown), the box is as high as the largest
    value at 500 distances (divided by that integral, if normalised).
    Cases: [C70_populations_apply]. *)
Theorem C70_draws (c : spcls E) rm vals uvals (f u : R -> R) d : instance m c rm d ->
  values E (sc_params c) (sd_par d) (sc_reads c) vals -> unit_values E (sc_params c) (sd_par d) (sc_reads c) uvals ->
  (forall r, sc_dens c vals r = Ok (f r)) -> (forall r, sc_dens c uvals r = Ok (u r)) -> ex_RInt u 0 rm /\ 0 < RInt u 0 rm ->
  forall progress fuel size normalize d' s s', draw_distance progress fuel size normalize (d, s) = (Ok tt, (d', s')) ->
  exists rs M, length rs = size /\ sd_dist d' = Some rs /\ grid_max f rm M /\
    each_below m (curve normalize progress (RInt u 0 rm) f) (height normalize (RInt u 0 rm) M) rm s rs s'.
Proof. exact (Law.draw_exact m Q c rm vals uvals f u d). Qed.
Theorem C70_surveys (c : spcls E) rm vals uvals (f u : R -> R) d : instance m c rm d ->
  values E (sc_params c) (sd_par d) (sc_reads c) vals -> unit_values E (sc_params c) (sd_par d) (sc_reads c) uvals ->
  (forall r, sc_dens c vals r = Ok (f r)) -> (forall r, sc_dens c uvals r = Ok (u r)) -> ex_RInt u 0 rm /\ 0 < RInt u 0 rm ->
  forall progress fuel rl fs l10 ns normalize (y : synth E) p y', y_sp y = d -> sc_sky c = None ->
  (normalize = true -> ns = None -> norm_value E (sd_par d)) -> draw_survey progress fuel rl fs l10 ns normalize y = (Ok p, y') ->
  exists M s s', sized_by ns normalize d (mc_seed m (y_seed y)) (p_nobj p) s /\ length (sv_lat (p_dist p)) = p_nobj p /\ grid_max f rm M /\
    each_below m (curve normalize progress (RInt u 0 rm) f) (height normalize (RInt u 0 rm) M) rm s (sv_lat (p_dist p)) s'.
Proof. exact (Law.survey_exact m Q c rm vals uvals f u d). Qed.

(** So a density that is nowhere above its largest value at the 500 distances is
    followed, if draws are not normalised or show their progress. *)
Theorem C70_density_followed_partial (c : spcls E) rm vals uvals (f u : R -> R) d : instance m c rm d ->
  values E (sc_params c) (sd_par d) (sc_reads c) vals -> unit_values E (sc_params c) (sd_par d) (sc_reads c) uvals ->
  (forall r, sc_dens c vals r = Ok (f r)) -> (forall r, sc_dens c uvals r = Ok (u r)) -> ex_RInt u 0 rm /\ 0 < RInt u 0 rm ->
  (forall r, 0 <= r <= rm -> 0 <= f r /\ continuous f r) -> (forall M, grid_max f rm M -> forall r, 0 <= r <= rm -> f r <= M) ->
  draws_follow m d f rm /\ surveys_follow m d f rm.
Proof. exact (Law.all_follow m Q c rm vals uvals f u d). Qed.

(** Any other density, if it changes by at most [eps] within half a step between the 500
    distances, is followed but for at most [eps] missing at any distance. *)
Theorem C70_nearly_followed (c : spcls E) rm vals uvals (f u : R -> R) d : instance m c rm d ->
  values E (sc_params c) (sd_par d) (sc_reads c) vals -> unit_values E (sc_params c) (sd_par d) (sc_reads c) uvals ->
  (forall r, sc_dens c vals r = Ok (f r)) -> (forall r, sc_dens c uvals r = Ok (u r)) -> ex_RInt u 0 rm /\ 0 < RInt u 0 rm ->
  (forall r, 0 <= r <= rm -> 0 <= f r /\ continuous f r) -> forall eps, varies_by eps f rm ->
  draws_nearly_follow m eps d f rm /\ surveys_nearly_follow m eps d f rm.
Proof. exact (NearLaw.all_near m Q c rm vals uvals f u d). Qed.

Variables (sol rel Om h0 : R).
Variables (sky : string -> option (list R -> nat -> mc_st m -> res (spvals E) * mc_st m))
  (draw : string -> list R -> nat -> mc_st m -> res (list R) * mc_st m)
  (phi : string -> list R -> R -> res R) (form : string -> string).
Notation fo := (lib sol rel Om h0 m sky draw phi form).
(** The library's classes on a sphere: as many objects per volume everywhere, or as a
    power of one plus the distance, and Flatland. *)
Theorem C70_sphere_followed rate rm L d : instance m (sd_cls (fst (ConstantSphericalDistribution fo rate))) rm d -> reads m d "Lambda" L -> 0 <= L ->
  draws_follow m d (fun r => L * (4 * PI * r ^ 2)) rm /\ surveys_follow m d (fun r => L * (4 * PI * r ^ 2)) rm.
Proof. intros I R P. apply (LawLib.all_ext m d (dens_sphere L)); [intros r _; apply LawLib.sphere_eq|]. exact (Law.sphere_follows m Q sol rel Om h0 sky draw phi form rate rm L d I R P). Qed.
Theorem C70_zpower_sphere_followed_partial rate rm L delta d : instance m (sd_cls (fst (ZPowerSphericalDistribution fo rate))) rm d ->
  reads m d "Lambda" L -> reads m d "delta" delta -> 0 <= L -> -2 <= delta ->
  let f := fun r => L * Rpower (1 + r) delta * (4 * PI * r ^ 2) in draws_follow m d f rm /\ surveys_follow m d f rm.
Proof.
  intros I R1 R2 P D f. apply (LawLib.all_ext m d (dens_zpow_sphere L delta)); [intros r _; apply LawLib.zpow_eq|].
  exact (Law.zpow_follows m Q sol rel Om h0 sky draw phi form rate rm L delta d I R1 R2 P D).
Qed.
Theorem C70_flatland_followed rate rm L d : instance m (sd_cls (fst (FlatlandDistribution m fo rate))) rm d -> reads m d "Lambda" L -> 0 < L ->
  draws_follow m d (fun _ => L) rm /\ surveys_follow m d (fun _ => L) rm.
Proof. intros I R P. apply (LawLib.all_ext m d (dens_flatland L)); [intros r _; apply LawLib.flatland_eq|]. exact (Law.flatland_follows m Q sol rel Om h0 sky draw phi form rate rm L d I R P). Qed.

(** Below a power of -2 the density may have its peak between two of the 500 distances,
    and is then cut off.  Case: [C70_peak_applies]. *)
Theorem C70_peak_between_distances_refuted rate L d : instance m (sd_cls (fst (ZPowerSphericalDistribution fo rate))) 998 d ->
  reads m d "Lambda" L -> reads m d "delta" (-4) -> 0 < L ->
  let f := dens_zpow_sphere L (-4) in let i := RInt (dens_zpow_sphere 1 (-4)) 0 998 in
  forall progress fuel size normalize d' s s', (normalize = true -> progress = true) ->
  draw_distance progress fuel size normalize (d, s) = (Ok tt, (d', s')) ->
  exists rs M, length rs = size /\ sd_dist d' = Some rs /\
    each_below m (curve normalize progress i f) (height normalize i M) 998 s rs s' /\ ~ follows f (curve normalize progress i f) (height normalize i M) 998.
Proof. exact (LawLib.peak_refuted m Q sol rel Om h0 sky draw phi form rate L d). Qed.
(** What is missing is then at most this.  Case: [C70_peak_applies]. *)
Theorem C70_steep_sphere_nearly_followed rate rm L delta d : instance m (sd_cls (fst (ZPowerSphericalDistribution fo rate))) rm d ->
  reads m d "Lambda" L -> reads m d "delta" delta -> 0 <= L -> delta <= -2 ->
  let f := dens_zpow_sphere L delta in let eps := 4 * PI * L * - delta * (rm / 998) in
  draws_nearly_follow m eps d f rm /\ surveys_nearly_follow m eps d f rm.
Proof. exact (NearLaw.zpow_near m Q sol rel Om h0 sky draw phi form rate rm L delta d). Qed.
(** The power of one plus the redshift, in comoving volume.  Case: [C70_cosmo_varies]. *)
Theorem C70_zpower_cosmo_nearly_followed rate rm L delta d : 0 < sol -> 0 < Om < 1 -> 0 < h0 -> 0 <= rel < 1 ->
  instance m (sd_cls (fst (ZPowerCosmoDistribution fo rate))) rm d -> reads m d "Lambda" L -> reads m d "delta" delta -> 0 <= L ->
  let f := fun z => L * Rpower (1 + z) delta * differential_comoving_volume sol rel Om h0 z / time_adjustment rate z in
  forall eps, varies_by eps f rm -> draws_nearly_follow m eps d f rm /\ surveys_nearly_follow m eps d f rm.
Proof.
  intros HS HO HH HR I R1 R2 P f eps V. assert (X : forall z, f z = dens_zpow_cosmo sol rel Om h0 rate L delta z) by (intros z; unfold f, dens_zpow_cosmo; now rewrite (Rplus_comm 1 z)).
  apply (NearLaw.all_near_ext m eps d (dens_zpow_cosmo sol rel Om h0 rate L delta)); [intros r _; symmetry; apply X|].
  apply (NearLaw.zpow_cosmo_near m Q sol rel Om h0 sky draw phi form HS HO HH HR rate rm L delta d I R1 R2 P). intros r s Hr Hs D. rewrite <- !X. now apply V.
Qed.
(** The star formation rate [(a + rise z) / (1 + (z / peak)^decay)]. *)
Theorem C70_sfr_nearly_followed rate rm r0 a rise decay peak d : 0 < sol -> 0 < Om < 1 -> 0 < h0 -> 0 <= rel < 1 ->
  instance m (sd_cls (fst (SFRDistribution fo rate))) rm d -> reads m d "r0" r0 -> reads m d "a" a -> reads m d "rise" rise -> reads m d "decay" decay -> reads m d "peak" peak ->
  0 <= r0 -> 0 <= a -> 0 <= rise -> 0 < a + rise -> 0 < decay -> 0 < peak ->
  let f := fun z => r0 * (a + rise * z) / (1 + np_power (z / peak) decay) * differential_comoving_volume sol rel Om h0 z / time_adjustment rate z in
  forall eps, varies_by eps f rm -> draws_nearly_follow m eps d f rm /\ surveys_nearly_follow m eps d f rm.
Proof. intros HS HO HH HR. exact (NearLaw.sfr_near m Q sol rel Om h0 sky draw phi form HS HO HH HR rate rm r0 a rise decay peak d). Qed.
(** Normalised draws without progress bars compare a density that is not normalised
    with a box that is: a sphere of more than unit volume is not filled evenly. *)
Theorem C70_no_progress_refuted rate rm L d : instance m (sd_cls (fst (ConstantSphericalDistribution fo rate))) rm d ->
  reads m d "Lambda" L -> 0 < L -> 1 < 4 / 3 * PI * rm ^ 3 ->
  let f := dens_sphere L in let i := RInt (dens_sphere 1) 0 rm in
  forall fuel size d' s s', draw_distance false fuel size true (d, s) = (Ok tt, (d', s')) ->
  exists rs M, length rs = size /\ sd_dist d' = Some rs /\
    each_below m (curve true false i f) (height true i M) rm s rs s' /\ ~ follows f (curve true false i f) (height true i M) rm.
Proof. exact (LawLib.no_progress_refuted m Q sol rel Om h0 sky draw phi form rate rm L d). Qed.
End Machine.

(** The predefined populations on a sphere. *)
Theorem C70_spherical_populations : forall m ginv gam sol rel Om h0 form (w : world (real_env m)), quad_exact m ->
  forall c arg seed rate (y : synth (real_env m)) lum,
  build (full_lib m ginv gam sol rel Om h0 (fun _ => None) form) w c arg seed lum rate = Ok y -> fst (documented c) = sphere ->
  0 <= arg "Lambda" -> 0 < arg "r_max" ->
  let f := fun r => arg "Lambda" * (4 * PI * r ^ 2) in
  sc_sky (sd_cls (y_sp y)) = None /\ draws_follow m (y_sp y) f (arg "r_max") /\ surveys_follow m (y_sp y) f (arg "r_max").
Proof. exact (fun m ginv gam sol rel Om h0 form w Q => LawLib.sphere_populations m Q ginv gam sol rel Om h0 form w). Qed.
Theorem C70_zpower_populations_partial : forall m ginv gam sol rel Om h0 form (w : world (real_env m)), quad_exact m ->
  forall c arg seed rate (y : synth (real_env m)) lum,
  build (full_lib m ginv gam sol rel Om h0 (fun _ => None) form) w c arg seed lum rate = Ok y -> fst (documented c) = zpow_sphere ->
  0 <= arg "Lambda" -> 0 < arg "r_max" -> -2 <= arg "delta" ->
  let f := fun r => arg "Lambda" * Rpower (1 + r) (arg "delta") * (4 * PI * r ^ 2) in
  sc_sky (sd_cls (y_sp y)) = None /\ draws_follow m (y_sp y) f (arg "r_max") /\ surveys_follow m (y_sp y) f (arg "r_max").
Proof. exact (fun m ginv gam sol rel Om h0 form w Q => LawLib.zpow_populations m Q ginv gam sol rel Om h0 form w). Qed.
Theorem C70_steep_populations_nearly_followed : forall m ginv gam sol rel Om h0 form (w : world (real_env m)), quad_exact m ->
  forall c arg seed rate (y : synth (real_env m)) lum,
  build (full_lib m ginv gam sol rel Om h0 (fun _ => None) form) w c arg seed lum rate = Ok y -> fst (documented c) = zpow_sphere ->
  0 <= arg "Lambda" -> 0 < arg "r_max" -> arg "delta" <= -2 ->
  let f := fun r => arg "Lambda" * Rpower (1 + r) (arg "delta") * (4 * PI * r ^ 2) in let eps := 4 * PI * arg "Lambda" * - arg "delta" * (arg "r_max" / 998) in
  sc_sky (sd_cls (y_sp y)) = None /\ draws_nearly_follow m eps (y_sp y) f (arg "r_max") /\ surveys_nearly_follow m eps (y_sp y) f (arg "r_max").
Proof. exact (fun m ginv gam sol rel Om h0 form w Q => NearLaw.zpow_populations_near m Q ginv gam sol rel Om h0 form w). Qed.
(** The predefined cosmological populations. *)
Theorem C70_cosmological_populations_nearly_followed : forall m ginv gam sol rel Om h0 form (w : world (real_env m)), quad_exact m ->
  0 < sol -> 0 < Om < 1 -> 0 < h0 -> 0 <= rel < 1 -> forall c arg seed rate (y : synth (real_env m)) lum,
  build (full_lib m ginv gam sol rel Om h0 (fun _ => None) form) w c arg seed lum rate = Ok y -> fst (documented c) = zpow_cosmo ->
  0 <= arg "Lambda" -> 0 < arg "r_max" -> forall eps,
  let f := fun z => arg "Lambda" * Rpower (z + 1) (arg "delta") * differential_comoving_volume sol rel Om h0 z / time_adjustment (Some rate) z in
  varies_by eps f (arg "r_max") ->
  sc_sky (sd_cls (y_sp y)) = None /\ draws_nearly_follow m eps (y_sp y) f (arg "r_max") /\ surveys_nearly_follow m eps (y_sp y) f (arg "r_max").
Proof. exact (fun m ginv gam sol rel Om h0 form w Q => NearPops.zpow_populations m Q ginv gam sol rel Om h0 form w). Qed.
Theorem C70_sfr_populations_nearly_followed : forall m ginv gam sol rel Om h0 form (w : world (real_env m)), quad_exact m ->
  0 < sol -> 0 < Om < 1 -> 0 < h0 -> 0 <= rel < 1 -> forall c arg seed rate (y : synth (real_env m)) lum,
  build (full_lib m ginv gam sol rel Om h0 (fun _ => None) form) w c arg seed lum rate = Ok y -> fst (documented c) = sfr ->
  0 <= arg "r0" -> 0 <= arg "a" -> 0 <= arg "rise" -> 0 < arg "a" + arg "rise" -> 0 < arg "decay" -> 0 < arg "peak" -> 0 < arg "r_max" -> forall eps,
  let f := fun z => arg "r0" * (arg "a" + arg "rise" * z) / (1 + np_power (z / arg "peak") (arg "decay")) * differential_comoving_volume sol rel Om h0 z / time_adjustment (Some rate) z in
  varies_by eps f (arg "r_max") ->
  sc_sky (sd_cls (y_sp y)) = None /\ draws_nearly_follow m eps (y_sp y) f (arg "r_max") /\ surveys_nearly_follow m eps (y_sp y) f (arg "r_max").
Proof. exact (fun m ginv gam sol rel Om h0 form w Q => NearPops.sfr_populations m Q ginv gam sol rel Om h0 form w). Qed.
(** The variation is finite, and surveys of each of these populations exist. *)
Example C70_cosmo_applies : forall c seed rate d, snd (documented c) = Some d -> fst (documented c) <> milky_way ->
  exists y, build glib nothing c arg1 seed None rate = Ok y /\
  exists fuel p y', draw_survey true fuel 10 None true (Some 5%nat) false y = (Ok p, y') /\ p_nobj p = 5%nat.
Proof.
  intros c seed rate d HD NM. destruct (all_drawable c seed rate d HD NM) as (y & B & _ & _ & fuel & p & y' & H & N & _). exists y. split; [exact B|]. exists fuel, p, y'. auto.
Qed.
Example C70_cosmo_varies : forall sol rel Om h0 rate L delta rm, 0 < sol -> 0 < Om < 1 -> 0 < h0 -> 0 <= rel < 1 -> 0 <= L -> 0 < rm ->
  exists eps, varies_by eps (dens_zpow_cosmo sol rel Om h0 rate L delta) rm.
Proof. exact NearLaw.zpow_cosmo_varies. Qed.
(** Populations, and surveys of them. *)
Example C70_populations_apply : quad_exact mach /\ forall c seed d, snd (documented c) = Some d ->
  fst (documented c) = sphere \/ fst (documented c) = zpow_sphere ->
  exists y, build glib nothing c arg1 seed None false = Ok y /\ 0 <= arg1 "Lambda" /\ 0 < arg1 "r_max" /\ -2 <= arg1 "delta" /\
  exists fuel p y', draw_survey true fuel 10 None true (Some 5%nat) false y = (Ok p, y') /\ p_nobj p = 5%nat.
Proof. exact LawExamples.followed. Qed.
Example C70_peak_applies lam size s : 0 < lam -> exists d fuel d' s', instance mach (sd_cls (fst (ZPowerSphericalDistribution glib None))) 998 d /\
  reads mach d "Lambda" lam /\ reads mach d "delta" (-4) /\ draw_distance true fuel size true (d, s) = (Ok tt, (d', s')).
Proof. exact (LawExamples.peaked lam size s). Qed.
Example C70_no_progress_applies lam size s : 0 < lam -> exists d fuel d' s', instance mach (sd_cls (fst (ConstantSphericalDistribution glib None))) 10 d /\
  reads mach d "Lambda" lam /\ 1 < 4 / 3 * PI * 10 ^ 3 /\ draw_distance false fuel size true (d, s) = (Ok tt, (d', s')).
Proof. exact (LawExamples.hidden lam size s). Qed.

Print Assumptions C70_accepted_area.
Print Assumptions C70_draws.
Print Assumptions C70_surveys.
Print Assumptions C70_density_followed_partial.
Print Assumptions C70_sphere_followed.
Print Assumptions C70_zpower_sphere_followed_partial.
Print Assumptions C70_flatland_followed.
Print Assumptions C70_peak_between_distances_refuted.
Print Assumptions C70_no_progress_refuted.
Print Assumptions C70_spherical_populations.
Print Assumptions C70_zpower_populations_partial.
Print Assumptions C70_nearly_followed.
Print Assumptions C70_steep_sphere_nearly_followed.
Print Assumptions C70_zpower_cosmo_nearly_followed.
Print Assumptions C70_steep_populations_nearly_followed.
Print Assumptions C70_sfr_nearly_followed.
Print Assumptions C70_cosmological_populations_nearly_followed.
Print Assumptions C70_sfr_populations_nearly_followed.
