(** C87: the histogram of the distances and the spheres show every object. *)
From Coq Require Import Reals List String Lra.
From Verif Require Import Base Env ParamModel SimVarModel DistModel AuxModel PopModel SynthModel LibPopModel LibPopSpec RealModel RealSpec RealExamples LumLibModel
  RunExamples SkyModel SkySpec SkyExamples PlotModel PlotSpec HistModel HistSpec.
From Verif Require HistPops SkyFar.
Import ListNotations.
Open Scope R_scope.
Open Scope string_scope.

(** [display_distances] draws 39 bars of equal width from 0 to [r_max], counting the
    objects in each, and in front of them 39 bars, none higher, counting the detected. *)
Theorem C87_bars : forall m (a : popargs (real_env m)) p, pop_new a = Ok p -> 0 < pa_rmax a ->
  exists m1 m2 b1 b2, draws (display_distances p) (Ok tt) [m1; m2] /\ bars m1 = Ok b1 /\ bars m2 = Ok b2 /\
    counts 39 (pa_rmax a) (pa_dist a) b1 /\ counts 39 (pa_rmax a) (of_objects true a (@pa_dist (real_env m))) b2 /\ Forall2 le b2 b1.
Proof. exact HistPops.bars_of. Qed.

(** In surveys of the predefined populations but the Milky Way, whatever samplers and
    selections were added, every object is counted, and every detected one, and the spheres
    show as many points as there are objects, all of them inside the sphere of radius [r_max]. *)
Theorem C87_every_object_counted (m : machine) gs ginv gam sol rel Om h0 form (w : world (real_env m)) : uniform_in_range m ->
  forall c arg seed rate lum (y0 : synth (real_env m)), build (full_lib m ginv gam sol rel Om h0 (library_sky m gs) form) w c arg seed lum rate = Ok y0 ->
  fst (documented c) <> milky_way -> 0 < arg "r_max" ->
  forall prog fuel rl fs l10 ns norm (y : synth (real_env m)) p y', y_sp y = y_sp y0 -> draw_survey prog fuel rl fs l10 ns norm y = (Ok p, y') ->
  (exists m1 m2 b1 b2, draws (display_distances p) (Ok tt) [m1; m2] /\ bars m1 = Ok b1 /\ bars m2 = Ok b2 /\
     counts 39 (arg "r_max") (sv_lat (p_dist p)) b1 /\ list_sum b1 = p_nobj p /\ list_sum b2 = p_ndet p) /\
  exists r l, draws (display_flux_sphere (E := real_env m) sin cos None p) (Ok r) l /\ list_sum (map shown l) = p_nobj p /\ Forall (points_are m (inside (arg "r_max"))) l.
Proof.
  intros U c arg seed rate lum y0 B NM T prog fuel rl fs l10 ns norm y p y' SP H.
  destruct (HistPops.predefined_range m gs ginv gam sol rel Om h0 form w U c arg seed rate lum y0 y prog fuel rl fs l10 ns norm p y' B NM T SP H) as [RM IN].
  destruct (HistPops.made m _ _ _ _ _ _ _ _ _ _ H) as [P D]. assert (T' : 0 < pa_rmax (p_args p)) by (rewrite RM; exact T). split.
  - destruct (HistPops.bars_of m _ _ P T') as (m1 & m2 & b1 & b2 & DD & H1 & H2 & C1 & _). exists m1, m2, b1, b2.
    destruct (proj1 (HistPops.sums m _ _ m1 m2 b1 b2 P T' DD H1 H2)) as [S1 S2]. { intros x I. rewrite RM. destruct (IN x I) as [X1 X2]. split; [exact X1|now left]. }
    rewrite RM, D in C1. auto 10.
  - refine (HistPops.points_drawn m (inside (arg "r_max")) _ _ P _). intros x I. destruct (IN x I) as [X1 X2]. unfold inside. now apply Rmult_le_0_lt_compat.
Qed.
Example C87_applies : uniform_in_range mach /\ forall c seed rate d, snd (documented c) = Some d -> fst (documented c) <> milky_way -> 0 < arg1 "r_max" /\
  exists y fuel p y', build slib nothing c arg1 seed None rate = Ok y /\ draw_survey true fuel 10 None true (Some 5%nat) false y = (Ok p, y') /\ p_nobj p = 5%nat /\
    pop_new (p_args p) = Ok p /\ pa_rmax (p_args p) = 10.
Proof.
  split; [exact mach_range|]. intros c seed rate d HD NM. assert (T : 0 < arg1 "r_max") by (unfold arg1; cbn; lra). split; [exact T|].
  destruct (HistPops.slib_drawn c seed rate d HD NM) as (y & fuel & p & y' & B & H & N). exists y, fuel, p, y'. split; [exact B|]. split; [exact H|]. split; [exact N|].
  split; [exact (proj1 (HistPops.made mach _ _ _ _ _ _ _ _ _ _ H))|].
  exact (proj1 (HistPops.predefined_range mach mgs ginv1 (fun _ => 1) 1 0 (3 / 10) 1 (fun c => c) nothing mach_range c arg1 seed rate None y y _ _ _ _ _ _ _ p y' B NM T eq_refl H)).
Qed.

(** The Milky Way: objects scattered beyond [r_max] are in no bar, and lie outside of the
    sphere shown.  There is a survey of five objects with bars of height zero. *)
Theorem C87_milky_way_refuted : forall seed rate, exists y fuel p y' m1 m2 b1 b2 r l,
  build (SkyFar.wlib 20) (SkyFar.void 20) P_MWRadialPopulation wide seed (Some (SkyFar.bright' 20)) rate = Ok y /\
  draw_survey true fuel 10 None true (Some 5%nat) false y = (Ok p, y') /\ p_nobj p = 5%nat /\ pa_rmax (p_args p) = 100 /\
  draws (display_distances p) (Ok tt) [m1; m2] /\ bars m1 = Ok b1 /\ bars m2 = Ok b2 /\ list_sum b1 = 0%nat /\ list_sum b2 = 0%nat /\
  draws (display_flux_sphere (E := real_env (SkyFar.windy 20)) sin cos None p) (Ok r) l /\ list_sum (map shown l) = 5%nat /\
  Forall (points_are (SkyFar.windy 20) (outside 100)) l.
Proof.
  intros seed rate. destruct (HistPops.galaxy_beyond seed rate) as (y & fuel & p & y' & B & H & N & RM & F).
  destruct (HistPops.made (SkyFar.windy 20) _ _ _ _ _ _ _ _ _ _ H) as [P _]. assert (T : 0 < (pa_rmax (p_args p) : R)) by (rewrite RM; lra).
  destruct (HistPops.bars_of (SkyFar.windy 20) _ _ P T) as (m1 & m2 & b1 & b2 & DD & H1 & H2 & _).
  destruct (proj2 (HistPops.sums (SkyFar.windy 20) _ _ m1 m2 b1 b2 P T DD H1 H2)) as [S1 S2]. { intros x I. right. rewrite RM, (F x I). lra. }
  destruct (HistPops.points_drawn (SkyFar.windy 20) (outside 100) _ _ P) as (r & l & D & L & Q). { intros x I. rewrite (F x I). unfold outside. lra. }
  exists y, fuel, p, y', m1, m2, b1, b2, r, l. rewrite N in L. auto 20.
Qed.

Print Assumptions C87_bars.
Print Assumptions C87_every_object_counted.
Print Assumptions C87_milky_way_refuted.
