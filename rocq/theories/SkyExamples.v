(** A Milky Way survey on the machine of RealExamples.v. *)
From Coq Require Import Reals ZArith List String Lra Lia.
From Verif Require Import Base BaseFacts Env ParamModel SelModel SimVarModel DistModel DistSpec DistProofs AuxModel PopModel SynthModel SynthSpec LibModel LibPopModel LibPopSpec LibPopProofs
  RealModel RealExamples LumLibModel RunSpec RealRunSpec RunExamples SkyModel SkySpec SkyPop MilkyWay.
From Verif Require RealSize RealRuns.
Import ListNotations.
Open Scope R_scope.
Open Scope string_scope.

Example mach_range : uniform_in_range mach.
Proof. intros hi [|[|s]]; cbn; split; lra. Qed.
(** Always the third arm, 0.3 above the plane. *)
Definition mgs : galaxy_sources mach := GalaxySources mach (fun s => (2%nat, s)) (fun x s => (x, s)) (fun s => (true, s)).
Example mgs_arm g : (fst (gs_arm mach mgs g) < 4)%nat. Proof. cbn. lia. Qed.
Definition slib : formulas (real_env mach) := full_lib mach ginv1 (fun _ => 1) 1 0 (3 / 10) 1 (library_sky mach mgs) (fun c => c).
Definition wide (k : string) : R := if String.eqb k "r_max" then 100 else 1.
Example wide_dense : galaxy_density wide. Proof. unfold galaxy_density, wide. cbn. lra. Qed.
Definition bright : lumobj (real_env mach) :=
  match assign_lum (ParetoDistribution slib) [("Lmin", 2); ("alpha", 1)] with Ok l => l | Err _ => ParetoDistribution slib end.
Example bright_drawn n : draws_luminosities (fst bright) n.
Proof.
  unfold bright. destruct (assign_lum (ParetoDistribution slib) [("Lmin", 2); ("alpha", 1)]) as [l|e] eqn:A.
  - refine (RealRuns.pareto_good mach ginv1 (fun _ => 1) 1 0 (3 / 10) 1 (fun c => c) (library_sky mach mgs) 2 1 l _ _ A n); lra.
  - exfalso. revert A. unfold assign_lum. cbn. rewrite RealRuns.le0' by lra. discriminate.
Qed.
Example wide_built seed rate : exists y, build slib nothing P_MWRadialPopulation wide seed (Some bright) rate = Ok y.
Proof.
  destruct (build_spec (real_env mach) slib nothing P_MWRadialPopulation wide seed (Some bright) rate) as [B _]. destruct B as (y & B & _); [|eauto].
  apply accepted_in. intros k _. apply (proj2 (RealSize.leb_iff 0 (wide k))). unfold wide. destruct (String.eqb k "r_max"); lra.
Qed.
(** Accepted distances come from the generator. *)
Lemma accept_from E fuel f ymax rmax : forall g r g', accept E fuel f ymax rmax g = (Ok r, g') -> exists s, r = fst (r_unif E (vofnat E 0) rmax s).
Proof.
  induction fuel as [|k IH]; intros g r g'; cbn [accept]; [discriminate|]. destruct (r_unif E (vofnat E 0) ymax g) as [y g1]. destruct (r_unif E (vofnat E 0) rmax g1) as [x g2] eqn:X.
  destruct (f x); [|discriminate]. destruct (vlt E y a); [|apply IH]. intros [= <- <-]. exists g1. now rewrite X.
Qed.
Lemma accept_many_from E fuel f ymax rmax size : forall g rs g', accept_many E fuel f ymax rmax size g = (Ok rs, g') ->
  Forall (fun r => exists s, r = fst (r_unif E (vofnat E 0) rmax s)) rs.
Proof.
  unfold accept_many. induction size as [|n IH]; intros g rs g' H; cbn [repeatM] in H; [unfold ret in H; injection H as <- _; constructor|].
  apply bind_inv_ok in H. destruct H as (x & g1 & A & H). apply bind_inv_ok in H. destruct H as (xs & g2 & H1 & H2). unfold ret in H2. injection H2 as <- _.
  constructor; [eapply accept_from, A|eapply IH, H1].
Qed.
Example wide_far seed rate : exists y fuel p y', build slib nothing P_MWRadialPopulation wide seed (Some bright) rate = Ok y /\
  draw_survey true fuel 10 None true (Some 5%nat) false y = (Ok p, y') /\ p_nobj p = 5%nat /\ length (pop_dec mach p) = 5%nat /\ Forall (fun x => x < -90) (pop_dec mach p).
Proof.
  destruct (wide_built seed rate) as (y & B).
  destruct (galaxy_drawable mach mach_exact mgs ginv1 (fun _ => 1) 1 0 (3 / 10) 1 (fun c => c) nothing wide seed rate (Some bright) y wide_dense B bright true 10 None true 5 false mach_fair mgs_arm eq_refl bright_drawn)
    as (fuel & p & y' & H & N & _).
  exists y, fuel, p, y'. split; [exact B|]. split; [exact H|]. split; [exact N|].
  destruct (galaxy_survey mach mach_exact mgs ginv1 (fun _ => 1) 1 0 (3 / 10) 1 (fun c => c) nothing wide seed rate (Some bright) y wide_dense B true fuel 10 None true (Some 5%nat) false y p y' mach_range eq_refl H)
    as (g & ds & ps & g1 & g2 & D & L & F & GD).
  destruct (galaxy_parts mach mgs ginv1 (fun _ => 1) 1 0 (3 / 10) 1 (fun c => c) nothing wide seed rate (Some bright) y B) as (d & A & E0).
  assert (LT : length (sv_lat (p_theta p)) = length ds) by (destruct (galaxy_lengths _ _ _ _ _ _ _ _ _ _ GD) as [Z _]; exact Z).
  assert (LO : sv_obs (p_theta p) = sv_lat (p_theta p)).
  { destruct (SynthInv.survey_steps _ _ _ _ _ _ _ _ _ _ _ H) as (t & S). destruct (SurveyProofs.steps_built _ _ _ _ _ _ _ _ _ _ _ _ S) as (ar & BB & _). rewrite (proj1 (SurveyProofs.bu_theta _ _ _ BB)). reflexivity. }
  unfold pop_dec. rewrite LO, map_length. split; [exact (eq_trans LT (eq_trans L N))|]. apply Forall_map, Forall_forall. intros t I. apply In_nth_error in I. destruct I as (j & J).
  destruct (nth_error ds j) as [dj|] eqn:DJ; [|exfalso; apply nth_error_None in DJ].
  2:{ assert (Z : (j < length (sv_lat (p_theta p)))%nat) by (apply nth_error_Some; intros Z; discriminate (eq_trans (eq_sym Z) J)). rewrite LT in Z. exact (Nat.lt_irrefl _ (Nat.lt_le_trans _ _ _ Z DJ)). }
  eapply galaxy_far; [exact mach_range|exact GD|exact DJ| |exact J].
  destruct D as (rm & dv & uv & ig & ys & ym & RM & _ & _ & _ & _ & _ & AM & _). rewrite E0 in RM. change (y_sp (population_synth nothing d (Some bright) seed)) with (fst d) in RM.
  assert (IN := nth_error_In _ _ DJ). assert (P := proj1 (Forall_forall _ _) F dj IN).
  destruct (proj1 (Forall_forall _ _) (accept_many_from _ _ _ _ _ _ _ _ _ AM) dj IN) as (s & X).
  assert (RX : rm = 100).
  { clear - RM A. revert RM. unfold assign_sp in A. cbn in A. revert A. unfold wide. cbn. repeat (rewrite RealRuns.le0' by lra; cbn). intros [= <-]. cbn. intros [= <-]. reflexivity. }
  rewrite RX in X. clear - X P. cbn in X. destruct s as [|[|s]]; cbn in X; lra.
Qed.
