(** Cases for C71: a truncated log10-normal sampler in predefined populations; a
    Schechter population. *)
From Coq Require Import Reals ZArith List String Lra Lia.
From Verif Require Import Base Env ParamModel SelModel DistModel DistSpec AuxModel AuxSpec AuxRunSpec PopModel SynthModel SynthSpec LibModel LibLum LibPopModel LibPopSpec LibPopProofs
  RealModel RealExamples AuxLibModel AuxLibSpec LumLibModel LumLibSpec RunSpec FlatSpec FlatLibSpec FlatLib RealRunSpec RealRuns RunExamples FlatExamples AuxLawSpec.
Import ListNotations.
Open Scope R_scope.
Open Scope string_scope.

(** Between e and 100: the natural logarithm of the lower limit is 1, the decimal one of
    the upper limit 2. *)
Definition cut_sampler : sampler (real_env mach) :=
  upd_dy (@dy_par (real_env mach) (PObj [("lower", Some (exp 1)); ("upper", Some 100)] None)) (new_aux mach tn0 nu0 (-4) TruncLog10Normal "z" false 0%nat).
Definition cut : world (real_env mach) := @World (real_env mach) 0%nat tt [unity (real_env mach) "unity"] [cut_sampler] [].
Definition limits (k : string) : R :=
  if String.eqb k "mu" then 0 else if String.eqb k "lower" then exp 1 else if String.eqb k "upper" then 100 else 1.
Lemma cut_reads : parameters_are mach cut_sampler limits.
Proof. intros k I. cbn in I. repeat (destruct I as [<-|I]; [reflexivity|]). destruct I. Qed.
Lemma cut_params : has_parameters mach cut_sampler limits.
Proof.
  intros k v. assert (H := cut_reads). unfold reads_as, reading, pread. destruct (dget (k_params (kind_of cut_sampler)) k) as [d|] eqn:D; [|discriminate].
  assert (I : In k (dkeys (k_params (kind_of cut_sampler)))) by (apply (BaseFacts.dget_In) in D; now apply (in_map fst) in D).
  specialize (H k I). unfold reads_as, reading, pread in H. rewrite D in H. intros Q. rewrite H in Q. now injection Q.
Qed.
Lemma hundred : ln 100 / ln 10 = 2.
Proof. replace 100 with (10 * 10) by lra. rewrite ln_mult by lra. pose proof ln10_pos. field. lra. Qed.
Lemma limits_valid : valid (-4) TruncLog10Normal limits.
Proof.
  unfold valid, limits. cbn. split; [lra|]. split; [lra|]. left. split; [assert (exp 0 < exp 1) by (apply exp_increasing; lra); rewrite exp_0 in *; lra|]. rewrite ln_exp. rewrite Rpower_1; lra.
Qed.

Section Y.
Variable y : synth (real_env mach).
Hypothesis A : w_auxs (y_w y) = [cut_sampler].
Hypothesis AX : y_aux y = [("z", 0%nat)].
Lemma cut_at j a : at_ (y_w y) j a -> j = 0%nat /\ a = cut_sampler.
Proof. unfold at_. rewrite A. destruct j as [|j]; cbn; [intros [= <-]; auto|]. destruct j; discriminate. Qed.
Lemma cut_acyclic : acyclic (y_w y).
Proof. exists (fun _ => 0%nat). intros i j (a & k & Ha & I). destruct (cut_at _ _ Ha) as [_ ->]. destruct I. Qed.
Lemma cut_never : SynthSpec.never_drawn (y_w y).
Proof. intros j (a & Ha & S). destruct (cut_at _ _ Ha) as [_ ->]. discriminate. Qed.
Lemma cut_distinct : distinct_names y.
Proof.
  split; [intros j b _ B; destruct (cut_at _ _ B) as [_ ->]; discriminate|].
  intros i j b c _ _ B C _. destruct (cut_at _ _ B), (cut_at _ _ C). congruence.
Qed.
Lemma cut_part : part y 0.
Proof. left. rewrite AX. exists "z", 0%nat. split; [now left|apply reaches_refl]. Qed.
Hypothesis D : y_der y = None.
Hypothesis FL : (1 <= y_flux y)%nat /\ (1 <= y_dsel y)%nat.
Hypothesis SE : nth_error (w_sels (y_w y)) 0 = Some (unity (real_env mach) "unity").
Lemma cut_predefined : default_selections y -> y_spaces y = [] -> with_predefined_samplers mach tn0 nu0 (-4) y.
Proof.
  intros DS SP. split; [|split; [|split; [exact D|split; [exact DS|rewrite SP; constructor]]]].
  - intros k i I. rewrite AX in I. destruct I as [Q|[]]. injection Q as <- <-.
    exists cut_sampler, (unity (real_env mach) "unity"), TruncLog10Normal, limits. rewrite A. split; [reflexivity|]. split; [reflexivity|]. split; [reflexivity|]. split; [reflexivity|].
    split; [exact SE|]. split; [reflexivity|]. change (a_sel (a_ln cut_sampler)) with 0%nat. split; [lia|]. split; [lia|].
    split; [intros X; cbn in X; repeat (destruct X as [X|X]; [discriminate|]); destruct X|]. split; [reflexivity|]. split; [exact cut_reads|]. split; [exact limits_valid|]. discriminate.
  - rewrite AX. constructor; [easy|constructor].
Qed.
End Y.

Lemma arg1_dense c : positive_density (fst (documented c)) arg1.
Proof.
  assert (X := arg1_pos). split; [specialize (X "r_max"); lra|]. destruct (String.eqb _ _).
  - assert (X1 := X "r0"). assert (X2 := X "a"). assert (X3 := X "rise"). assert (X4 := X "decay"). assert (X5 := X "peak"). repeat split; lra.
  - specialize (X "Lambda"). lra.
Qed.
Lemma arg1_drawable d : drawable d arg1.
Proof. unfold drawable. destruct (String.eqb _ _); [assert (X := arg1_pos "alpha"); lra|]. destruct (String.eqb _ _); [|easy]. unfold arg1. cbn. repeat split; lra. Qed.

Example cut_drawable c seed rate d : snd (documented c) = Some d -> fst (documented c) <> milky_way ->
  exists y0 y, build glib cut c arg1 seed None rate = Ok y0 /\ add_quantity (IsSampler 0) y0 = (Ok tt, y) /\
  acyclic (y_w y) /\ distinct_names y /\ SynthSpec.never_drawn (y_w y) /\ part y 0 /\ at_ (y_w y) 0 cut_sampler /\
  exists fuel p y', draw_survey true fuel 10 None true (Some 5%nat) false y = (Ok p, y') /\ p_nobj p = 5%nat.
Proof.
  intros HD NM. destruct (build_spec (real_env mach) glib cut c arg1 seed None rate) as [B _]. destruct B as (y0 & B & _).
  { apply accepted_in. intros k _. apply (proj2 (RealSize.leb_iff 0 (arg1 k))). assert (X := arg1_pos k). lra. }
  assert (QP : exists sp l, y0 = population_synth cut sp (Some l) seed).
  { edestruct (population_parts mach mach_exact mach_fair mach_bern ginv1 (fun _ => 1) 1 0 (3 / 10) 1 (fun c => c) (fun _ => None) (fun _ _ => eq_refl)) as (sp & l & Q & _); [lra|exact B|exact NM|exact HD|apply arg1_dense|apply arg1_drawable|].
    exists sp, l. exact Q. }
  destruct QP as (sp & l & Q). exists y0, (with_aux y0 [("z", 0%nat)]). split; [exact B|]. split; [rewrite Q; reflexivity|].
  assert (WA : w_auxs (y_w (with_aux y0 [("z", 0%nat)])) = [cut_sampler]) by now rewrite Q.
  split; [now apply cut_acyclic|]. split; [now apply cut_distinct|]. split; [now apply cut_never|]. split; [now apply cut_part|]. split; [unfold at_; now rewrite WA|].
  edestruct (population_with_samplers mach mach_exact mach_fair mach_bern ginv1 (fun _ => 1) 1 0 (3 / 10) 1 (fun c => c) (fun _ => None) (fun _ _ => eq_refl)) with (y := with_aux y0 [("z", 0%nat)]) (n := 5%nat) (rl := 10%nat) as (fuel & p & y' & H & N & _);
    [lra|exact B|exact NM|exact HD|apply arg1_dense|apply arg1_drawable|reflexivity|reflexivity| |lia|exists fuel, p, y'; split; [exact H|exact N]].
  apply (predefined_flat mach tn0 nu0 (-4) mach_bern tn0_between). rewrite Q. apply cut_predefined; try reflexivity.
  - split; cbn; lia.
  - split; [reflexivity|]. split; [discriminate|]. intros i [->| ->]; eexists; (split; [reflexivity|]); split; reflexivity.
Qed.

(** Values following the law of the code do not follow the documented one. *)
Lemma cut_wrong t : length t = 5%nat -> actual_law mach tn0 nu0 (-4) TruncLog10Normal limits t -> ~ documented_law mach tn0 nu0 (-4) TruncLog10Normal limits t.
Proof.
  intros L (a & A1 & _ & g & l & g' & C & F) (a' & A1' & _ & h & r & h' & C' & F').
  unfold limits in *. cbn [String.eqb Ascii.eqb Bool.eqb] in *. specialize (A1 (exp_pos 1)). specialize (A1' (exp_pos 1)). rewrite ln_exp in A1, A1'.
  destruct t as [|x t]; [discriminate L|]. inversion F as [|z x1 l1 t1 [_ Q] _ E1 E2]. inversion F' as [|z' x1' l1' t1' [_ Q'] _ E1' E2']. subst. destruct C as [C _]. destruct C' as [C' _]. cbn in C, C'. rewrite hundred in C, C'. pose proof ln10_pos.
  assert (1 / ln 10 < 1) by (apply (Rmult_lt_reg_r (ln 10)); [lra|]; unfold Rdiv; rewrite Rmult_assoc, Rinv_l by lra; lra). lra.
Qed.

(** A Schechter population of exponent zero. *)
Definition arg0 (k : string) : R := if String.eqb k "alpha" then 0 else arg1 k.
Example schechter_drawable seed rate : exists y, build glib nothing P_SchechterHomogeneousSphericalPopulation arg0 seed None rate = Ok y /\ y_der y = None /\
  gamma_known ginv1 (fun _ => 1) (fun _ y => 1 - exp (- y)) LSchechter arg0 /\ lum_proper LSchechter arg0 /\
  exists fuel p y', draw_survey true fuel 10 None true (Some 5%nat) false y = (Ok p, y') /\ p_nobj p = 5%nat.
Proof.
  destruct (build_spec (real_env mach) glib nothing P_SchechterHomogeneousSphericalPopulation arg0 seed None rate) as [B _]. destruct B as (y & B & AD).
  { apply accepted_in. intros k _. apply (proj2 (RealSize.leb_iff 0 (arg0 k))). unfold arg0. destruct (String.eqb k "alpha"); [lra|]. assert (X := arg1_pos k). lra. }
  exists y. split; [exact B|]. split; [apply AD|]. split; [intros _; change (incomplete_gamma (1 + 0) 1 (fun y => 1 - exp (- y)) (ginv1 (1 + 0))); rewrite Rplus_0_r; exact gamma_one|].
  split; [unfold lum_proper, arg0, arg1; cbn; lra|].
  edestruct (population_can_be_drawn mach mach_exact mach_fair mach_bern ginv1 (fun _ => 1) 1 0 (3 / 10) 1 (fun c => c) (fun _ => None) (fun _ _ => eq_refl)) with (n := 5%nat) (rl := 10%nat) as (fuel & p & y' & H & N & _);
    [lra|exact B|discriminate|reflexivity| | |exists fuel, p, y'; split; [exact H|exact N]].
  - split; unfold arg0, arg1; cbn; [lra|]. lra.
  - unfold drawable. cbn. exact Logic.I.
Qed.
