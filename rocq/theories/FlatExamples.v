(** Predefined populations with four predefined samplers. *)
From Coq Require Import Reals ZArith List String Lra Lia.
From Verif Require Import Base Env ParamModel SelModel DistModel DistSpec AuxModel AuxSpec AuxRunSpec PopModel SynthModel SynthSpec LibModel LibPopModel LibPopSpec LibPopProofs
  RealModel RealExamples AuxLibModel AuxLibSpec LumLibModel RunSpec FlatSpec FlatLibSpec FlatLib RealRunSpec RealRuns RunExamples.
Import ListNotations.
Open Scope R_scope.
Open Scope string_scope.

Definition tn0 (a b : R) (s : nat) : R * nat := ((a + b) / 2, s).
Definition nu0 (s : unit) : R * unit := (/ 2, s).
Example tn0_between : truncated mach tn0. Proof. intros a b g L. cbn. lra. Qed.
Example unit0 : unit_uniform mach nu0.
Proof. split; [exact mach_unit|]. intros n. cbn. lra. Qed.

Notation make c := (new_aux mach tn0 nu0 (-4) c).
Definition four : world (real_env mach) :=
  @World (real_env mach) 0%nat tt
    (repeat (unity (real_env mach) "unity") 4)
    [make Normal "x" true 0%nat; make PowerLaw "size" true 1%nat; make ViewingAngle "" false 2%nat; make Delta "d" false 3%nat] [].
(** [add_observed_quantity] on each. *)
Definition register_all (y : synth (real_env mach)) : res unit * synth (real_env mach) :=
  iterM (fun i => add_quantity (IsSampler i)) [0; 1; 2; 3]%nat y.

Lemma registered (y : synth (real_env mach)) : w_auxs (y_w y) = w_auxs four -> y_aux y = [] ->
  register_all y = (Ok tt, with_aux y [("x", 0); ("size", 1); ("va", 2); ("d", 3)]%nat).
Proof. destruct y as [w sp spm lum lumm seed nm nmd spc ax der fl fls ds dss ss gr]. destruct w as [sg ng se au cr]. cbn [y_w w_auxs y_aux]. intros -> ->. reflexivity. Qed.

Section Y.
Variable y : synth (real_env mach).
Hypothesis A : w_auxs (y_w y) = w_auxs four.
Hypothesis AX : y_aux y = [("x", 0); ("size", 1); ("va", 2); ("d", 3)]%nat.
Hypothesis D : y_der y = None.

Lemma four_at j a : at_ (y_w y) j a -> (j < 4)%nat /\ a_sec (a_ln a) = [] /\ a_sampled (a_dy a) = false /\ nth_error ["x"; "size"; "va"; "d"] j = Some (name_of a).
Proof.
  unfold at_. rewrite A. destruct j as [|[|[|[|j]]]]; cbn [four w_auxs nth_error]; try (intros [= <-]; split; [lia|]; repeat split).
  destruct j; discriminate.
Qed.
Lemma four_acyclic : acyclic (y_w y).
Proof. exists (fun _ => 0%nat). intros i j (a & k & Ha & I). destruct (four_at _ _ Ha) as (_ & S & _). rewrite S in I. destruct I. Qed.
Lemma four_never : SynthSpec.never_drawn (y_w y).
Proof. intros j (a & Ha & S). destruct (four_at _ _ Ha) as (_ & _ & S' & _). congruence. Qed.
Lemma four_distinct : distinct_names y.
Proof.
  split.
  - intros j b _ B. destruct (four_at _ _ B) as (_ & _ & _ & N). destruct j as [|[|[|[|j]]]]; cbn in N; injection N as <- || (destruct j; discriminate); discriminate.
  - intros i j b c _ _ B C Q. destruct (four_at _ _ B) as (_ & _ & _ & N). destruct (four_at _ _ C) as (_ & _ & _ & M). rewrite Q in N.
    assert (ND : NoDup ["x"; "size"; "va"; "d"]) by (repeat (constructor; [cbn; intuition discriminate|]); constructor).
    apply (proj1 (NoDup_nth_error _) ND i j); [apply nth_error_Some; congruence|congruence].
Qed.
Lemma four_part j : (j < 4)%nat -> part y j.
Proof. intros L. left. rewrite AX. 
  destruct j as [|[|[|[|j]]]]; [exists "x"|exists "size"|exists "va"|exists "d"|lia]; eexists; (split; [|apply reaches_refl]); cbn; auto. Qed.

(** Readings. *)
Definition reading4 (k : string) : R :=
  if String.eqb k "mu" then 0 else if String.eqb k "xp" then 0 else if String.eqb k "max_angle" then 90 else if String.eqb k "xmax" then 2 else 1.
Hypothesis FL : (4 <= y_flux y)%nat /\ (4 <= y_dsel y)%nat.
Hypothesis SE : forall i, (i < 4)%nat -> nth_error (w_sels (y_w y)) i = Some (unity (real_env mach) "unity").
Lemma four_predefined : default_selections y -> y_spaces y = [] -> with_predefined_samplers mach tn0 nu0 (-4) y.
Proof.
  intros DS SP. split; [|split; [|split; [exact D|split; [exact DS|rewrite SP; constructor]]]].
  - intros k i I. rewrite AX in I. cbn in I.
    assert (U : forall c nm ob j, nth_error (w_auxs (y_w y)) j = Some (make c nm ob j) -> (j < 4)%nat ->
      usable_name (name_of (make c nm ob j)) -> a_sampled (a_dy (make c nm ob j)) = false -> a_sec (a_ln (make c nm ob j)) = nil -> a_issec (a_ln (make c nm ob j)) = false ->
      a_sel (a_ln (make c nm ob j)) = j -> kind_of (make c nm ob j) = aux_kind mach tn0 nu0 (-4) c ->
      parameters_are mach (make c nm ob j) reading4 -> valid (-4) c reading4 -> (a_observed (a_st (make c nm ob j)) = true -> observable c /\ 0 <= reading4 "sigma") ->
      predefined_sampler mach tn0 nu0 (-4) y j).
    { intros c nm ob j HA L US H1 H2 H3 H4 K PA VA OB. exists (make c nm ob j), (unity (real_env mach) "unity"), c, reading4. rewrite H4. rewrite (SE j L).
      split; [exact HA|]. split; [exact H1|]. split; [exact H2|]. split; [exact H3|]. split; [reflexivity|]. split; [reflexivity|]. split; [lia|]. split; [lia|]. auto. }
    assert (US : forall s, In s ["x"; "size"; "va"; "d"] -> usable_name s).
    { intros s I'. unfold usable_name. intros X. cbn in I'. destruct I' as [Q|[Q|[Q|[Q|[]]]]]; subst s; cbn in X; repeat (destruct X as [X|X]; [discriminate|]); destruct X. }
    rewrite A in U. destruct I as [Q|[Q|[Q|[Q|[]]]]]; injection Q as <- <-.
    + apply (U Normal "x" true 0%nat); try reflexivity; [lia|apply US; cbn; auto|intros k I; cbn in I|cbn; unfold reading4; cbn; lra|intros _; split; [exact Logic.I|unfold reading4; cbn; lra]].
      repeat (destruct I as [<-|I]; [reflexivity|]). destruct I.
    + apply (U PowerLaw "size" true 1%nat); try reflexivity; [lia|apply US; cbn; auto|intros k I; cbn in I|intros _; split; [exact Logic.I|unfold reading4; cbn; lra]].
      repeat (destruct I as [<-|I]; [reflexivity|]). destruct I.
    + apply (U ViewingAngle "" false 2%nat); try reflexivity; [lia|apply US; cbn; auto|intros k I; cbn in I|discriminate].
      repeat (destruct I as [<-|I]; [reflexivity|]). destruct I.
    + apply (U Delta "d" false 3%nat); try reflexivity; [lia|apply US; cbn; auto|intros k I; cbn in I|discriminate].
      repeat (destruct I as [<-|I]; [reflexivity|]). destruct I.
  - rewrite AX. cbn. repeat (constructor; [cbn; lia|]). constructor.
Qed.
End Y.

(** Each of the twenty predefined populations, with the four samplers. *)
Example four_drawable c seed rate d : snd (documented c) = Some d -> fst (documented c) <> milky_way ->
  exists y0 y, build glib four c arg1 seed None rate = Ok y0 /\ positive_density (fst (documented c)) arg1 /\ drawable d arg1 /\
  register_all y0 = (Ok tt, y) /\ y_sp y = y_sp y0 /\ y_lum y = y_lum y0 /\ with_predefined_samplers mach tn0 nu0 (-4) y /\
  acyclic (y_w y) /\ distinct_names y /\ SynthSpec.never_drawn (y_w y) /\ (forall j, (j < 4)%nat -> part y j) /\ w_auxs (y_w y) = w_auxs four /\
  exists fuel p y', draw_survey true fuel 10 None true (Some 5%nat) false y = (Ok p, y') /\ p_nobj p = 5%nat /\ all_detected p.
Proof.
  intros HD NM. destruct (build_spec (real_env mach) glib four c arg1 seed None rate) as [B _]. destruct B as (y0 & B & _).
  { apply accepted_in. intros k _. apply (proj2 (RealSize.leb_iff 0 (arg1 k))). assert (X := arg1_pos k). lra. }
  assert (PD : positive_density (fst (documented c)) arg1).
  { assert (X := arg1_pos). split; [specialize (X "r_max"); lra|]. destruct (String.eqb _ _).
    - assert (X1 := X "r0"). assert (X2 := X "a"). assert (X3 := X "rise"). assert (X4 := X "decay"). assert (X5 := X "peak"). repeat split; lra.
    - specialize (X "Lambda"). lra. }
  assert (DR : drawable d arg1).
  { unfold drawable. destruct (String.eqb _ _); [assert (X := arg1_pos "alpha"); lra|]. destruct (String.eqb _ _); [|easy]. unfold arg1. cbn. repeat split; lra. }
  assert (QP : exists sp l, y0 = population_synth four sp (Some l) seed).
  { edestruct (population_parts mach mach_exact mach_fair mach_bern ginv1 (fun _ => 1) 1 0 (3 / 10) 1 (fun c => c) (fun _ => None) (fun _ _ => eq_refl)) as (sp & l & Q & _); [lra|exact B|exact NM|exact HD|exact PD|exact DR|].
    exists sp, l. exact Q. }
  destruct QP as (sp & l & Q). exists y0, (with_aux y0 [("x", 0); ("size", 1); ("va", 2); ("d", 3)]%nat).
  split; [exact B|]. split; [exact PD|]. split; [exact DR|]. split; [apply registered; now rewrite Q|].
  split; [reflexivity|]. split; [reflexivity|].
  assert (W : with_predefined_samplers mach tn0 nu0 (-4) (with_aux y0 [("x", 0); ("size", 1); ("va", 2); ("d", 3)]%nat)).
  { rewrite Q. apply four_predefined; try reflexivity.
    - split; cbn; lia.
    - intros i L. destruct i as [|[|[|[|i]]]]; try reflexivity. lia.
    - split; [reflexivity|]. split; [discriminate|]. intros i [->| ->]; eexists; (split; [reflexivity|]); split; reflexivity. }
  split; [exact W|]. assert (WA : w_auxs (y_w (with_aux y0 [("x", 0); ("size", 1); ("va", 2); ("d", 3)]%nat)) = w_auxs four) by now rewrite Q.
  split; [now apply four_acyclic|]. split; [now apply four_distinct|]. split; [now apply four_never|]. split; [intros j L; now apply four_part|]. split; [exact WA|].
  eapply (population_with_samplers mach mach_exact mach_fair mach_bern ginv1 (fun _ => 1) 1 0 (3 / 10) 1 (fun c => c) (fun _ => None) (fun _ _ => eq_refl)); [lra|exact B|exact NM|exact HD|exact PD|exact DR|reflexivity|reflexivity| |lia].
  apply (predefined_flat mach tn0 nu0 (-4) mach_bern tn0_between). exact W.
Qed.

(** A population with a right ascension sampler. *)
Definition one_angle : world (real_env mach) :=
  @World (real_env mach) 0%nat tt [unity (real_env mach) "unity"] [make RA "" false 0%nat] [].
Example angle_registered c seed rate d : snd (documented c) = Some d -> fst (documented c) <> milky_way ->
  exists y0 y, build glib one_angle c arg1 seed None rate = Ok y0 /\ add_quantity (IsSampler 0) y0 = (Ok tt, y) /\
  acyclic (y_w y) /\ distinct_names y /\ SynthSpec.never_drawn (y_w y) /\ part y 0 /\ at_ (y_w y) 0 (make RA "" false 0%nat).
Proof.
  intros HD NM. destruct (build_spec (real_env mach) glib one_angle c arg1 seed None rate) as [B _]. destruct B as (y0 & B & _).
  { apply accepted_in. intros k _. apply (proj2 (RealSize.leb_iff 0 (arg1 k))). assert (X := arg1_pos k). lra. }
  assert (QP : exists sp l, y0 = population_synth one_angle sp (Some l) seed).
  { edestruct (population_parts mach mach_exact mach_fair mach_bern ginv1 (fun _ => 1) 1 0 (3 / 10) 1 (fun c => c) (fun _ => None) (fun _ _ => eq_refl)) as (sp & l & Q & _); [lra|exact B|exact NM|exact HD| | |].
    - assert (X := arg1_pos). split; [specialize (X "r_max"); lra|]. destruct (String.eqb _ _).
      + assert (X1 := X "r0"). assert (X2 := X "a"). assert (X3 := X "rise"). assert (X4 := X "decay"). assert (X5 := X "peak"). repeat split; lra.
      + specialize (X "Lambda"). lra.
    - unfold drawable. destruct (String.eqb _ _); [assert (X := arg1_pos "alpha"); lra|]. destruct (String.eqb _ _); [|easy]. unfold arg1. cbn. repeat split; lra.
    - exists sp, l. exact Q. }
  destruct QP as (sp & l & Q). exists y0, (with_aux y0 [("ra", 0%nat)]). split; [exact B|]. split; [rewrite Q; reflexivity|].
  assert (A1 : forall j a, at_ (y_w (with_aux y0 [("ra", 0%nat)])) j a -> j = 0%nat /\ a = make RA "" false 0%nat).
  { rewrite Q. intros j a. unfold at_. cbn. destruct j as [|j]; [intros [= <-]; auto|]. destruct j; discriminate. }
  split; [|split; [|split; [|split]]].
  - exists (fun _ => 0%nat). intros i j (a & k & A & I). destruct (A1 _ _ A) as [_ ->]. destruct I.
  - split; [intros j b _ A; destruct (A1 _ _ A) as [_ ->]; discriminate|]. intros i j b b' _ _ A A' _. destruct (A1 _ _ A), (A1 _ _ A'). congruence.
  - intros j (a & A & S). destruct (A1 _ _ A) as [_ ->]. discriminate.
  - left. exists "ra", 0%nat. split; [left; reflexivity|apply reaches_refl].
  - rewrite Q. reflexivity.
Qed.
