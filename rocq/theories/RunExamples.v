(** Populations that can be drawn on the machine of RealExamples.v. *)
From Coq Require Import Reals ZArith List String Lra Lia.
From Coquelicot Require Import Coquelicot.
From Verif Require Import Base Env ParamModel SelModel DistModel DistSpec AuxModel PopModel SynthModel LibModel LibPopModel LibPopSpec LibPopProofs
  RealModel RealExamples AuxLibModel LumLibModel LumLibSpec RunSpec RealRunSpec RealRuns.
Import ListNotations.
Open Scope R_scope.
Open Scope string_scope.

Example mach_fair : fair mach.
Proof.
  intros f b hi Hb Hh C.
  assert (A0 : accepts_within (real_env mach) 1 (fun r => Ok (f r)) hi b 0%nat).
  { cbn [accepts_within]. unfold proposal. cbn. exists (f ((0 + b) / 2)). split; [reflexivity|]. left. unfold ltb. destruct (Rlt_dec 0 (f ((0 + b) / 2))) as [|N]; [reflexivity|].
    exfalso. apply N. apply C. lra. }
  assert (A1 : accepts_within (real_env mach) 2 (fun r => Ok (f r)) hi b 1%nat).
  { cbn [accepts_within]. unfold proposal. eexists. split; [reflexivity|]. right. exact A0. }
  intros s. destruct s as [|[|s]]; [exists 1%nat; exact A0|exists 2%nat; exact A1|exists 3%nat].
  cbn [accepts_within]. unfold proposal. eexists. split; [reflexivity|]. right. exact A1.
Qed.
Example mach_bern : takes_probabilities mach. Proof. intros p _. reflexivity. Qed.
Example mach_unit : forall g, 0 <= fst (mc_unif mach 0 1 g) < 1.
Proof. intros [|[|s]]; cbn; lra. Qed.

(** For the exponent one: [gamma(1)] is 1 and [gammaincinv(1, x)] is [-ln (1 - x)]. *)
Definition ginv1 (s x : R) : R := - ln (1 - x).
Example gamma_one : incomplete_gamma 1 1 (fun y => 1 - exp (- y)) (ginv1 1).
Proof.
  split.
  - lra.
  - intros y Hy. assert (0 < exp (- y)) by apply exp_pos. split; [|lra]. destruct (Req_dec y 0) as [->|N]; [rewrite Ropp_0, exp_0; lra|].
    assert (exp (- y) < exp 0) by (apply exp_increasing; lra). rewrite exp_0 in *. lra.
  - rewrite Ropp_0, exp_0. ring.
  - intros a b H. replace (1 - exp (- b) - (1 - exp (- a))) with ((fun t => - exp (- t)) b - (fun t => - exp (- t)) a) by ring.
    apply (is_RInt_derive (V := R_CompleteNormedModule) (fun t => - exp (- t))).
    + intros x Hx. rewrite Rmin_left in Hx by lra. auto_derive; [easy|]. unfold Rpower. replace ((1 - 1) * ln x) with 0 by ring. rewrite exp_0. field.
    + intros x Hx. rewrite Rmin_left in Hx by lra. apply (ex_derive_continuous (K := R_AbsRing) (V := R_NormedModule)). unfold Rpower. auto_derive. lra.
  - intros x Hx. unfold ginv1. destruct (Req_dec x 0) as [->|N]; [rewrite Rminus_0_r, ln_1; lra|]. assert (ln (1 - x) < ln 1) by (apply ln_increasing; lra). rewrite ln_1 in *. lra.
  - intros x Hx. unfold ginv1. rewrite Ropp_involutive, exp_ln by lra. ring.
Qed.
Example ginv1_nonneg : forall s x, 0 < s -> 0 < x <= 1 -> 0 <= ginv1 s x.
Proof.
  intros s x _ Hx. unfold ginv1. destruct (Req_dec x 1) as [->|N].
  - replace (1 - 1) with 0 by ring. unfold ln. destruct (Rlt_dec 0 0) as [Z|Z]; [exfalso; now apply (Rlt_irrefl 0)|lra].
  - assert (ln (1 - x) < ln 1) by (apply ln_increasing; lra). rewrite ln_1 in *. lra.
Qed.

Definition glib : formulas (real_env mach) := full_lib mach ginv1 (fun _ => 1) 1 0 (3 / 10) 1 (fun _ => None) (fun c => c).
Definition nothing : world (real_env mach) := @World (real_env mach) 0%nat tt [] [] [].
(** All arguments are one, but the smallest luminosity two and the size ten. *)
Definition arg1 (k : string) : R := if String.eqb k "r_max" then 10 else if String.eqb k "Lmin" then 2 else if String.eqb k "Lbreak" then 3 else if String.eqb k "Lmax" then 4 else 1.
Lemma arg1_pos k : 1 <= arg1 k.
Proof. unfold arg1. repeat destruct (String.eqb _ _); lra. Qed.
(** Every predefined population but the Milky Way, with a given luminosity class. *)
Example all_drawable c seed rate d : snd (documented c) = Some d -> fst (documented c) <> milky_way ->
  exists y, build glib nothing c arg1 seed None rate = Ok y /\ positive_density (fst (documented c)) arg1 /\ drawable d arg1 /\
  exists fuel p y', draw_survey true fuel 10 None true (Some 5%nat) false y = (Ok p, y') /\ p_nobj p = 5%nat /\ all_detected p.
Proof.
  intros HD NM. destruct (build_spec (real_env mach) glib nothing c arg1 seed None rate) as [B _]. destruct B as (y & B & _).
  { apply accepted_in. intros k _. apply (proj2 (RealSize.leb_iff 0 (arg1 k))). assert (X := arg1_pos k). lra. }
  assert (PD : positive_density (fst (documented c)) arg1).
  { assert (X := arg1_pos). split; [specialize (X "r_max"); lra|]. destruct (String.eqb _ _).
    - assert (X1 := X "r0"). assert (X2 := X "a"). assert (X3 := X "rise"). assert (X4 := X "decay"). assert (X5 := X "peak"). repeat split; lra.
    - specialize (X "Lambda"). lra. }
  assert (DR : drawable d arg1).
  { unfold drawable. destruct (String.eqb _ _); [assert (X := arg1_pos "alpha"); lra|]. destruct (String.eqb _ _); [|easy]. unfold arg1. cbn. repeat split; lra. }
  exists y. split; [exact B|]. split; [exact PD|]. split; [exact DR|].
  eapply (population_can_be_drawn mach mach_exact mach_fair mach_bern ginv1 (fun _ => 1) 1 0 (3 / 10) 1 (fun c => c) (fun _ => None) (fun _ _ => eq_refl)); [lra|exact B|exact NM|exact HD|exact PD|exact DR].
Qed.
