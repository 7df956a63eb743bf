(** Predefined auxiliary samplers on a concrete machine. *)
From Coq Require Import Reals ZArith List String Lra Lia.
From Verif Require Import Base BaseFacts Env ParamModel SelModel DistModel DistSpec AuxModel AuxSpec AuxProofs AuxMore AuxProps AuxExamples AuxRunSpec LibModel RealModel AuxLibModel AuxLibSpec AuxLibProofs.
Import ListNotations.
Open Scope R_scope.
Open Scope string_scope.

(** Uniform numbers at three quarters of the range, normal ones one deviation up. *)
Definition mach34 : machine :=
  Machine (fun _ _ => 0) (fun _ _ _ => Ok 0) nat (fun _ => 0%nat) (fun lo hi s => (lo + (hi - lo) * (3 / 4), S s)) (fun mu sd s => (mu + sd, S s))
    (fun _ s => (Ok 0%nat, s)) (fun _ => true) (fun _ s => (true, s)) nat.
Notation E34 := (real_env mach34).
Definition tn34 : R -> R -> nat -> R * nat := fun a b s => (a + (b - a) * (3 / 4), S s).
Definition nu34 : nat -> R * nat := fun n => (1 / 2, S n).
Example units34 : unit_uniform mach34 nu34.
Proof. split; intros g; cbn; lra. Qed.
Notation make c := (new_aux mach34 tn34 nu34 (-4) c).

(** A sampler of one value with secondaries: a power law, a right ascension and
    a declination. *)
Definition apart : world E34 := @World E34 0%nat 0%nat
  [unity E34 "s0"; unity E34 "s1"; unity E34 "s2"; unity E34 "s3"]
  [upd_dy (@dy_sp E34 (@SpVals E34 [1; 2] [0; 0] [0; 0])) (make Delta "flat" false 0%nat); make PowerLaw "slope" false 1%nat; make RA "ra" false 2%nat; make Dec "dec" false 3%nat] [].
Definition linked : world E34 := snd ((set_secondary 0 1 ;; set_secondary 0 2 ;; set_secondary 0 3)%nat apart).

Lemma linked_depends i j : depends linked i j -> i = 0%nat /\ (j = 1 \/ j = 2 \/ j = 3)%nat.
Proof.
  intros (a & k & A & I). unfold at_ in A.
  destruct i as [|[|[|[|i]]]]; cbn in A; try discriminate; try (destruct i; discriminate); injection A as <-; cbn in I; try easy.
  split; [reflexivity|]. destruct I as [I|[I|[I|[]]]]; injection I as _ <-; auto.
Qed.
Example linked_acyclic : acyclic linked.
Proof. exists (fun i => 3 - i)%nat. intros i j D. apply linked_depends in D. lia. Qed.
Example linked_reaches j : (j < 4)%nat -> reaches linked 0 j.
Proof.
  intros L. assert (D : forall k, (k = 1 \/ k = 2 \/ k = 3)%nat -> depends linked 0 k).
  { intros k [Q|[Q|Q]]; subst k; (do 2 eexists; split; [reflexivity|]); cbn; auto. }
  destruct (Nat.eq_dec j 0) as [->|N]; [constructor|]. apply (reaches_step (D j ltac:(lia)) (reaches_refl _ _)).
Qed.
Example linked_fresh : forall j, ~ sampled linked j.
Proof.
  intros j (a & A & S). unfold at_ in A.
  destruct j as [|[|[|[|j]]]]; cbn in A; try discriminate; try (destruct j; discriminate); injection A as <-; discriminate.
Qed.
Example linked_draws : exists w', aux_draw false 10 0 2 linked = (Ok tt, w').
Proof. enough (fst (aux_draw false 10 0 2 linked) = Ok tt) by (eexists; now apply run_ok). vm_compute. reflexivity. Qed.

(** An observed sampler of one value. *)
Definition lone : world E34 := @World E34 0%nat 0%nat [unity E34 "s0"]
  [upd_dy (@dy_sp E34 (@SpVals E34 [1; 2] [0; 0] [0; 0])) (make Delta "flat" true 0%nat)] [].
Lemma lone_depends i j : ~ depends lone i j.
Proof. intros (a & k & A & I). unfold at_ in A. destruct i as [|i]; cbn in A; [injection A as <-; easy|destruct i; discriminate]. Qed.
Example lone_acyclic : acyclic lone.
Proof. exists (fun i => i). intros i j D. now apply lone_depends in D. Qed.
Example lone_fresh : forall j, ~ sampled lone j.
Proof. intros j (a & A & S). unfold at_ in A. destruct j as [|j]; cbn in A; [injection A as <-; discriminate|destruct j; discriminate]. Qed.
Lemma flat_obs loc size g : length loc = size ->
  norm_rvs mach34 loc 1 size g = (let (z, g') := rdraws (norm1 mach34) size g in (Ok (map (fun p : R * R => snd p * 1 + fst p) (combine loc z)), g')).
Proof.
  intros L. unfold norm_rvs, ltb. destruct (Rlt_dec 1 0); [lra|]. rewrite L, Nat.eqb_refl. cbn [negb]. destruct (Req_EM_T 1 0); [lra|]. reflexivity.
Qed.
Example lone_draws : exists w', aux_draw false 10 0 2 lone = (Ok tt, w').
Proof.
  enough (fst (aux_draw false 10 0 2 lone) = Ok tt) by (eexists; now apply run_ok).
  assert (Q1 : run_true 0 2 lone = (Ok tt, snd (run_true 0 2 lone))) by (apply run_ok; vm_compute; reflexivity).
  set (w1 := snd (run_true 0 2 lone)) in *.
  assert (Q2 : exists a, get_aux 0 w1 = (Ok a, w1) /\ a_observed (a_st a) = true /\ kind_of a = aux_kind mach34 tn34 nu34 (-4) Delta).
  { eexists. split; [reflexivity|]. split; reflexivity. }
  destruct Q2 as (a & G1 & OB & KA).
  assert (Q3 : aux_reads 0 ["sigma"] w1 = (Ok [1], snd (aux_reads 0 ["sigma"] w1))) by reflexivity.
  set (w2 := snd (aux_reads 0 ["sigma"] w1)) in *.
  change (aux_draw false 10 0 2 lone) with (aux_finish (E := E34) false 0 2 lone).
  unfold aux_finish. rewrite (bind_ok _ _ _ Q1), (bind_ok _ _ _ G1), OB. unfold run_obs at 1. unfold bind at 1.
  rewrite (bind_ok _ _ _ G1), KA. change (k_oreads (aux_kind mach34 tn34 nu34 (-4) Delta)) with ["sigma"]. rewrite (bind_ok _ _ _ Q3).
  unfold bind at 1. change (k_obs (aux_kind mach34 tn34 nu34 (-4) Delta)) with (normal_obs mach34).
  assert (Q4 : exists b, get_aux 0 w2 = (Ok b, w2) /\ vw_true (view_of (w_auxs w2) b) = Some [0; 0]) by (eexists; split; reflexivity).
  destruct Q4 as (b & G2 & T2).
  rewrite G2. cbv beta iota. unfold bind at 1. unfold normal_obs at 1. rewrite T2. rewrite flat_obs by reflexivity. vm_compute. reflexivity.
Qed.

(** The declination drawn here is two thirds of pi. *)
Lemma acos_below : PI / 2 < acos (- (1 / 2)).
Proof.
  destruct (Rlt_le_dec (PI / 2) (acos (- (1 / 2)))) as [|L]; [assumption|exfalso].
  assert (C : cos (acos (- (1 / 2))) = - (1 / 2)) by (apply cos_acos; lra).
  pose proof (acos_bound (- (1 / 2))) as B. pose proof PI_RGT_0.
  assert (0 <= cos (acos (- (1 / 2)))) by (apply cos_ge_0; lra). lra.
Qed.
Lemma linked_kind w' a : aux_draw false 10 0 2 linked = (Ok tt, w') -> at_ w' 3 a -> kind_of a = aux_kind mach34 tn34 nu34 (-4) Dec.
Proof.
  intros D A. destruct (draw_exactly _ _ _ _ _ _ _ linked_acyclic D) as (t & DR & _).
  assert (A0 : exists a0, at_ linked 3 a0 /\ kind_of a0 = aux_kind mach34 tn34 nu34 (-4) Dec) by (eexists; split; reflexivity).
  destruct A0 as (a0 & A0 & K0). destruct (wiring_at _ _ _ _ _ (dr_wiring DR) A0) as (b & B & E1 & _).
  assert (b = a) by (eapply at_fun; eauto). subst b. unfold kind_of in *. now rewrite E1.
Qed.
Example linked_declination : exists w' a, aux_draw false 10 0 2 linked = (Ok tt, w') /\ at_ w' 3 a /\
  kind_of a = aux_kind mach34 tn34 nu34 (-4) Dec /\ true_values_are mach34 (fun x => PI / 2 < x) 2 a.
Proof.
  destruct linked_draws as (w' & D). exists w'.
  destruct (fresh_draw _ _ _ _ _ _ _ linked_acyclic (fun j _ => linked_fresh j) D 3%nat (linked_reaches 3 ltac:(lia))) as (a & A & _).
  pose proof (linked_kind _ _ D A) as K. exists a. split; [exact D|]. split; [exact A|]. split; [exact K|].
  destruct (declination_drawn mach34 tn34 nu34 (-4) (fun u => u = 3 / 4) false 10 0 2 linked w' ltac:(intros g; cbn; lra) linked_acyclic (fun j _ => linked_fresh j) D
    3%nat a (linked_reaches 3 ltac:(lia)) A K) as (t & T & L & F).
  exists t. split; [exact T|]. split; [exact L|]. eapply Forall_impl; [|exact F]. cbn. intros x (u & -> & ->).
  replace (1 - 2 * (3 / 4)) with (- (1 / 2)) by lra. exact acos_below.
Qed.
