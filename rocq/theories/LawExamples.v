(** Cases of C70. *)
From Coq Require Import Reals ZArith List String Lra Lia.
From Coquelicot Require Import Coquelicot.
From Verif Require Import Base BaseFacts Env ParamModel DistModel SimVarModel DistSpec SizeSpec AuxModel PopModel SynthModel SynthSpec RealModel RealSpec LibModel LibPopModel LibPopSpec LumLibModel RunSpec LawSpec.
From Verif Require Import RealExamples RunExamples.
From Verif Require RealRuns LawLib.
Import ListNotations.
Open Scope R_scope.
Open Scope string_scope.

Lemma followed : quad_exact mach /\ forall c seed d, snd (documented c) = Some d ->
  fst (documented c) = sphere \/ fst (documented c) = zpow_sphere ->
  exists y, build glib nothing c arg1 seed None false = Ok y /\ 0 <= arg1 "Lambda" /\ 0 < arg1 "r_max" /\ -2 <= arg1 "delta" /\
  exists fuel p y', draw_survey true fuel 10 None true (Some 5%nat) false y = (Ok p, y') /\ p_nobj p = 5%nat.
Proof.
  split; [exact mach_exact|]. intros c seed d HD HS. destruct (all_drawable c seed false d HD) as (y & B & _ & _ & fuel & p & y' & H & N & _).
  { destruct HS as [HS|HS]; rewrite HS; discriminate. }
  exists y. split; [exact B|]. assert (X1 := arg1_pos "Lambda"). assert (X2 := arg1_pos "r_max"). assert (X3 := arg1_pos "delta").
  split; [lra|]. split; [lra|]. split; [lra|]. exists fuel, p, y'. auto.
Qed.
Lemma peaked lam size s : 0 < lam -> exists d fuel d' s', instance mach (sd_cls (fst (ZPowerSphericalDistribution glib None))) 998 d /\
  reads mach d "Lambda" lam /\ reads mach d "delta" (-4) /\ draw_distance true fuel size true (d, s) = (Ok tt, (d', s')).
Proof.
  intros P. assert (H : exists x, assign_sp (ZPowerSphericalDistribution glib None) [("Lambda", lam); ("r_max", 998); ("delta", -4)] = Ok x).
  { unfold assign_sp. cbn. rewrite !RealRuns.le0' by lra. cbn. eexists. reflexivity. }
  destruct H as (x & A). destruct (LawLib.zpow_made mach ginv1 (fun _ => 1) 1 0 (3 / 10) 1 (fun c => c) lam (-4) 998 x ltac:(lra) ltac:(lra) A) as (I & R1 & R2 & _).
  destruct (RealRuns.zpow_sphere_good mach mach_exact mach_fair ginv1 (fun _ => 1) 1 0 (3 / 10) 1 (fun c => c) (fun _ => None) (fun _ _ => eq_refl) lam (-4) 998 x P ltac:(lra) A) as (_ & _ & D).
  destruct (D true size true s) as (fuel & d' & s' & H). exists (fst x), fuel, d', s'. auto.
Qed.
Lemma hidden lam size s : 0 < lam -> exists d fuel d' s', instance mach (sd_cls (fst (ConstantSphericalDistribution glib None))) 10 d /\
  reads mach d "Lambda" lam /\ 1 < 4 / 3 * PI * 10 ^ 3 /\ draw_distance false fuel size true (d, s) = (Ok tt, (d', s')).
Proof.
  intros P. assert (H : exists x, assign_sp (ConstantSphericalDistribution glib None) [("Lambda", lam); ("r_max", 10)] = Ok x).
  { unfold assign_sp. cbn. rewrite !RealRuns.le0' by lra. cbn. eexists. reflexivity. }
  destruct H as (x & A). destruct (LawLib.sphere_made mach ginv1 (fun _ => 1) 1 0 (3 / 10) 1 (fun c => c) lam 10 x ltac:(lra) ltac:(lra) A) as (I & R1 & _).
  destruct (RealRuns.sphere_good mach mach_exact mach_fair ginv1 (fun _ => 1) 1 0 (3 / 10) 1 (fun c => c) (fun _ => None) (fun _ _ => eq_refl) lam 10 x P ltac:(lra) A) as (_ & _ & D).
  destruct (D false size true s) as (fuel & d' & s' & H). exists (fst x), fuel, d', s'. split; [exact I|]. split; [exact R1|]. split; [|exact H].
  assert (X := PI2_1). simpl. lra.
Qed.
