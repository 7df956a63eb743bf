(** A machine over the reals, and normalised draws that succeed on it. *)
From Coq Require Import Reals ZArith List String Lra Lia.
From Coquelicot Require Import Coquelicot.
From Verif Require Import Base Env ParamModel DistModel DistSpec DistProofs LibModel SynthModel LibPopModel RealModel RealSpec RealProofs.
Import ListNotations.
Open Scope R_scope.
Open Scope string_scope.

(** The generator gives the lowest value, then twice the middle of the range. *)
Definition mach : machine :=
  Machine (fun _ _ => 0) (fun f a b => Ok (RInt (fun x => match f x with Ok v => v | Err _ => 0 end) a b))
    nat (fun _ => 0%nat) (fun lo hi s => match s with 0%nat => (lo, 1%nat) | 1%nat => ((lo + hi) / 2, 2%nat) | _ => ((lo + hi) / 2, 0%nat) end) (fun mu sd s => (mu, s))
    (fun _ s => (Ok 0%nat, s)) (fun _ => true) (fun _ s => (true, s)) unit.
Example mach_exact : quad_exact mach.
Proof.
  intros f g a b H _. cbn. f_equal. apply (RInt_ext (V := R_CompleteNormedModule)). intros x Hx. now rewrite H.
Qed.
Definition mlib : formulas (real_env mach) :=
  lib 1 0 (3 / 10) 1 mach (fun _ => None) (fun _ _ _ s => (Ok [], s)) (fun _ _ _ => Ok 0) (fun c => c).
Definition ball (lam : R) : sdist (real_env mach) :=
  with_spar (fst (ConstantSphericalDistribution mlib None)) (PObj [("Lambda", Some lam)] (Some "Lambda")).
Lemma wf_Lambda (ps : pclass R) dL (o : pobj R) :
  ps = [r_max_decl (real_env mach); ("Lambda", dL)] -> pd_norm dL = true -> po_norm o = Some "Lambda" -> wf_par (real_env mach) ps o.
Proof.
  intros -> HL Ho. unfold wf_par. split; [|split].
  - intros k1 k2 d1 d2. cbn [dget fst snd r_max_decl]. intros H1 H2 N1 N2.
    destruct (String.eqb_spec k1 "r_max"); [injection H1 as <-; discriminate|]. destruct (String.eqb_spec k2 "r_max"); [injection H2 as <-; discriminate|].
    destruct (String.eqb_spec k1 "Lambda"); [|discriminate]. destruct (String.eqb_spec k2 "Lambda"); [|discriminate]. congruence.
  - intros k Hk. pose proof (eq_trans (eq_sym Ho) Hk) as Hs. injection Hs as <-. exists dL. split; [reflexivity|exact HL].
  - intros d Hd. injection Hd as <-. reflexivity.
Qed.
Example ball_instance lam : instance mach (sd_cls (fst (ConstantSphericalDistribution mlib None))) (INR 10) (ball lam).
Proof.
  split; [reflexivity|]. split; [now apply (wf_Lambda _ (decl (real_env mach) (Some 1) (Some 0) true))|]. split; [|reflexivity].
  apply lt_0_INR. lia.
Qed.
Lemma np_max_some (l : list R) : l <> [] -> exists y, np_max (real_env mach) l = Ok y.
Proof. destruct l; [easy|]. intros _. eexists. reflexivity. Qed.
Example ball_draws lam size : 0 < lam -> exists fuel d' s',
  draw_distance true fuel size true (ball lam, 0%nat) = (Ok tt, (d', s')).
Proof.
  intros Hl. assert (B := ball_instance lam). destruct B as (_ & W & P & R).
  set (g := dens_sphere lam). assert (D : forall r, sc_dens (sd_cls (ball lam)) [lam] r = Ok (g r)) by reflexivity.
  set (i := RInt (dens_sphere 1) 0 (INR 10)). assert (I : 0 < i) by now apply sphere_int.
  assert (Y : exists ys, rmapM (dens_norm (sd_cls (ball lam)) (Some i) [lam]) (grid (real_env mach) (INR 10)) = Ok ys /\ ys <> []).
  { assert (T : forall l, rmapM (dens_norm (sd_cls (ball lam)) (Some i) [lam]) l = Ok (map (fun r => g r / i) l)).
    { induction l as [|r l IH]; [reflexivity|]. cbn [rmapM map]. rewrite IH. reflexivity. }
    rewrite T. eexists. split; [reflexivity|]. unfold grid. rewrite map_app. now destruct (map _ (map _ _)). }
  destruct Y as (ys & HY & N). destruct (np_max_some ys N) as (ymax & HM).
  apply (draw_distance_returns (real_env mach) true size true (ball lam) 0%nat (INR 10) [lam] [1] (Some i) ys ymax).
  - exact W.
  - intros k d. cbn [ball sd_cls with_spar ConstantSphericalDistribution spatial fst sd_new sc_params sc_reads dget r_max_decl snd].
    destruct (String.eqb_spec k "r_max"); [intros H; injection H as <-; discriminate|].
    destruct (String.eqb_spec k "Lambda") as [->|]; [|discriminate]. intros _ _. now left.
  - intros _. left. exists "Lambda", (Some lam). split; reflexivity.
  - exact R.
  - repeat constructor.
  - repeat constructor.
  - intros r. eexists. reflexivity.
  - exists i. split; [reflexivity|]. apply (mach_exact _ (dens_sphere 1)); [reflexivity|]. now apply sphere_int.
  - exact HY.
  - exact HM.
  - assert (A0 : accepts_within (real_env mach) 1 (dens_norm (sd_cls (ball lam)) (Some i) [lam]) ymax (INR 10) 0%nat).
    { cbn [accepts_within]. unfold proposal. cbn -[dens_norm ball INR]. exists (g ((0 + INR 10) / 2) / i). split; [reflexivity|]. left.
      unfold ltb. destruct (Rlt_dec _ _) as [|L]; [reflexivity|]. exfalso. apply L. apply Rdiv_lt_0_compat; [|exact I].
      unfold g, dens_sphere, sphere_volume. rewrite Rdiv_1. apply Rmult_lt_0_compat; [exact Hl|]. apply LibGeo.area_pos. lra. }
    assert (A1 : accepts_within (real_env mach) 2 (dens_norm (sd_cls (ball lam)) (Some i) [lam]) ymax (INR 10) 1%nat).
    { cbn [accepts_within]. unfold proposal. eexists. split; [reflexivity|]. right. exact A0. }
    intros s. destruct s as [|[|s]]; [exists 1%nat; exact A0|exists 2%nat; exact A1|exists 3%nat].
    cbn [accepts_within]. unfold proposal. eexists. split; [reflexivity|]. right. exact A1.
Qed.
