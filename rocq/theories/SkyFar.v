(** Milky Way surveys in which the scatter of the distances is large (C63). *)
From Coq Require Import Reals ZArith List String Lra Lia.
From Coquelicot Require Import Coquelicot.
From Verif Require Import Base BaseFacts Env ParamModel SelModel SimVarModel DistModel DistSpec DistProofs AuxModel PopModel SynthModel SynthSpec LibModel LibPopModel LibPopSpec LibPopProofs
  RealModel RealSpec RealExamples LumLibModel RunSpec RealRunSpec RunExamples SkyModel SkySpec SkyPop MilkyWay SkyExamples.
From Verif Require RealSize RealRuns.
Import ListNotations.
Open Scope R_scope.
Open Scope string_scope.

(** The machine of RealExamples.v, with normal numbers [k] standard deviations from the mean. *)
Definition windy (k : R) : machine :=
  Machine (fun _ _ => 0) (fun f a b => Ok (RInt (fun x => match f x with Ok v => v | Err _ => 0 end) a b))
    nat (fun _ => 0%nat) (fun lo hi s => match s with 0%nat => (lo, 1%nat) | 1%nat => ((lo + hi) / 2, 2%nat) | _ => ((lo + hi) / 2, 0%nat) end) (fun mu sd s => (mu + k * sd, s))
    (fun _ s => (Ok 0%nat, s)) (fun _ => true) (fun _ s => (true, s)) unit.
Lemma windy_exact k : quad_exact (windy k).
Proof. intros f g a b H _. cbn. f_equal. apply (RInt_ext (V := R_CompleteNormedModule)). intros x Hx. now rewrite H. Qed.
Lemma windy_fair k : fair (windy k).
Proof.
  intros f b hi Hb Hh C.
  assert (A0 : accepts_within (real_env (windy k)) 1 (fun r => Ok (f r)) hi b 0%nat).
  { cbn [accepts_within]. unfold proposal. cbn. exists (f ((0 + b) / 2)). split; [reflexivity|]. left. unfold ltb. destruct (Rlt_dec 0 (f ((0 + b) / 2))) as [|N]; [reflexivity|].
    exfalso. apply N. apply C. lra. }
  assert (A1 : accepts_within (real_env (windy k)) 2 (fun r => Ok (f r)) hi b 1%nat).
  { cbn [accepts_within]. unfold proposal. eexists. split; [reflexivity|]. right. exact A0. }
  intros s. destruct s as [|[|s]]; [exists 1%nat; exact A0|exists 2%nat; exact A1|exists 3%nat].
  cbn [accepts_within]. unfold proposal. eexists. split; [reflexivity|]. right. exact A1.
Qed.
Lemma windy_range k : uniform_in_range (windy k).
Proof. intros hi [|[|s]]; cbn; split; lra. Qed.
Definition wgs k : galaxy_sources (windy k) := GalaxySources (windy k) (fun s => (2%nat, s)) (fun x s => (x, s)) (fun s => (true, s)).
Lemma wgs_arm k g : (fst (gs_arm (windy k) (wgs k) g) < 4)%nat. Proof. cbn. lia. Qed.
Definition wlib k : formulas (real_env (windy k)) := full_lib (windy k) ginv1 (fun _ => 1) 1 0 (3 / 10) 1 (library_sky (windy k) (wgs k)) (fun c => c).
Definition bright' k : lumobj (real_env (windy k)) :=
  match assign_lum (ParetoDistribution (wlib k)) [("Lmin", 2); ("alpha", 1)] with Ok l => l | Err _ => ParetoDistribution (wlib k) end.
Lemma bright'_drawn k n : draws_luminosities (fst (bright' k)) n.
Proof.
  unfold bright'. destruct (assign_lum (ParetoDistribution (wlib k)) [("Lmin", 2); ("alpha", 1)]) as [l|e] eqn:A.
  - refine (RealRuns.pareto_good (windy k) ginv1 (fun _ => 1) 1 0 (3 / 10) 1 (fun c => c) (library_sky (windy k) (wgs k)) 2 1 l _ _ A n); lra.
  - exfalso. revert A. unfold assign_lum. cbn. rewrite RealRuns.le0' by lra. discriminate.
Qed.
Definition void k : world (real_env (windy k)) := @World (real_env (windy k)) 0%nat tt [] [] [].
Lemma windy_built k seed rate : exists y, build (wlib k) (void k) P_MWRadialPopulation wide seed (Some (bright' k)) rate = Ok y.
Proof.
  destruct (build_spec (real_env (windy k)) (wlib k) (void k) P_MWRadialPopulation wide seed (Some (bright' k)) rate) as [B _]. destruct B as (y & B & _); [|eauto].
  apply accepted_in. intros q _. apply (proj2 (RealSize.leb_iff 0 (wide q))). unfold wide. destruct (String.eqb q "r_max"); lra.
Qed.
Lemma one_each_in {S A B : Type} (f : B -> S -> A * S) ds : forall g n g', one_each f ds g n g' -> Forall2 (fun d x => exists s, x = fst (f d s)) ds n.
Proof. induction ds as [|d ds IH]; intros g [|x n] g' H; cbn in H; try contradiction; constructor; [exists g; apply H|eapply IH; apply H]. Qed.
Lemma F2len {A B} (P : A -> B -> Prop) l l' : Forall2 P l l' -> length l = length l'. Proof. induction 1; cbn; congruence. Qed.
Lemma in_place (l : list R) (P : R -> Prop) : (forall j r, nth_error l j = Some r -> (j < length l)%nat -> P r) -> Forall P l.
Proof. intros H. apply Forall_forall. intros r I. apply In_nth_error in I. destruct I as (j & J). apply (H j r J). apply nth_error_Some. congruence. Qed.
Theorem windy_survey k seed rate : exists y fuel p y', build (wlib k) (void k) P_MWRadialPopulation wide seed (Some (bright' k)) rate = Ok y /\
  draw_survey true fuel 10 None true (Some 5%nat) false y = (Ok p, y') /\ length (sv_lat (p_dist p)) = 5%nat /\ Forall (fun r => r = 50 + k * (0.07 * 50)) (sv_lat (p_dist p)).
Proof.
  destruct (windy_built k seed rate) as (y & B).
  destruct (galaxy_drawable (windy k) (windy_exact k) (wgs k) ginv1 (fun _ => 1) 1 0 (3 / 10) 1 (fun c => c) (void k) wide seed rate (Some (bright' k)) y wide_dense B (bright' k) true 10 None true 5 false (windy_fair k) (wgs_arm k) eq_refl (bright'_drawn k))
    as (fuel & p & y' & H & N & _).
  exists y, fuel, p, y'. split; [exact B|]. split; [exact H|].
  destruct (galaxy_survey (windy k) (windy_exact k) (wgs k) ginv1 (fun _ => 1) 1 0 (3 / 10) 1 (fun c => c) (void k) wide seed rate (Some (bright' k)) y wide_dense B true fuel 10 None true (Some 5%nat) false y p y' (windy_range k) eq_refl H)
    as (g & ds & ps & g1 & g2 & D & L & F & GD).
  destruct (galaxy_parts (windy k) (wgs k) ginv1 (fun _ => 1) 1 0 (3 / 10) 1 (fun c => c) (void k) wide seed rate (Some (bright' k)) y B) as (d & A & E0).
  destruct D as (rm & dv & uv & ig & ys & ym & RM & _ & _ & _ & _ & _ & AM & _). rewrite E0 in RM. change (y_sp (population_synth (void k) d (Some (bright' k)) seed)) with (fst d) in RM.
  assert (RX : rm = 100).
  { clear - RM A. revert RM. unfold assign_sp in A. cbn in A. revert A. unfold wide. cbn. repeat (rewrite RealRuns.le0' by lra; cbn). intros [= <-]. cbn. intros [= <-]. reflexivity. }
  assert (D50 : forall dj, In dj ds -> dj = 50).
  { intros dj IN. assert (P := proj1 (Forall_forall _ _) F dj IN). destruct (proj1 (Forall_forall _ _) (accept_many_from _ _ _ _ _ _ _ _ _ AM) dj IN) as (s & X).
    rewrite RX in X. clear - X P. cbn in X. destruct s as [|[|s]]; cbn in X; lra. }
  destruct GD as (i & h1 & w & h2 & h & h3 & up & h4 & n & _ & _ & _ & _ & ON & L1 & L2 & L3 & L4 & L5 & L6 & L7 & IG).
  apply one_each_in in ON. split; [exact (eq_trans L5 (eq_trans L N))|]. apply in_place. intros j r J JL0.
  assert (JL : (j < length ds)%nat) by exact (eq_rect _ (fun n => (j < n)%nat) JL0 _ L5).
  assert (GET : forall T (l : list T), length l = length ds -> exists x, nth_error l j = Some x).
  { intros T l Q. destruct (nth_error l j) as [x|] eqn:X; [eauto|]. apply nth_error_None in X. lia. }
  destruct (GET _ ds eq_refl) as (dj & J2). destruct (GET _ i L1) as (ij & J3). destruct (GET _ w L2) as (wj & J4). destruct (GET _ h L3) as (hj & J5). destruct (GET _ up L4) as (uj & J6).
  destruct (GET _ n (eq_sym (F2len _ _ _ ON))) as (nj & J7). destruct (GET _ _ L6) as (tj & J8). destruct (GET _ _ L7) as (pj & J9).
  destruct (IG j ij dj wj hj uj nj r tj pj J3 J2 J4 J5 J6 J7 J J8 J9) as (k1 & r0 & t0 & _ & _ & RR & _).
  assert (NN : exists s, nj = fst (mc_norm (windy k) 0 (0.07 * Rabs dj) s)).
  { clear - ON J2 J7. revert j J2 J7. induction ON as [|a b la lb HX HR IH]; intros [|j] J2 J7; try discriminate; cbn in J2, J7; [injection J2 as <-; injection J7 as <-; exact HX|eauto]. }
  destruct NN as (s & NN). cbn in NN. rewrite (D50 dj (nth_error_In _ _ J2)) in *. rewrite Rabs_right in NN by lra. rewrite RR, NN. lra.
Qed.
