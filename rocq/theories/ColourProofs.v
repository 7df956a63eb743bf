(** Proofs for C89. *)
From Coq Require Import Reals List Lra Lia.
From Verif Require Import Base BaseFacts Env SelModel SimVarModel AuxModel PopModel SynthModel SynthSpec LibModel RealModel PlotModel PlotSpec ColourModel ColourSpec.
From Verif Require RealSize PlotProofs PopProofs SynthInv SurveyProofs HistPops.
Import ListNotations.
Open Scope R_scope.

Lemma ltb_spec a b : if ltb a b then a < b else b <= a.
Proof. unfold ltb. destruct (Rlt_dec a b); [easy|lra]. Qed.
Lemma leb_spec a b : if leb a b then a <= b else b < a.
Proof. unfold leb. destruct (Rle_dec a b); [easy|lra]. Qed.
Lemma smallest_is r : forall v, In (smallest v r) (v :: r) /\ forall x, In x (v :: r) -> smallest v r <= x.
Proof.
  induction r as [|y r IH]; intros v; cbn [smallest]; [split; [now left|intros x [<-|[]]; lra]|].
  assert (T := ltb_spec y v). destruct (IH (if ltb y v then y else v)) as [I L]. split.
  - destruct I as [I|I]; [|right; now right]. rewrite <- I. destruct (ltb y v); [right; now left|now left].
  - assert (L0 := L _ (or_introl eq_refl)). intros x [<-|[<-|J]]; [| |apply L; now right]; destruct (ltb y v); lra.
Qed.
Lemma largest_is r : forall v, In (largest v r) (v :: r) /\ forall x, In x (v :: r) -> x <= largest v r.
Proof.
  induction r as [|y r IH]; intros v; cbn [largest]; [split; [now left|intros x [<-|[]]; lra]|].
  assert (T := ltb_spec v y). destruct (IH (if ltb v y then y else v)) as [I L]. split.
  - destruct I as [I|I]; [|right; now right]. rewrite <- I. destruct (ltb v y); [right; now left|now left].
  - assert (L0 := L _ (or_introl eq_refl)). intros x [<-|[<-|J]]; [| |apply L; now right]; destruct (ltb v y); lra.
Qed.

(** An increasing function of the values, scaled to the unit interval. *)
Lemma scaled (f : R -> R) (vs : list R) lo hi : In lo vs -> In hi vs -> (forall x, In x vs -> lo <= x <= hi) -> lo < hi ->
  (forall x y, In x vs -> In y vs -> x < y -> f x < f y) -> shows_order vs (map (fun v => (f v - f lo) / (f hi - f lo)) vs).
Proof.
  intros IL IH B T M. assert (D := M lo hi IL IH T). assert (P : 0 < / (f hi - f lo)) by (apply Rinv_0_lt_compat; lra).
  assert (ML : forall x y, In x vs -> In y vs -> x <= y -> f x <= f y). { intros x y X Y [L|<-]; [left; auto|apply Rle_refl]. }
  assert (O : forall v w, In v vs -> In w vs -> (v < w <-> (f v - f lo) / (f hi - f lo) < (f w - f lo) / (f hi - f lo)) /\ (v = w <-> (f v - f lo) / (f hi - f lo) = (f w - f lo) / (f hi - f lo))).
  { assert (S : forall v w, In v vs -> In w vs -> v < w -> (f v - f lo) / (f hi - f lo) < (f w - f lo) / (f hi - f lo)).
    { intros v w V W L. apply Rmult_lt_compat_r; [exact P|]. specialize (M v w V W L). lra. }
    intros v w V W. split; split; intros X; [now apply S| |now rewrite X|].
    - destruct (Rtotal_order v w) as [Y|[->|Y]]; [exact Y|lra|]. specialize (S w v W V Y). lra.
    - destruct (Rtotal_order v w) as [Y|[Y|Y]]; [|exact Y|]; [specialize (S v w V W Y)|specialize (S w v W V Y)]; lra. }
  assert (Z : (f lo - f lo) / (f hi - f lo) = 0) by (unfold Rdiv; ring). assert (U : (f hi - f lo) / (f hi - f lo) = 1) by (field; lra).
  split; [apply map_length|]. split.
  - intros i v p V Q. rewrite nth_error_map, V in Q. cbn in Q. assert (p = (f v - f lo) / (f hi - f lo)) as -> by congruence. apply nth_error_In in V. split; [|split].
    + destruct (B v V) as [B1 B2]. split; [rewrite <- Z|rewrite <- U]; apply Rmult_le_compat_r; try lra; [specialize (ML lo v IL V B1)|specialize (ML v hi V IH B2)]; lra.
    + intros X. assert (v = lo) as -> by (specialize (X lo IL); specialize (B v V); lra). exact Z.
    + intros X _. assert (v = hi) as -> by (specialize (X hi IH); specialize (B v V); lra). exact U.
  - intros i j v w p q V W Q1 Q2. rewrite nth_error_map, V in Q1. rewrite nth_error_map, W in Q2. cbn in Q1, Q2.
    assert (p = (f v - f lo) / (f hi - f lo)) as -> by congruence. assert (q = (f w - f lo) / (f hi - f lo)) as -> by congruence.
    apply O; eapply nth_error_In; eassumption.
Qed.
Lemma all_zero (vs : list R) a : (forall x, In x vs -> x = a) -> shows_order vs (map (fun _ => 0) vs).
Proof.
  intros A. split; [apply map_length|]. split.
  - intros i v p V Q. rewrite nth_error_map, V in Q. cbn in Q. assert (p = 0) as -> by congruence. split; [lra|]. split; [easy|].
    intros _ (x & X & N). exfalso. apply N. rewrite (A x X). symmetry. apply A. now apply nth_error_In in V.
  - intros i j v w p q V W Q1 Q2. rewrite nth_error_map, V in Q1. rewrite nth_error_map, W in Q2. cbn in Q1, Q2.
    assert (p = 0) as -> by congruence. assert (q = 0) as -> by congruence. rewrite (A v), (A w) by (eapply nth_error_In; eassumption). split; split; intros; lra.
Qed.
Lemma rmapM_ok {A B} (f : A -> res B) (g : A -> B) l : (forall x, f x = Ok (g x)) -> rmapM f l = Ok (map g l).
Proof. intros H. induction l as [|x l IH]; [easy|]. cbn. now rewrite H, IH. Qed.
Lemma log10_lt x y : 0 < x -> x < y -> log10 x < log10 y.
Proof.
  intros P L. unfold log10. apply Rmult_lt_compat_r; [|now apply ln_increasing]. apply Rinv_0_lt_compat. rewrite <- ln_1. apply ln_increasing; lra.
Qed.

Theorem ranked use_log values : values <> nil -> (use_log = true -> forall v, In v values -> 0 < v) ->
  exists ps, array_to_cmap values use_log = Ok ps /\ shows_order values ps.
Proof.
  destruct values as [|v r]; [easy|]. intros _ P. unfold array_to_cmap.
  destruct (smallest_is r v) as [IL L]. destruct (largest_is r v) as [IH H]. set (lo := smallest v r) in *. set (hi := largest v r) in *.
  assert (LH := L hi IH). unfold place. assert (T := ltb_spec hi lo). destruct (ltb hi lo); [lra|]. clear T. assert (T := leb_spec hi lo). destruct (leb hi lo).
  - exists (map (fun _ => 0) (v :: r)). split; [now apply rmapM_ok|]. apply (all_zero _ lo). intros x X. specialize (L x X). specialize (H x X). lra.
  - destruct use_log.
    + assert (P0 := P eq_refl lo IL). assert (P1 := P eq_refl hi IH). assert (T1 := ltb_spec 0 lo). assert (T2 := ltb_spec 0 hi). destruct (ltb 0 lo); [|lra]. destruct (ltb 0 hi); [|lra]. cbn [andb].
      eexists. split; [apply rmapM_ok; reflexivity|]. apply (scaled log10 (v :: r) lo hi IL IH); [intros x X; split; [exact (L x X)|exact (H x X)]|exact T|].
      intros x y X _. apply log10_lt. exact (P eq_refl x X).
    + eexists. split; [apply rmapM_ok; reflexivity|]. apply (scaled (fun x => x) (v :: r) lo hi IL IH); [intros x X; split; [exact (L x X)|exact (H x X)]|exact T|easy].
Qed.
Theorem refused values v w : In v values -> v <= 0 -> In w values -> w <> v -> array_to_cmap values true = Err ValueError.
Proof.
  destruct values as [|a r]; [easy|]. intros V N W D. unfold array_to_cmap. destruct (smallest_is r a) as [IL L]. destruct (largest_is r a) as [IH H].
  assert (L1 := L v V). assert (L2 := L w W). assert (H1 := H v V). assert (H2 := H w W).
  assert (X : forall x, place true (smallest a r) (largest a r) x = Err ValueError).
  { intros x. unfold place. destruct (ltb (largest a r) (smallest a r)); [easy|]. assert (T := leb_spec (largest a r) (smallest a r)). destruct (leb _ _).
    - exfalso. apply D. lra.
    - assert (T1 := ltb_spec 0 (smallest a r)). destruct (ltb 0 (smallest a r)); [lra|]. easy. }
  cbn [rmapM]. now rewrite X.
Qed.

(** ** Spheres *)
Section P.
Variable m : machine.
Notation E := (real_env m).
Lemma one cmap b (a : popargs E) : (forall x : R, In x (pa_fobs a) -> 0 < x) -> Forall (@coloured m) (sphere_of (E := E) sin cos cmap None b a).
Proof.
  intros P. unfold sphere_of. destruct (Nat.eqb _ 0) eqn:Z; constructor; [|constructor]. cbn [coloured colours]. apply ranked.
  - intros N. apply Nat.eqb_neq in Z. apply Z. now rewrite N.
  - intros _ v I. apply P. exact (HistPops.kept_in _ _ _ _ _ I).
Qed.
Theorem spheres (a : popargs E) p : pop_new a = Ok p -> (forall x : R, In x (pa_fobs a) -> 0 < x) ->
  exists r l, draws (display_flux_sphere (E := E) sin cos None p) (Ok r) l /\ Forall (@coloured m) l.
Proof.
  intros H P. eexists _, _. split; [exact (PlotProofs.both_spheres E a p H sin cos None)|]. apply Forall_app. split; now apply one.
Qed.
Theorem noisy_positive prog fuel rl (sg : V E) l10 ns norm (y : synth E) p y' s : draw_survey prog fuel rl (Some sg) l10 ns norm y = (Ok p, y') ->
  nth_error (w_sels (y_w y)) (y_flux y) = Some s -> is_unity (s_kind s) = false ->
  pop_new (p_args p) = Ok p /\ forall x : R, In x (pa_fobs (p_args p)) -> 0 < x.
Proof.
  intros H N U. destruct (SynthInv.survey_steps _ _ _ _ _ _ _ _ _ _ _ H) as (t & S). assert (P := SynthInv.sp_pop _ _ _ _ _ _ _ _ _ _ _ _ S).
  destruct (PopProofs.new_faithful _ _ _ P) as (A & _). rewrite A. split; [exact P|].
  assert (F := SurveyProofs.observed_flux _ _ _ _ _ _ _ _ _ _ _ _ S s N). rewrite U in F. destruct F as (_ & es & g & g' & _ & F).
  destruct (SurveyProofs.steps_built _ _ _ _ _ _ _ _ _ _ _ _ S) as (a & B & _). assert (Q := SurveyProofs.bu_args _ _ _ B). rewrite A in Q. 
  destruct (SurveyProofs.bu_flux _ _ _ B) as (BF & _). rewrite Q. intros x I. apply In_nth_error in I. destruct I as (i & I). specialize (F i). rewrite BF in F. cbn [sv_obs sv_lat] in F.
  assert (X := eq_trans (eq_sym I) F). clear I F. destruct (nth_error (pa_flux a) i) as [f|]; [|discriminate X]. destruct (nth_error es i) as [e|]; [|discriminate X].
  assert (Y : x = noisy E l10 f e) by exact (f_equal (fun o => match o with Some z => z | None => x end) X). rewrite Y.
  unfold noisy. destruct l10; cbn; [apply exp_pos|apply exp_pos].
Qed.
End P.
