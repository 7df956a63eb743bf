(** The luminosities of the predefined distributions. *)
From Coq Require Import Reals List String Lra Lia.
From Coquelicot Require Import Coquelicot.
From Verif Require Import Base BaseFacts Env ParamModel SelModel SimVarModel DistModel DistSpec DistProofs AuxModel PopModel SynthModel SynthSpec LibModel LibSpec LibProofs LibLum LibPopModel RealModel
  AuxLibModel AuxLibSpec AuxLibProofs LumLibModel LumLibSpec SurveyMade.
Import ListNotations.
Open Scope R_scope.
Open Scope string_scope.
Open Scope list_scope.

Lemma Forall2_cons_inv A B (P : A -> B -> Prop) a l r : Forall2 P (a :: l) r -> exists b r', r = b :: r' /\ P a b /\ Forall2 P l r'.
Proof. intros H. inversion H; subst. eauto. Qed.
Lemma Forall2_nil_inv A B (P : A -> B -> Prop) r : Forall2 P [] r -> r = [].
Proof. intros H. now inversion H. Qed.
Ltac split_vals := repeat match goal with
  | H : Forall2 _ (_ :: _) _ |- _ => apply Forall2_cons_inv in H; destruct H as (? & ? & -> & <- & H)
  | H : Forall2 _ [] _ |- _ => apply Forall2_nil_inv in H; subst
  end.

Section P.
Variable m : machine.
Notation E := (real_env m).
Variable ginv : R -> R -> R.
Variable gam : R -> R.
Variables (sol rel Om h0 : R) (sky : string -> option (list R -> nat -> mc_st m -> res (spvals E) * mc_st m)) (form : string -> string).
Hypothesis U : forall g, 0 <= fst (mc_unif m 0 1 g) < 1.
Hypothesis G : forall s x, 0 < s -> 0 < x <= 1 -> 0 <= ginv s x.
Notation fo := (full_lib m ginv gam sol rel Om h0 sky form).

Lemma units1 n g l g' : rdraws (unit1 m) n g = (l, g') -> Forall (fun u => 0 <= u < 1) l /\ length l = n.
Proof.
  intros H. split.
  - replace l with (fst (rdraws (unit1 m) n g)) by now rewrite H. apply rdraws_all. exact U.
  - replace l with (fst (rdraws (unit1 m) n g)) by now rewrite H. apply rdraws_length.
Qed.
Lemma normals mu tau n g l g' : np_normal m mu tau n g = (Ok l, g') -> length l = n.
Proof.
  unfold np_normal. destruct (ltb tau 0); [discriminate|]. assert (L := rdraws_length (mc_norm m mu tau) n g). destruct (rdraws (mc_norm m mu tau) n g). now intros [= <- <-].
Qed.

(** What a class draws, for parameter values [vals]. *)
Lemma lum_drawn c (p : string -> R) vals size g x g' : lum_sensible c p ->
  Forall2 (fun k y => p k = y) (lc_dreads (ld_cls (fst (lum_object fo c)))) vals ->
  lc_draw (ld_cls (fst (lum_object fo c))) vals size g = (Ok x, g') -> Forall (lum_range c p) x /\ length x = size.
Proof.
  intros SE F H. destruct c; cbn in F; split_vals; cbn [lum_object ParetoDistribution BPLDistribution LogNormalDistribution Log10NormalDistribution SchechterDistribution DeltaDistribution LogUniLuminiosityDistribution luminosity fst ld_cls lc_draw full_lib lib fo_draw] in H;
    unfold lum_draw in H; cbn [String.eqb Ascii.eqb Bool.eqb] in H.
  - (* Pareto *) cbn [pareto_true] in H. destruct (leb _ 0) eqn:LA; [discriminate|]. unfold leb in LA. destruct (Rle_dec _ 0) as [|NA]; [discriminate|].
    destruct (rdraws (unit1 m) size g) as [u g1] eqn:D. injection H as <- <-. destruct (units1 _ _ _ _ D) as [FU LU].
    split; [|now rewrite map_length]. eapply all_units; [|exact FU]. intros z Z. cbn in *. unfold pareto_draw, np_pareto.
    assert (1 <= exp (- ln (1 - z) / p "alpha")).
    { rewrite <- exp_0 at 1. destruct (Req_dec z 0) as [->|NZ].
      - rewrite Rminus_0_r, ln_1. replace (- 0 / p "alpha") with 0 by (field; lra). lra.
      - left. apply exp_increasing. apply Rdiv_lt_0_compat; [|lra]. assert (ln (1 - z) < ln 1) by (apply ln_increasing; lra). rewrite ln_1 in *. lra. }
    nra.
  - (* BPL *) cbn [bpl_true] in H. destruct (rdraws (unit1 m) size g) as [u g1] eqn:D.
    destruct (Req_EM_T _ (-1)) as [|N1]; [discriminate|]. destruct (Req_EM_T _ (-1)) as [|N2]; [discriminate|].
    destruct (mc_bern_ok m _); [|discriminate].
    match type of H with context [rdraws (mc_bern m ?w) size g1] => assert (LS := rdraws_length (mc_bern m w) size g1); destruct (rdraws (mc_bern m w) size g1) as [s g2] end.
    injection H as <- <-. destruct (units1 _ _ _ _ D) as [FU LU]. split; [|rewrite map_length, combine_length; cbn in LS; lia].
    apply Forall_map, Forall_forall. intros [b z] I.
    apply in_combine_r in I. rewrite Forall_forall in FU. specialize (FU z I). cbn [fst snd]. destruct SE as [[S1 S2] S3]. apply sample_range; auto; lra.
  - (* LogNormal *) destruct (np_normal m _ _ size g) as [[z|] g1] eqn:D; [|discriminate]. injection H as <- <-. apply normals in D.
    split; [|now rewrite map_length]. apply Forall_map, Forall_forall. intros y _. cbn. apply exp_pos.
  - (* Log10Normal *) destruct (np_normal m _ _ size g) as [[z|] g1] eqn:D; [|discriminate]. injection H as <- <-. apply normals in D.
    split; [|now rewrite map_length]. apply Forall_map, Forall_forall. intros y _. cbn. apply exp_pos.
  - (* Schechter *) destruct (rdraws (unit1 m) size g) as [u g1] eqn:D. injection H as <- <-. destruct (units1 _ _ _ _ D) as [FU LU].
    split; [|now rewrite map_length]. eapply all_units; [|exact FU]. intros z Z. cbn in *. apply Rmult_le_pos; [lra|apply G; lra].
  - (* Delta *) cbn [delta_true] in H. injection H as <- <-. split; [|apply repeat_length]. apply Forall_forall. intros y I. apply repeat_spec in I. exact I.
  - (* LogUni *) destruct (leb _ 0) eqn:LA; [discriminate|]. unfold leb in LA. destruct (Rle_dec _ 0) as [|NA]; [discriminate|].
    destruct (leb (p "Lmax") _) eqn:LB; [discriminate|]. unfold leb in LB. destruct (Rle_dec (p "Lmax") _) as [|NB]; [discriminate|].
    destruct (rdraws (unit1 m) size g) as [u g1] eqn:D. injection H as <- <-. destruct (units1 _ _ _ _ D) as [FU LU].
    split; [|now rewrite map_length]. eapply all_units; [|exact FU]. intros z Z. cbn. unfold loguni_draw.
    assert (ln (p "Lmin") < ln (p "Lmax")) by (apply ln_increasing; lra).
    rewrite <- (exp_ln (p "Lmin")) at 1 by lra. rewrite <- (exp_ln (p "Lmax")) at 3 by lra. split.
    + destruct (Req_dec z 0) as [->|]; [right; f_equal; lra|left; apply exp_increasing; nra].
    + left. apply exp_increasing. nra.
Qed.

Theorem survey_luminosities prog fuel rl fs l10 ns norm (y : synth E) pop y' c l p :
  draw_survey prog fuel rl fs l10 ns norm y = (Ok pop, y') -> y_der y = None -> y_lum y = Some l ->
  ld_cls l = ld_cls (fst (lum_object fo c)) -> lum_parameters m l p -> lum_sensible c p ->
  Forall (lum_range c p) (sv_lat (p_lum pop)) /\ length (sv_lat (p_lum pop)) = p_nobj pop /\ sv_obs (p_lum pop) = sv_lat (p_lum pop).
Proof.
  intros H DE YL K HP SE. destruct (drawn_luminosity _ _ _ _ _ _ _ _ _ _ _ H DE) as (l' & vals & g & g' & YL' & V & D & O).
  assert (l' = l) by congruence. subst l'. rewrite K in D, V. unfold lum_parameters in HP. rewrite K in HP.
  assert (F2 : Forall2 (fun k x => p k = x) (lc_dreads (ld_cls (fst (lum_object fo c)))) vals) by (eapply Forall2_impl; [exact HP|exact V]).
  destruct (lum_drawn _ _ _ _ _ _ _ SE F2 D) as [F L]. auto.
Qed.
End P.
