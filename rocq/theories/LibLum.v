(** Lemmas on the numerical model, second part: luminosity laws. *)
From Coq Require Import Reals Lra.
From Coquelicot Require Import Coquelicot.
From Verif Require Import LibModel LibSpec LibProofs.
Open Scope R_scope.

Lemma exp_le x y : x <= y -> exp x <= exp y.
Proof. intros [H|<-]; [left; now apply exp_increasing|lra]. Qed.

(** ** Pareto *)
Definition pareto_F (Lmin alpha x : R) : R := 1 - exp (alpha * (ln Lmin - ln x)).
Lemma pareto_F_derive Lmin alpha x : 0 < x -> 0 < Lmin ->
  is_derive (pareto_F Lmin alpha) x (alpha * Rpower Lmin alpha / Rpower x (alpha + 1)).
Proof.
  intros Hx HL. unfold pareto_F. auto_derive; [assumption|]. unfold Rpower.
  replace ((alpha + 1) * ln x) with (alpha * ln x + ln x) by ring. rewrite exp_plus, exp_ln by assumption.
  replace (alpha * (ln Lmin + - ln x)) with (alpha * ln Lmin + - (alpha * ln x)) by ring.
  rewrite exp_plus, exp_Ropp. field. split; [lra|]. apply Rgt_not_eq, exp_pos.
Qed.
Lemma pareto_F_lt Lmin alpha x y : 0 < alpha -> 0 < x < y -> pareto_F Lmin alpha x < pareto_F Lmin alpha y.
Proof.
  intros Ha Hx. unfold pareto_F. apply Rplus_lt_compat_l, Ropp_lt_contravar, exp_increasing.
  pose proof (ln_increasing x y ltac:(lra) ltac:(lra)). nra.
Qed.
Lemma pareto_draw_F Lmin alpha u : 0 < Lmin -> 0 < alpha -> 0 <= u < 1 ->
  Lmin <= pareto_draw Lmin alpha u /\ pareto_F Lmin alpha (pareto_draw Lmin alpha u) = u.
Proof.
  intros HL Ha Hu. unfold pareto_draw, np_pareto.
  replace (exp (- ln (1 - u) / alpha) - 1 + 1) with (exp (- ln (1 - u) / alpha)) by ring.
  assert (Hln : ln (1 - u) <= 0).
  { destruct (Req_EM_T u 0) as [->|]; [rewrite Rminus_0_r, ln_1; lra|].
    rewrite <- ln_1. left. apply ln_increasing; lra. }
  split.
  - assert (exp 0 <= exp (- ln (1 - u) / alpha)) as H; [|rewrite exp_0 in H; nra].
    apply exp_le. apply Rmult_le_pos; [lra|]. left. now apply Rinv_0_lt_compat.
  - unfold pareto_F. rewrite ln_mult, ln_exp; [|apply exp_pos|assumption].
    replace (alpha * (ln Lmin - (- ln (1 - u) / alpha + ln Lmin))) with (ln (1 - u)) by (field; lra).
    rewrite exp_ln by lra. ring.
Qed.
Lemma pareto_phi_above Lmin alpha a b : 0 < Lmin -> 0 < alpha -> Lmin <= a <= b ->
  is_RInt (pareto_phi Lmin alpha) a b (pareto_F Lmin alpha b - pareto_F Lmin alpha a).
Proof.
  intros HL Ha Hab.
  apply (is_RInt_ext (fun x => alpha * Rpower Lmin alpha / Rpower x (alpha + 1))).
  { intros x. rewrite Rmin_left, Rmax_right by lra. intros Hx. unfold pareto_phi, leb.
    destruct (Rle_dec Lmin x); [reflexivity|lra]. }
  apply (is_RInt_derive (V:=R_CompleteNormedModule) (pareto_F Lmin alpha)).
  - intros x. rewrite Rmin_left by lra. intros Hx. apply pareto_F_derive; lra.
  - intros x. rewrite Rmin_left by lra. intros Hx.
    apply (ex_derive_continuous (V:=R_NormedModule)). unfold Rpower. auto_derive.
    split; [lra|]. split; [apply Rgt_not_eq, exp_pos|exact I].
Qed.
Lemma pareto_phi_below Lmin alpha a b : a <= b <= Lmin -> is_RInt (pareto_phi Lmin alpha) a b 0.
Proof.
  intros Hab. apply (is_RInt_ext (fun _ => 0)).
  { intros x. rewrite Rmin_left, Rmax_right by lra. intros Hx. unfold pareto_phi, leb.
    destruct (Rle_dec Lmin x); [lra|reflexivity]. }
  pose proof (is_RInt_const (V:=R_NormedModule) a b 0) as G.
  match type of G with is_RInt _ _ _ ?e => replace e with 0 in G; [exact G|] end.
  unfold scal; cbn; unfold mult; cbn. ring.
Qed.
Lemma pareto_law Lmin alpha a b : 0 < Lmin -> 0 < alpha -> a <= b ->
  exists p, is_RInt (pareto_phi Lmin alpha) a b p /\ uniform_prob (pareto_draw Lmin alpha) a b p.
Proof.
  intros HL Ha Hab.
  assert (F0 : pareto_F Lmin alpha Lmin = 0) by (unfold pareto_F; replace (alpha * (ln Lmin - ln Lmin)) with 0 by ring; rewrite exp_0; ring).
  assert (Fle : forall x, Lmin <= x -> 0 <= pareto_F Lmin alpha x).
  { intros x [H|<-]; [|lra]. rewrite <- F0. left. apply pareto_F_lt; lra. }
  assert (F1 : forall x, pareto_F Lmin alpha x <= 1).
  { intros x. unfold pareto_F. pose proof (exp_pos (alpha * (ln Lmin - ln x))). lra. }
  assert (G : forall a b, Lmin <= a <= b -> uniform_prob (pareto_draw Lmin alpha) a b (pareto_F Lmin alpha b - pareto_F Lmin alpha a)).
  { intros a' b' H. apply (inv_prob (fun x => Lmin <= x)); try lra; auto.
    - intros x y Hx Hy Hxy. apply pareto_F_lt; lra.
    - intros u Hu. now apply pareto_draw_F.
    - now apply Fle. }
  destruct (Rle_lt_dec Lmin a) as [Hla|Hla].
  - eexists. split; [apply pareto_phi_above; auto|]. now apply G.
  - destruct (Rlt_le_dec b Lmin) as [Hlb|Hlb].
    + exists 0. split; [apply pareto_phi_below; lra|]. exists 0, 0.
      split; [lra|]. split; [lra|]. split; [lra|]. intros u Hu.
      destruct (pareto_draw_F Lmin alpha u HL Ha Hu) as [P _]. split; intros; lra.
    + exists (pareto_F Lmin alpha b - pareto_F Lmin alpha Lmin). split.
      * replace (pareto_F Lmin alpha b - pareto_F Lmin alpha Lmin) with (0 + (pareto_F Lmin alpha b - pareto_F Lmin alpha Lmin)) by ring.
        apply (is_RInt_Chasles (V:=R_NormedModule) _ a Lmin b); [apply pareto_phi_below; lra|apply pareto_phi_above; lra].
      * destruct (G Lmin b ltac:(lra)) as (u1 & u2 & G1 & G2 & G3 & G4). exists u1, u2.
        split; [assumption|]. split; [assumption|]. split; [assumption|]. intros u Hu.
        destruct (pareto_draw_F Lmin alpha u HL Ha Hu) as [P _]. destruct (G4 u Hu) as [G5 G6]. split.
        -- intros Hb. apply G5 in Hb. lra.
        -- intros Hb. apply G6. lra.
Qed.

(** ** Log-uniform *)
Lemma loguni_law Lmin Lmax a b : 0 < Lmin < Lmax -> Lmin <= a <= b -> b <= Lmax ->
  exists p, is_RInt (loguni_phi Lmin Lmax) a b p /\ uniform_prob (loguni_draw Lmin Lmax) a b p.
Proof.
  intros HL Ha Hb. pose proof (ln_increasing Lmin Lmax ltac:(lra) ltac:(lra)) as Hl.
  set (F := fun x => (ln x - ln Lmin) / (ln Lmax - ln Lmin)).
  assert (Fm : forall x y, Lmin <= x <= Lmax -> Lmin <= y <= Lmax -> x < y -> F x < F y).
  { intros x y Hx Hy Hxy. unfold F. apply Rmult_lt_compat_r; [apply Rinv_0_lt_compat; lra|].
    pose proof (ln_increasing x y ltac:(lra) Hxy). lra. }
  assert (F0 : F Lmin = 0) by (unfold F; field; lra). assert (F1 : F Lmax = 1) by (unfold F; field; lra).
  exists (F b - F a). split.
  - apply (is_RInt_derive (V:=R_CompleteNormedModule) F).
    + intros x. rewrite Rmin_left, Rmax_right by lra. intros Hx. unfold F, loguni_phi. auto_derive; [lra|].
      unfold Rdiv at 2. rewrite ln_mult, ln_Rinv by (try apply Rinv_0_lt_compat; lra).
      field. split; lra.
    + intros x. rewrite Rmin_left, Rmax_right by lra. intros Hx.
      apply (ex_derive_continuous (V:=R_NormedModule)). unfold loguni_phi. auto_derive.
      assert (0 < ln (Lmax / Lmin)).
      { unfold Rdiv. rewrite ln_mult, ln_Rinv by (try apply Rinv_0_lt_compat; lra). lra. }
      apply Rgt_not_eq. nra.
  - apply (inv_prob (fun x => Lmin <= x <= Lmax)); try lra; auto.
    + intros u Hu. unfold loguni_draw.
      assert (E : F (exp (ln Lmin + u * (ln Lmax - ln Lmin))) = u) by (unfold F; rewrite ln_exp; field; lra).
      split; [|exact E]. split.
      * rewrite <- (exp_ln Lmin) at 1 by lra. apply exp_le. nra.
      * rewrite <- (exp_ln Lmax) at 2 by lra. apply exp_le. nra.
    + destruct (proj1 Ha) as [H|<-]; [|lra]. rewrite <- F0. left. apply Fm; lra.
    + destruct Hb as [H| ->]; [|lra]. rewrite <- F1. left. apply Fm; lra.
Qed.
(** Outside the support nothing is drawn and yet the density is positive. *)
Lemma loguni_outside Lmin Lmax a b : 0 < Lmin < Lmax -> Lmax < a < b ->
  exists p, is_RInt (loguni_phi Lmin Lmax) a b p /\ 0 < p /\ uniform_prob (loguni_draw Lmin Lmax) a b 0.
Proof.
  intros HL Hab. pose proof (ln_increasing Lmin Lmax ltac:(lra) ltac:(lra)) as Hl.
  exists (ln b / (ln Lmax - ln Lmin) - ln a / (ln Lmax - ln Lmin)). split; [|split].
  - apply (is_RInt_derive (V:=R_CompleteNormedModule) (fun x => ln x / (ln Lmax - ln Lmin))).
    + intros x. rewrite Rmin_left, Rmax_right by lra. intros Hx. unfold loguni_phi. auto_derive; [lra|].
      unfold Rdiv at 2. rewrite ln_mult, ln_Rinv by (try apply Rinv_0_lt_compat; lra). field. split; lra.
    + intros x. rewrite Rmin_left, Rmax_right by lra. intros Hx.
      apply (ex_derive_continuous (V:=R_NormedModule)). unfold loguni_phi. auto_derive.
      assert (0 < ln (Lmax / Lmin)).
      { unfold Rdiv. rewrite ln_mult, ln_Rinv by (try apply Rinv_0_lt_compat; lra). lra. }
      apply Rgt_not_eq. nra.
  - pose proof (ln_increasing a b ltac:(lra) ltac:(lra)).
    replace (ln b / (ln Lmax - ln Lmin) - ln a / (ln Lmax - ln Lmin)) with ((ln b - ln a) / (ln Lmax - ln Lmin)) by (field; lra).
    apply Rdiv_lt_0_compat; lra.
  - exists 0, 0. split; [lra|]. split; [lra|]. split; [lra|]. intros u Hu.
    assert (loguni_draw Lmin Lmax u <= Lmax); [|split; intros; lra].
    unfold loguni_draw. rewrite <- (exp_ln Lmax) at 2 by lra. apply exp_le. nra.
Qed.

(** ** Normal laws *)
Lemma normal_pdf_pos mu tau z : 0 < tau -> 0 < normal_pdf mu tau z.
Proof.
  intros H. unfold normal_pdf. apply Rmult_lt_0_compat; [|apply exp_pos]. apply Rdiv_lt_0_compat; [lra|].
  apply Rmult_lt_0_compat; [assumption|]. apply sqrt_lt_R0. pose proof PI_RGT_0. lra.
Qed.
Lemma normal_pdf_cont mu tau z : 0 < tau -> continuous (normal_pdf mu tau) z.
Proof.
  intros H. apply (ex_derive_continuous (V:=R_NormedModule)). unfold normal_pdf. auto_derive. exact I.
Qed.
Lemma normal_pdf_RInt mu tau a b : 0 < tau -> ex_RInt (normal_pdf mu tau) a b.
Proof.
  intros H. apply (ex_RInt_continuous (V:=R_CompleteNormedModule)). intros z _. now apply normal_pdf_cont.
Qed.
Lemma ln_between a b z : 0 < a -> 0 < b -> (a <= exp z <= b <-> ln a <= z <= ln b).
Proof.
  intros Ha Hb. split; intros [H1 H2]; split.
  - rewrite <- (ln_exp z). destruct H1 as [H1| ->]; [left; now apply ln_increasing|lra].
  - rewrite <- (ln_exp z). destruct H2 as [H2| <-]; [left; apply ln_increasing; [apply exp_pos|assumption]|lra].
  - rewrite <- (exp_ln a) by assumption. now apply exp_le.
  - rewrite <- (exp_ln b) by assumption. now apply exp_le.
Qed.
Lemma ln_le' a b : 0 < a <= b -> ln a <= ln b.
Proof. intros [Ha [H|<-]]; [left; now apply ln_increasing|lra]. Qed.
Lemma lognorm_law mu tau a b : 0 < tau -> 0 < a <= b ->
  exists p, is_RInt (lognorm_phi mu tau) a b p /\ normal_prob mu tau lognorm_draw a b p.
Proof.
  intros Ht Hab. exists (RInt (normal_pdf mu tau) (ln a) (ln b)). split.
  - apply (is_RInt_ext (fun x => scal (/ x) (normal_pdf mu tau (ln x)))).
    { intros x. rewrite Rmin_left, Rmax_right by lra. intros Hx. unfold lognorm_phi, normal_pdf, scal; cbn; unfold mult; cbn.
      assert (0 < sqrt (2 * PI)) by (apply sqrt_lt_R0; pose proof PI_RGT_0; lra). field. lra. }
    apply (is_RInt_comp (V:=R_CompleteNormedModule) (normal_pdf mu tau) ln Rinv).
    + intros x _. now apply normal_pdf_cont.
    + intros x. rewrite Rmin_left by lra. intros Hx. split.
      * apply is_derive_Reals. apply derivable_pt_lim_ln. lra.
      * apply continuous_Rinv. lra.
  - exists (ln a), (ln b). split; [now apply ln_le'|]. split.
    + apply (RInt_correct (V:=R_CompleteNormedModule)). now apply normal_pdf_RInt.
    + intros z. unfold lognorm_draw. apply ln_between; lra.
Qed.
Lemma ln10_pos : 1 < ln 10.
Proof.
  rewrite <- (ln_exp 1). apply ln_increasing; [apply exp_pos|]. pose proof exp_le_3. lra.
Qed.
Lemma log10norm_law mu tau a b : 0 < tau -> 0 < a < b ->
  exists p, 0 < p /\ normal_prob mu tau log10norm_draw a b p /\
    is_RInt (log10norm_phi mu tau) a b (ln 10 * p).
Proof.
  intros Ht Hab. pose proof ln10_pos as Hl. pose proof (ln_increasing a b ltac:(lra) ltac:(lra)) as Hln.
  assert (Hlog : log10 a < log10 b) by (unfold log10; apply Rmult_lt_compat_r; [apply Rinv_0_lt_compat; lra|assumption]).
  exists (RInt (normal_pdf mu tau) (log10 a) (log10 b)). split; [|split].
  - apply RInt_gt_0; [assumption|intros; now apply normal_pdf_pos|intros; now apply normal_pdf_cont].
  - exists (log10 a), (log10 b). split; [lra|]. split.
    + apply (RInt_correct (V:=R_CompleteNormedModule)). now apply normal_pdf_RInt.
    + intros z. unfold log10norm_draw, Rpower. rewrite ln_between by lra. unfold log10.
      split; intros [H1 H2]; split.
      * apply Rmult_le_reg_r with (ln 10); [lra|]. unfold Rdiv. rewrite Rmult_assoc, Rinv_l by lra. lra.
      * apply Rmult_le_reg_r with (ln 10); [lra|]. unfold Rdiv. rewrite Rmult_assoc, Rinv_l by lra. lra.
      * apply Rmult_le_compat_r with (r := ln 10) in H1; [|lra]. unfold Rdiv in H1. rewrite Rmult_assoc, Rinv_l in H1 by lra. lra.
      * apply Rmult_le_compat_r with (r := ln 10) in H2; [|lra]. unfold Rdiv in H2. rewrite Rmult_assoc, Rinv_l in H2 by lra. lra.
  - apply (is_RInt_ext (fun x => scal (ln 10) (scal (/ (x * ln 10)) (normal_pdf mu tau (log10 x))))).
    { intros x. rewrite Rmin_left, Rmax_right by lra. intros Hx. unfold log10norm_phi, normal_pdf, scal; cbn; unfold mult; cbn.
      assert (0 < sqrt (2 * PI)) by (apply sqrt_lt_R0; pose proof PI_RGT_0; lra). field. lra. }
    apply (is_RInt_scal (V:=R_NormedModule)).
    apply (is_RInt_comp (V:=R_CompleteNormedModule) (normal_pdf mu tau) log10 (fun x => / (x * ln 10))).
    + intros x _. now apply normal_pdf_cont.
    + intros x. rewrite Rmin_left by lra. intros Hx. split.
      * unfold log10. auto_derive; [lra|]. field. lra.
      * apply (ex_derive_continuous (V:=R_NormedModule)). auto_derive. apply Rgt_not_eq. nra.
Qed.
(** The probabilities of the specification are determined by the draw. *)
Lemma uniform_prob_unique draw a b p q : uniform_prob draw a b p -> uniform_prob draw a b q -> p = q.
Proof.
  intros (u1 & u2 & A1 & A2 & A3 & A4) (v1 & v2 & B1 & B2 & B3 & B4). subst p q.
  assert (H : forall u1 u2 v1 v2, 0 <= u1 -> u1 <= u2 <= 1 -> v1 <= v2 <= 1 -> 0 <= v1 ->
    (forall u, 0 <= u < 1 -> u1 < u < u2 -> v1 <= u <= v2) -> u2 - u1 <= v2 - v1).
  { clear. intros u1 u2 v1 v2 Hu Hu' Hv Hv' H. destruct (Rle_lt_dec u2 u1) as [|L]; [lra|].
    assert (v1 <= u1).
    { apply Rnot_lt_le. intros C. 
      assert (u1 < Rmin u2 v1) by (apply Rmin_glb_lt; lra). pose proof (Rmin_l u2 v1). pose proof (Rmin_r u2 v1).
      pose proof (H ((u1 + Rmin u2 v1) / 2)). lra. }
    assert (u2 <= v2); [|lra].
    apply Rnot_lt_le. intros C. 
    assert (Rmax u1 v2 < u2) by (apply Rmax_lub_lt; lra). pose proof (Rmax_l u1 v2). pose proof (Rmax_r u1 v2).
    pose proof (H ((u2 + Rmax u1 v2) / 2)). lra. }
  apply Rle_antisym; apply H; try lra; intros u Hu Hin.
  - apply B4; auto. apply A4; auto.
  - apply A4; auto. apply B4; auto.
Qed.
Lemma normal_prob_unique mu tau draw a b p q : normal_prob mu tau draw a b p -> normal_prob mu tau draw a b q -> p = q.
Proof.
  intros (u1 & u2 & A1 & A2 & A3) (v1 & v2 & B1 & B2 & B3).
  assert (H : forall z, u1 <= z <= u2 <-> v1 <= z <= v2) by (intros z; now rewrite <- A3, <- B3).
  assert (u1 = v1).
  { apply Rle_antisym; [destruct (proj2 (H v1)); lra|destruct (proj1 (H u1)); lra]. }
  assert (u2 = v2).
  { apply Rle_antisym; [destruct (proj1 (H u2)); lra|destruct (proj2 (H v2)); lra]. }
  subst v1 v2. rewrite <- (is_RInt_unique _ _ _ _ A2). now rewrite <- (is_RInt_unique _ _ _ _ B2).
Qed.
Lemma log10norm_refuted mu tau a b : 0 < tau -> 0 < a < b ->
  ~ exists p, is_RInt (log10norm_phi mu tau) a b p /\ normal_prob mu tau log10norm_draw a b p.
Proof.
  intros Ht Hab (p & Hi & Hp). destruct (log10norm_law mu tau a b Ht Hab) as (q & Hq & Hn & Hi').
  pose proof (normal_prob_unique _ _ _ _ _ _ _ Hp Hn) as ->.
  pose proof (is_RInt_unique _ _ _ _ Hi) as U. rewrite (is_RInt_unique _ _ _ _ Hi') in U.
  pose proof ln10_pos. nra.
Qed.
Lemma loguni_refuted Lmin Lmax a b : 0 < Lmin < Lmax -> Lmax < a < b ->
  ~ exists p, is_RInt (loguni_phi Lmin Lmax) a b p /\ uniform_prob (loguni_draw Lmin Lmax) a b p.
Proof.
  intros HL Hab (p & Hi & Hp). destruct (loguni_outside Lmin Lmax a b HL Hab) as (q & Hi' & Hq & H0).
  pose proof (uniform_prob_unique _ _ _ _ _ Hp H0) as ->.
  pose proof (is_RInt_unique _ _ _ _ Hi) as U. rewrite (is_RInt_unique _ _ _ _ Hi') in U. lra.
Qed.
