(** Lemmas on the numerical model, first part: power laws and broken power laws. *)
From Coq Require Import Reals Lra.
From Coquelicot Require Import Coquelicot.
From Verif Require Import LibModel LibSpec.
Open Scope R_scope.

(** ** Powers *)
Lemma Rpower_pos x a : 0 < Rpower x a.
Proof. apply exp_pos. Qed.
Lemma Rpower_inv_l x c : 0 < x -> c <> 0 -> Rpower (Rpower x c) (1 / c) = x.
Proof. intros Hx Hc. rewrite Rpower_mult. replace (c * (1 / c)) with 1 by (field; auto). now apply Rpower_1. Qed.
Lemma Rpower_inv_r x c : 0 < x -> c <> 0 -> Rpower (Rpower x (1 / c)) c = x.
Proof. intros Hx Hc. rewrite Rpower_mult. replace (1 / c * c) with 1 by (field; auto). now apply Rpower_1. Qed.
(** [x^c / c] is increasing whatever the sign of [c]. *)
Lemma Rpower_over_lt p q c : 0 < p < q -> c <> 0 -> Rpower p c / c < Rpower q c / c.
Proof.
  intros [Hp Hq] Hc. unfold Rpower. destruct (Rtotal_order c 0) as [Hn|[He|Hpos]]; [|tauto|].
  - assert (exp (c * ln q) < exp (c * ln p)).
    { apply exp_increasing. assert (ln p < ln q) by now apply ln_increasing. nra. }
    unfold Rdiv. assert (/ c < 0) by now apply Rinv_lt_0_compat. nra.
  - assert (exp (c * ln p) < exp (c * ln q)).
    { apply exp_increasing. assert (ln p < ln q) by now apply ln_increasing. nra. }
    apply Rmult_lt_compat_r; [now apply Rinv_0_lt_compat|assumption].
Qed.
Lemma Rpower_over_le p q c : 0 < p <= q -> c <> 0 -> Rpower p c / c <= Rpower q c / c.
Proof.
  intros [Hp [Hq|<-]] Hc; [|lra]. left. now apply Rpower_over_lt.
Qed.
(** Antiderivative of [x^a]: continuous in the index [-1] as the code treats it. *)
Definition PL (a x : R) : R := if Req_EM_T a (-1) then ln x else Rpower x (a + 1) / (a + 1).
Lemma PL_lt a p q : 0 < p < q -> PL a p < PL a q.
Proof.
  intros H. unfold PL. destruct (Req_EM_T a (-1)); [apply ln_increasing; lra|].
  apply Rpower_over_lt; lra.
Qed.
Lemma PL_le a p q : 0 < p <= q -> PL a p <= PL a q.
Proof. intros [Hp [Hq|<-]]; [|lra]. left. now apply PL_lt. Qed.
Lemma PL_derive a x : 0 < x -> is_derive (PL a) x (Rpower x a).
Proof.
  intros Hx. unfold PL. destruct (Req_EM_T a (-1)) as [->|Ha].
  - unfold Rpower. replace (exp (-1 * ln x)) with (/ x).
    + apply is_derive_Reals. now apply derivable_pt_lim_ln.
    + replace (-1 * ln x) with (- ln x) by ring. now rewrite exp_Ropp, exp_ln.
  - apply (is_derive_ext (fun x => / (a + 1) * Rpower x (a + 1))).
    { intros t. apply Rmult_comm. }
    replace (Rpower x a) with (/ (a + 1) * ((a + 1) * Rpower x (a + 1 - 1))).
    + apply (is_derive_scal (fun x => Rpower x (a + 1))). apply is_derive_Reals. now apply derivable_pt_lim_power.
    + replace (a + 1 - 1) with a by ring. field. lra.
Qed.
Lemma Rpower_continuous a x : 0 < x -> continuous (fun x => Rpower x a) x.
Proof.
  intros Hx. apply (ex_derive_continuous (V:=R_NormedModule)). exists (a * Rpower x (a - 1)).
  apply is_derive_Reals. now apply derivable_pt_lim_power.
Qed.
Lemma PL_RInt a p q : 0 < p <= q -> is_RInt (fun x => Rpower x a) p q (PL a q - PL a p).
Proof.
  intros [Hp Hq]. apply (is_RInt_derive (V:=R_CompleteNormedModule) (PL a)).
  - intros x Hx. apply PL_derive. rewrite Rmin_left in Hx by lra. lra.
  - intros x Hx. apply Rpower_continuous. rewrite Rmin_left in Hx by lra. lra.
Qed.

(** ** Inverse transforms *)
(** [F] is a distribution function on the set [S] and [draw] inverts it. *)
Lemma inv_prob (S : R -> Prop) F draw a b :
  (forall x y, S x -> S y -> x < y -> F x < F y) ->
  (forall u, 0 <= u < 1 -> S (draw u) /\ F (draw u) = u) ->
  S a -> S b -> a <= b -> 0 <= F a -> F b <= 1 -> uniform_prob draw a b (F b - F a).
Proof.
  intros Hm Hd Ha Hb Hab H0 H1. exists (F a), (F b).
  assert (Hle : forall x y, S x -> S y -> x <= y -> F x <= F y).
  { intros x y Hx Hy [H|<-]; [left; now apply Hm|lra]. }
  assert (F a <= F b) by now apply Hle.
  split; [assumption|]. split; [lra|]. split; [reflexivity|]. intros u Hu.
  destruct (Hd u Hu) as [Hs He]. split; intros [Hu1 Hu2]; split.
  - destruct (Rle_lt_dec a (draw u)) as [|H']; auto. pose proof (Hm _ _ Hs Ha H'). lra.
  - destruct (Rle_lt_dec (draw u) b) as [|H']; auto. pose proof (Hm _ _ Hb Hs H'). lra.
  - pose proof (Hle a (draw u) Ha Hs). lra.
  - pose proof (Hle (draw u) b Hs Hb). lra.
Qed.
Definition clamp (p q x : R) : R := Rmax p (Rmin q x).
Lemma clamp_in p q x : p <= q -> p <= clamp p q x <= q.
Proof. intros H. unfold clamp, Rmax, Rmin. destruct (Rle_dec q x), (Rle_dec p _); lra. Qed.
Lemma clamp_id p q x : p <= x <= q -> clamp p q x = x.
Proof. intros H. unfold clamp, Rmax, Rmin. destruct (Rle_dec q x), (Rle_dec p _); lra. Qed.
Lemma clamp_hi p q x : p <= q -> q <= x -> clamp p q x = q.
Proof. intros H. unfold clamp, Rmax, Rmin. destruct (Rle_dec q x), (Rle_dec p _); lra. Qed.
Lemma clamp_lo p q x : p <= q -> x <= p -> clamp p q x = p.
Proof. intros H. unfold clamp, Rmax, Rmin. destruct (Rle_dec q x), (Rle_dec p _); lra. Qed.
Lemma clamp_le p q x y : x <= y -> clamp p q x <= clamp p q y.
Proof. intros H. unfold clamp. apply Rle_max_compat_l. apply Rle_min_compat_l. auto. Qed.
(** The same on an interval, for intervals that may stick out of it. *)
Lemma inv_prob_clamp p q F draw a b :
  p <= q -> (forall x y, p <= x -> x < y -> y <= q -> F x < F y) -> F p = 0 -> F q = 1 ->
  (forall u, 0 <= u < 1 -> p <= draw u <= q /\ F (draw u) = u) -> a <= b ->
  uniform_prob draw a b (F (clamp p q b) - F (clamp p q a)).
Proof.
  intros Hpq Hm F0 F1 Hd Hab.
  assert (Hle : forall x y, p <= x -> x <= y -> y <= q -> F x <= F y).
  { intros x y Hx [H|<-] Hy; [left; now apply Hm|lra]. }
  pose proof (clamp_in p q a Hpq) as Ia. pose proof (clamp_in p q b Hpq) as Ib.
  pose proof (clamp_le p q a b Hab) as Iab.
  exists (F (clamp p q a)), (F (clamp p q b)).
  assert (0 <= F (clamp p q a)) by (rewrite <- F0; apply Hle; lra).
  assert (F (clamp p q b) <= 1) by (rewrite <- F1; apply Hle; lra).
  assert (F (clamp p q a) <= F (clamp p q b)) by (apply Hle; lra).
  split; [assumption|]. split; [lra|]. split; [lra|]. intros u Hu. destruct (Hd u Hu) as [Hs He]. split.
  - intros [Hu1 Hu2]. split.
    + destruct (Rle_lt_dec a (draw u)) as [|H']; auto. exfalso.
      destruct (Rle_lt_dec q a) as [Hqa|Hqa].
      * rewrite (clamp_hi p q a) in Hu1 by lra. lra.
      * rewrite (clamp_id p q a) in Hu1 by lra. pose proof (Hm (draw u) a). lra.
    + destruct (Rle_lt_dec (draw u) b) as [|H']; auto. exfalso.
      destruct (Rle_lt_dec b p) as [Hbp|Hbp].
      * rewrite (clamp_lo p q b) in Hu2 by lra. lra.
      * rewrite (clamp_id p q b) in Hu2 by lra. pose proof (Hm b (draw u)). lra.
  - intros [Ha Hb]. split.
    + rewrite <- He. apply Hle; try lra. rewrite <- (clamp_id p q (draw u)) by lra. now apply clamp_le.
    + rewrite <- He at 1. apply Hle; try lra. rewrite <- (clamp_id p q (draw u)) by lra. now apply clamp_le.
Qed.

(** ** Bounded power laws *)
(** The value drawn, described by the antiderivative. *)
Lemma pow_inv p q c u : 0 < p < q -> c <> 0 -> 0 <= u <= 1 ->
  let x := Rpower (u * (Rpower q c - Rpower p c) + Rpower p c) (1 / c) in
  p <= x <= q /\ Rpower x c = u * (Rpower q c - Rpower p c) + Rpower p c.
Proof.
  intros H Hc Hu. pose proof (Rpower_pos p c) as Pp. pose proof (Rpower_pos q c) as Pq.
  set (w := u * (Rpower q c - Rpower p c) + Rpower p c).
  assert (Hw : 0 < w).
  { unfold w. destruct (Rle_lt_dec (Rpower p c) (Rpower q c)); nra. }
  cbv zeta. pose proof (Rpower_inv_r w c Hw Hc) as E. split; [|exact E].
  pose proof (Rpower_pos w (1 / c)) as Px. set (x := Rpower w (1 / c)) in *.
  assert (Hover : Rpower p c / c <= Rpower x c / c <= Rpower q c / c).
  { rewrite E. pose proof (Rpower_over_lt p q c H Hc) as L.
    replace (w / c) with (u * (Rpower q c / c - Rpower p c / c) + Rpower p c / c) by (unfold w; field; auto). nra. }
  split.
  - destruct (Rle_lt_dec p x) as [|Hl]; auto. pose proof (Rpower_over_lt x p c). lra.
  - destruct (Rle_lt_dec x q) as [|Hl]; auto. pose proof (Rpower_over_lt q x c). lra.
Qed.
Lemma spl_PL p q a u : 0 < p < q -> 0 <= u <= 1 ->
  p <= sample_power_law p q a u <= q /\
  PL a (sample_power_law p q a u) - PL a p = u * (PL a q - PL a p).
Proof.
  intros H Hu. unfold sample_power_law, PL. destruct (Req_EM_T a (-1)) as [->|Ha].
  - assert (Hl : 0 < ln (q / p)).
    { rewrite <- ln_1. apply ln_increasing; [lra|]. apply Rmult_lt_reg_r with p; [lra|]. unfold Rdiv.
      rewrite Rmult_assoc, Rinv_l; lra. }
    replace (u / (1 / ln (q / p))) with (u * ln (q / p)) by (field; lra).
    assert (Hr : ln (q / p) = ln q - ln p) by (unfold Rdiv; rewrite ln_mult, ln_Rinv; [lra|lra|lra|apply Rinv_0_lt_compat; lra]).
    assert (E : ln (p * exp (u * ln (q / p))) = ln p + u * ln (q / p)).
    { rewrite ln_mult, ln_exp; [reflexivity|lra|apply exp_pos]. }
    assert (Hpos : 0 < p * exp (u * ln (q / p))) by (apply Rmult_lt_0_compat; [lra|apply exp_pos]).
    split.
    + split.
      * apply Rnot_lt_le. intros C. apply ln_increasing in C; [|assumption]. rewrite E in C. nra.
      * apply Rnot_lt_le. intros C. apply ln_increasing in C; [|lra]. rewrite E in C. nra.
    + rewrite E, Hr. ring.
  - pose proof (pow_inv p q (a + 1) u H ltac:(lra) Hu) as [R E]. cbv zeta in R, E.
    rewrite (Rmult_comm u) in R, E. split; [exact R|]. rewrite E. field. lra.
Qed.
Lemma spl_ends p q a : 0 < p < q -> sample_power_law p q a 0 = p /\ sample_power_law p q a 1 = q.
Proof.
  intros H. unfold sample_power_law. destruct (Req_EM_T a (-1)).
  - assert (Hl : 0 < ln (q / p)).
    { rewrite <- ln_1. apply ln_increasing; [lra|]. apply Rmult_lt_reg_r with p; [lra|]. unfold Rdiv.
      rewrite Rmult_assoc, Rinv_l; lra. }
    split.
    + unfold Rdiv at 1. rewrite Rmult_0_l, exp_0. ring.
    + replace (1 / (1 / ln (q / p))) with (ln (q / p)) by (field; lra). rewrite exp_ln.
      * field. lra.
      * apply Rdiv_lt_0_compat; lra.
  - split.
    + rewrite Rmult_0_r, Rplus_0_l. apply Rpower_inv_l; lra.
    + replace ((Rpower q (a + 1) - Rpower p (a + 1)) * 1 + Rpower p (a + 1)) with (Rpower q (a + 1)) by ring.
      apply Rpower_inv_l; lra.
Qed.
Lemma spl_increasing p q a : 0 < p < q -> increasing_on (sample_power_law p q a) 0 1.
Proof.
  intros H x y Hx Hxy Hy.
  destruct (spl_PL p q a x H ltac:(lra)) as [[R1 R1'] E1]. destruct (spl_PL p q a y H ltac:(lra)) as [[R2 R2'] E2].
  apply Rnot_le_lt. intros C. pose proof (PL_le a _ _ (conj (Rlt_le_trans 0 p _ ltac:(lra) R2) C)).
  pose proof (PL_lt a p q H). nra.
Qed.
Lemma spl_quantile p q a u : 0 < p < q -> 0 <= u <= 1 ->
  quantile (fun x => Rpower x a) p q u (sample_power_law p q a u).
Proof.
  intros H Hu. destruct (spl_PL p q a u H Hu) as [Hr E]. split; [exact Hr|].
  exists (PL a (sample_power_law p q a u) - PL a p), (PL a q - PL a p). split; [|split; [|split]].
  - apply PL_RInt. lra.
  - apply PL_RInt. lra.
  - pose proof (PL_lt a p q H). lra.
  - exact E.
Qed.
(** The probability of an interval. *)
Lemma spl_prob p q al a b : 0 < p < q -> a <= b ->
  uniform_prob (sample_power_law p q al) a b ((PL al (clamp p q b) - PL al (clamp p q a)) / (PL al q - PL al p)).
Proof.
  intros H Hab. pose proof (PL_lt al p q H) as L.
  pose proof (inv_prob_clamp p q (fun x => (PL al x - PL al p) / (PL al q - PL al p)) (sample_power_law p q al) a b) as G.
  cbv beta in G.
  replace ((PL al (clamp p q b) - PL al (clamp p q a)) / (PL al q - PL al p)) with
    ((PL al (clamp p q b) - PL al p) / (PL al q - PL al p) - (PL al (clamp p q a) - PL al p) / (PL al q - PL al p)) by (field; lra).
  apply G; [lra| |field; lra|field; lra| |assumption].
  - intros x y Hx Hxy Hy. apply Rmult_lt_compat_r; [apply Rinv_0_lt_compat; lra|].
    pose proof (PL_lt al x y ltac:(lra)). lra.
  - intros u Hu. destruct (spl_PL p q al u H ltac:(lra)) as [Hr E]. split; [exact Hr|]. rewrite E. field. lra.
Qed.

(** ** Broken power laws *)
Section Bpl.
Variables x0 x1 x2 a1 a2 : R.
Hypothesis H0 : 0 < x0.
Hypothesis H1 : x0 < x1.
Hypothesis H2 : x1 < x2.
Hypothesis Ha1 : a1 <> -1.
Hypothesis Ha2 : a2 <> -1.

Lemma PL_ne a x : a <> -1 -> PL a x = Rpower x (a + 1) / (a + 1).
Proof. intros H. unfold PL. destruct (Req_EM_T a (-1)); [tauto|reflexivity]. Qed.
Lemma int_1_PL : int_1 x0 x1 x2 a1 a2 = PL a1 x1 - PL a1 x0.
Proof. unfold int_1. rewrite !PL_ne by assumption. field. lra. Qed.
Lemma int_2_PL : int_2 x0 x1 x2 a1 a2 = Rpower x1 (a1 - a2) * (PL a2 x2 - PL a2 x1).
Proof. unfold int_2. rewrite !PL_ne by assumption. field. lra. Qed.
Lemma int_1_pos : 0 < int_1 x0 x1 x2 a1 a2.
Proof. rewrite int_1_PL. pose proof (PL_lt a1 x0 x1 ltac:(lra)). lra. Qed.
Lemma int_2_pos : 0 < int_2 x0 x1 x2 a1 a2.
Proof.
  rewrite int_2_PL. pose proof (PL_lt a2 x1 x2 ltac:(lra)). apply Rmult_lt_0_compat; [apply Rpower_pos|lra].
Qed.
Definition tot : R := int_1 x0 x1 x2 a1 a2 + int_2 x0 x1 x2 a1 a2.
Lemma tot_pos : 0 < tot.
Proof. pose proof int_1_pos. pose proof int_2_pos. unfold tot. lra. Qed.
Lemma weights : 0 < weight1 x0 x1 x2 a1 a2 /\ 0 < weight2 x0 x1 x2 a1 a2 /\
  weight1 x0 x1 x2 a1 a2 + weight2 x0 x1 x2 a1 a2 = 1.
Proof.
  pose proof int_1_pos as P1. pose proof int_2_pos as P2. unfold weight1, weight2, integrate_pl. cbn [fst snd].
  split; [|split].
  - apply Rdiv_lt_0_compat; lra.
  - apply Rdiv_lt_0_compat; lra.
  - field. lra.
Qed.
Lemma sample_lo u : sample_bpl true u x0 x1 x2 a1 a2 = sample_power_law x0 x1 a1 u.
Proof.
  unfold sample_bpl, sample_power_law. destruct (Req_EM_T a1 (-1)); [tauto|].
  now rewrite (Rmult_comm u), (Rplus_comm 1 a1).
Qed.
Lemma sample_hi u : sample_bpl false u x0 x1 x2 a1 a2 = sample_power_law x1 x2 a2 u.
Proof.
  unfold sample_bpl, sample_power_law. destruct (Req_EM_T a2 (-1)); [tauto|].
  now rewrite (Rmult_comm u), (Rplus_comm 1 a2).
Qed.
Lemma sample_range s u : 0 <= u <= 1 -> x0 <= sample_bpl s u x0 x1 x2 a1 a2 <= x2.
Proof.
  intros Hu. destruct s.
  - rewrite sample_lo. pose proof (spl_PL x0 x1 a1 u ltac:(lra) Hu). lra.
  - rewrite sample_hi. pose proof (spl_PL x1 x2 a2 u ltac:(lra) Hu). lra.
Qed.
Lemma bpl_lo a b : x0 <= a <= b -> b <= x1 ->
  is_RInt (fun x => bpl x x0 x1 x2 a1 a2) a b ((PL a1 b - PL a1 a) / tot).
Proof.
  intros Ha Hb. pose proof tot_pos as Ht.
  apply (is_RInt_ext (fun x => scal (/ tot) (Rpower x a1))).
  { intros x. rewrite Rmin_left, Rmax_right by lra. intros Hx. unfold bpl, integrate_pl, ltb. cbn [snd].
    destruct (Rlt_dec x0 x); [|lra]. destruct (Rlt_dec x x1); [|lra]. cbn [andb].
    change (int_1 x0 x1 x2 a1 a2 + int_2 x0 x1 x2 a1 a2) with tot. unfold scal; cbn; unfold mult; cbn. field. lra. }
  replace ((PL a1 b - PL a1 a) / tot) with (scal (/ tot) (PL a1 b - PL a1 a)) by (unfold scal; cbn; unfold mult; cbn; field; lra).
  apply (is_RInt_scal (fun x => Rpower x a1) a b (/ tot)). apply PL_RInt. lra.
Qed.
Lemma bpl_hi a b : x1 <= a <= b -> b <= x2 ->
  is_RInt (fun x => bpl x x0 x1 x2 a1 a2) a b (Rpower x1 (a1 - a2) * (PL a2 b - PL a2 a) / tot).
Proof.
  intros Ha Hb. pose proof tot_pos as Ht.
  apply (is_RInt_ext (fun x => scal (Rpower x1 (a1 - a2) / tot) (Rpower x a2))).
  { intros x. rewrite Rmin_left, Rmax_right by lra. intros Hx. unfold bpl, integrate_pl, ltb, leb. cbn [snd].
    destruct (Rlt_dec x0 x); [|lra]. destruct (Rlt_dec x x1); [lra|]. cbn [andb].
    destruct (Rle_dec x1 x); [|lra]. destruct (Rlt_dec x x2); [|lra]. cbn [andb].
    change (int_1 x0 x1 x2 a1 a2 + int_2 x0 x1 x2 a1 a2) with tot. unfold scal; cbn; unfold mult; cbn. field. lra. }
  replace (Rpower x1 (a1 - a2) * (PL a2 b - PL a2 a) / tot) with (scal (Rpower x1 (a1 - a2) / tot) (PL a2 b - PL a2 a))
    by (unfold scal; cbn; unfold mult; cbn; field; lra).
  apply (is_RInt_scal (fun x => Rpower x a2) a b). apply PL_RInt. lra.
Qed.
Lemma bpl_RInt a b : x0 <= a <= b -> b <= x2 ->
  is_RInt (fun x => bpl x x0 x1 x2 a1 a2) a b
    ((PL a1 (clamp x0 x1 b) - PL a1 (clamp x0 x1 a)) / tot +
     Rpower x1 (a1 - a2) * (PL a2 (clamp x1 x2 b) - PL a2 (clamp x1 x2 a)) / tot).
Proof.
  intros Ha Hb. pose proof tot_pos as Ht. destruct (Rle_lt_dec b x1) as [Hb1|Hb1].
  - rewrite !(clamp_lo x1 x2), !(clamp_id x0 x1) by lra.
    match goal with |- is_RInt _ _ _ ?e => replace e with ((PL a1 b - PL a1 a) / tot) by (field; lra) end.
    apply bpl_lo; lra.
  - destruct (Rle_lt_dec x1 a) as [Ha1'|Ha1'].
    + rewrite !(clamp_hi x0 x1), !(clamp_id x1 x2) by lra.
      match goal with |- is_RInt _ _ _ ?e => replace e with (Rpower x1 (a1 - a2) * (PL a2 b - PL a2 a) / tot) by (field; lra) end.
      apply bpl_hi; lra.
    + rewrite (clamp_hi x0 x1 b), (clamp_id x0 x1 a), (clamp_id x1 x2 b), (clamp_lo x1 x2 a) by lra.
      apply (is_RInt_Chasles (V:=R_NormedModule) _ a x1 b).
      * apply bpl_lo; lra.
      * apply bpl_hi; lra.
Qed.
Lemma bpl_one : is_RInt (fun x => bpl x x0 x1 x2 a1 a2) x0 x2 1.
Proof.
  pose proof tot_pos as Ht. pose proof (bpl_RInt x0 x2 ltac:(lra) ltac:(lra)) as G.
  rewrite (clamp_hi x0 x1 x2), (clamp_id x0 x1 x0), (clamp_id x1 x2 x2), (clamp_lo x1 x2 x0) in G by lra.
  rewrite <- int_1_PL, <- int_2_PL in G.
  match type of G with is_RInt _ _ _ ?e => replace e with 1 in G; [exact G|] end.
  unfold tot in *. field. lra.
Qed.
(** What the two branches give together is the integral of the density. *)
Lemma bpl_law a b : x0 <= a <= b -> b <= x2 ->
  exists p1 p2,
    uniform_prob (fun u => sample_bpl true u x0 x1 x2 a1 a2) a b p1 /\
    uniform_prob (fun u => sample_bpl false u x0 x1 x2 a1 a2) a b p2 /\
    is_RInt (fun x => bpl x x0 x1 x2 a1 a2) a b
      (weight1 x0 x1 x2 a1 a2 * p1 + weight2 x0 x1 x2 a1 a2 * p2).
Proof.
  intros Ha Hb. pose proof tot_pos as Ht. pose proof int_1_pos as P1. pose proof int_2_pos as P2.
  pose proof (PL_lt a1 x0 x1 ltac:(lra)) as L1. pose proof (PL_lt a2 x1 x2 ltac:(lra)) as L2.
  eexists; eexists. split; [|split].
  - destruct (spl_prob x0 x1 a1 a b ltac:(lra) ltac:(lra)) as (u1 & u2 & G1 & G2 & G3 & G4).
    exists u1, u2. repeat split; try tauto; try lra; [exact G3|..]; rewrite sample_lo in *; apply G4; auto.
  - destruct (spl_prob x1 x2 a2 a b ltac:(lra) ltac:(lra)) as (u1 & u2 & G1 & G2 & G3 & G4).
    exists u1, u2. repeat split; try tauto; try lra; [exact G3|..]; rewrite sample_hi in *; apply G4; auto.
  - pose proof (bpl_RInt a b Ha Hb) as G.
    match type of G with is_RInt _ _ _ ?e => match goal with |- is_RInt _ _ _ ?e' => replace e' with e; [exact G|] end end.
    unfold weight1, weight2, integrate_pl. cbn [fst snd]. fold tot. rewrite int_1_PL, int_2_PL.
    field. repeat split; lra.
Qed.
Lemma bpl_phi_bpl L : bpl_phi x0 x1 x2 a1 a2 L = bpl L x0 x1 x2 a1 a2.
Proof. unfold bpl_phi. rewrite (is_RInt_unique _ _ _ _ bpl_one). field. Qed.
End Bpl.
