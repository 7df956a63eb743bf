(** The law of the drawn distances. *)
From Coq Require Import Reals ZArith List String Lra Lia.
From Coquelicot Require Import Coquelicot.
From Verif Require Import Base BaseFacts Env ParamModel DistModel SimVarModel DistSpec SizeSpec PopModel SynthModel SynthSpec RealModel RealSpec LibModel LibPopModel LawSpec.
From Verif Require DistProofs RealProofs RealSize SurveySize.
Import ListNotations.
Open Scope R_scope.

(** ** Areas *)
Lemma const_int a b c x : (b - a) * c = x -> is_RInt (fun _ => c) a b x.
Proof. intros <-. exact (is_RInt_const (V := R_NormedModule) a b c). Qed.
Lemma below_int F r H : 0 <= H -> 0 <= F r -> is_RInt (below F r) 0 H (Rmin (F r) H).
Proof.
  intros HH HF. set (x := Rmin (F r) H). assert (X0 : 0 <= x) by (apply Rmin_glb; assumption). assert (XH : x <= H) by apply Rmin_r.
  replace x with (plus x 0) by apply Rplus_0_r.
  apply (is_RInt_Chasles (V := R_NormedModule) _ 0 x H).
  - apply (is_RInt_ext (V := R_NormedModule) (fun _ => 1)).
    + intros y Hy. rewrite Rmin_left, Rmax_right in Hy by lra. unfold below. destruct (Rlt_dec y (F r)) as [|N]; [reflexivity|]. exfalso. apply N. assert (x <= F r) by apply Rmin_l. lra.
    + apply const_int. ring.
  - apply (is_RInt_ext (V := R_NormedModule) (fun _ => 0)).
    + intros y Hy. rewrite Rmin_left, Rmax_right in Hy by lra. unfold below. destruct (Rlt_dec y (F r)) as [L|]; [|reflexivity]. exfalso.
      unfold x, Rmin in Hy. destruct (Rle_dec (F r) H); lra.
    + apply const_int. ring.
Qed.
Lemma min_continuous (F : R -> R) (H r : R) : continuous F r -> continuous (fun x => Rmin (F x) H) r.
Proof.
  intros C. apply (continuous_ext (fun x => (F x + H - Rabs (F x - H)) * / 2)).
  - intros x. unfold Rmin, Rabs. destruct (Rle_dec (F x) H), (Rcase_abs (F x - H)); lra.
  - apply (continuous_mult (K := R_AbsRing)); [|apply continuous_const].
    apply (continuous_minus (V := R_NormedModule)).
    + apply (continuous_plus (V := R_NormedModule)); [exact C|apply continuous_const].
    + apply continuous_Rabs_comp. apply (continuous_minus (V := R_NormedModule)); [exact C|apply continuous_const].
Qed.
(** What is accepted over an interval: the integral of the curve cut off at the height
    of the box. *)
Theorem area_clipped (F : R -> R) (H a b : R) : 0 <= H -> a <= b -> (forall r, a <= r <= b -> 0 <= F r /\ continuous F r) ->
  area F H a b (RInt (fun r => Rmin (F r) H) a b).
Proof.
  intros HH AB C. exists (fun r => Rmin (F r) H). split.
  - intros r Hr. apply below_int; [exact HH|now apply C].
  - apply (RInt_correct (V := R_CompleteNormedModule)). apply (ex_RInt_continuous (V := R_CompleteNormedModule)). intros z Hz. rewrite Rmin_left, Rmax_right in Hz by lra.
    apply min_continuous. now apply C.
Qed.
Lemma below_unique F r H x y : is_RInt (below F r) 0 H x -> is_RInt (below F r) 0 H y -> x = y.
Proof. intros A B. rewrite <- (is_RInt_unique (V := R_CompleteNormedModule) _ _ _ _ A). now rewrite (is_RInt_unique (V := R_CompleteNormedModule) _ _ _ _ B). Qed.
(** Areas are unique. *)
Lemma area_unique F H a b A B : a <= b -> area F H a b A -> area F H a b B -> A = B.
Proof.
  intros AB (h & H1 & H2) (k & K1 & K2). rewrite <- (is_RInt_unique (V := R_CompleteNormedModule) _ _ _ _ H2). rewrite <- (is_RInt_unique (V := R_CompleteNormedModule) _ _ _ _ K2).
  apply (RInt_ext (V := R_CompleteNormedModule)). intros x Hx. rewrite Rmin_left, Rmax_right in Hx by lra. eapply below_unique; [apply H1; lra|apply K1; lra].
Qed.
(** A curve proportional to the density that stays in the box. *)
Lemma below_follows (f F : R -> R) (H rm c : R) : 0 < c -> 0 <= H -> (forall r, 0 <= r <= rm -> F r = c * f r /\ 0 <= f r /\ continuous f r /\ F r <= H) -> follows f F H rm.
Proof.
  intros PC HH HF. exists c. split; [exact PC|]. intros a b L. exists (fun r => c * f r). split.
  - intros r Hr. destruct (HF r ltac:(lra)) as (Q & P & _ & T). replace (c * f r) with (Rmin (F r) H) by (rewrite Rmin_left by lra; exact Q).
    apply below_int; [exact HH|]. rewrite Q. apply Rmult_le_pos; lra.
  - apply (is_RInt_scal (V := R_NormedModule)). apply (RInt_correct (V := R_CompleteNormedModule)). apply (ex_RInt_continuous (V := R_CompleteNormedModule)).
    intros z Hz. rewrite Rmin_left, Rmax_right in Hz by lra. apply HF. lra.
Qed.

(** ** The draws *)
Section P.
Variable m : machine.
Notation E := (real_env m).

Lemma accept_below (f : R -> res R) F H rm : (forall r, f r = Ok (F r)) -> forall fuel s r s', accept E fuel f H rm s = (Ok r, s') -> first_below m F H rm s r s'.
Proof.
  intros HF. induction fuel as [|n IH]; intros s r s' A; [discriminate|]. cbn [accept] in A. cbn in A.
  destruct (mc_unif m 0 H s) as [y s1] eqn:U1. destruct (mc_unif m 0 rm s1) as [r1 s2] eqn:U2. rewrite HF in A.
  destruct (ltb y (F r1)) eqn:L.
  - injection A as <- <-. eapply hit; [exact U1|exact U2|now apply RealSize.ltb_iff].
  - eapply miss; [exact U1|exact U2| |now apply IH]. apply Rnot_lt_le. intros X. apply RealSize.ltb_iff in X. congruence.
Qed.
Lemma accept_each (f : R -> res R) F H rm fuel : (forall r, f r = Ok (F r)) -> forall n s rs s', accept_many E fuel f H rm n s = (Ok rs, s') -> each_below m F H rm s rs s'.
Proof.
  intros HF. unfold accept_many. induction n as [|n IH]; intros s rs s' A; cbn [repeatM] in A.
  - injection A as <- <-. constructor.
  - apply bind_inv_ok in A. destruct A as (r & s1 & A1 & A). apply bind_inv_ok in A. destruct A as (rs1 & s2 & A2 & A). injection A as <- <-.
    eapply next; [eapply accept_below; eassumption|now apply IH].
Qed.

Lemma max_of (l : list R) : forall x M, fold_left Rmax l x = M -> In M (x :: l) /\ forall z, In z (x :: l) -> z <= M.
Proof.
  induction l as [|a l IH]; intros x M Q; cbn in Q.
  - subst. split; [now left|]. intros z [->|[]]. lra.
  - destruct (IH _ _ Q) as [I B]. assert (X : Rmax x a <= M) by (apply B; now left). assert (Y := Rmax_l x a). assert (Z := Rmax_r x a). split.
    + destruct I as [I|I]; [|now right; right]. subst M. rewrite <- I. unfold Rmax. destruct (Rle_dec x a); [right; now left|now left].
    + intros z [<-|[<-|I']]; [lra|lra|]. apply B. now right.
Qed.
Lemma INR499 : INR 499 = 499. Proof. rewrite INR_IZR_INZ. reflexivity. Qed.
Lemma at_end (rm : R) : 499 * (rm / 499) = rm. Proof. field. Qed.
Lemma grid_points rm z : In z (grid E rm) <-> exists k, (k <= 499)%nat /\ z = INR k * (rm / 499).
Proof.
  unfold grid. rewrite in_app_iff, in_map_iff. change (vofnat E) with INR. change (vmul E) with Rmult. change (vdiv E) with Rdiv. rewrite INR499. split.
  - intros [(k & <- & I)|[<-|[]]].
    + apply in_seq in I. exists k. split; [lia|reflexivity].
    + exists 499%nat. split; [lia|]. rewrite INR499, at_end. reflexivity.
  - intros (k & L & ->). destruct (Nat.eq_dec k 499) as [->|N].
    + right. left. rewrite INR499, at_end. reflexivity.
    + left. exists k. split; [reflexivity|]. apply in_seq. lia.
Qed.
Lemma rmapM_map {A B} (f : A -> res B) (g : A -> B) : (forall x, f x = Ok (g x)) -> forall l, rmapM f l = Ok (map g l).
Proof. intros H. induction l as [|x l IH]; cbn; [reflexivity|]. now rewrite H, IH. Qed.
Lemma np_max_grid (f : R -> R) rm M : np_max E (map f (grid E rm)) = Ok M -> grid_max f rm M.
Proof.
  unfold np_max. destruct (map f (grid E rm)) as [|x l] eqn:Q; [discriminate|]. intros [= X]. change (vmax2 E) with Rmax in X.
  destruct (max_of _ _ _ X) as [I B]. rewrite <- Q in I, B. split.
  - apply in_map_iff in I. destruct I as (z & Z & I). apply grid_points in I. destruct I as (k & L & ->). eauto.
  - intros k L. apply B. apply in_map. apply grid_points. eauto.
Qed.
Lemma grid_max_scale f rm M c : 0 < c -> grid_max (fun r => f r / c) rm M -> exists M', grid_max f rm M' /\ M = M' / c.
Proof.
  intros P ((k & L & Q) & B). exists (M * c). split; [|field; lra]. split.
  - exists k. split; [exact L|]. rewrite <- Q. field. lra.
  - intros j Lj. specialize (B j Lj). apply (Rmult_le_compat_r c) in B; [|lra]. replace (f (INR j * (rm / 499)) / c * c) with (f (INR j * (rm / 499))) in B by (field; lra). exact B.
Qed.

Lemma ok_inj {A} (x y : A) : Ok x = Ok y -> x = y. Proof. now intros [= ->]. Qed.
Section Run.
Variables (c : spcls E) (o : pobj R) (rm : R) (vals uvals : list R) (f : R -> R) (i : R).
Hypothesis RM : reading E (sc_params c) o "r_max" = Ok rm.
Hypothesis VA : values E (sc_params c) o (sc_reads c) vals.
Hypothesis DE : forall r, sc_dens c vals r = Ok (f r).
Variables (progress normalize : bool).
Hypothesis NI : normalize = true -> unit_values E (sc_params c) o (sc_reads c) uvals /\ mc_quad m (sc_dens c uvals) 0 rm = Ok i /\ 0 < i.

Theorem drawn_below fuel n s s' rs ps : drawn c o progress fuel n normalize s s' rs ps ->
  exists M, grid_max f rm M /\ each_below m (curve normalize progress i f) (height normalize i M) rm s rs s'.
Proof.
  intros (rm' & vals' & uvals' & integral & ys & ymax & RM' & VA' & UV' & NO & YS & YM & AC & _).
  assert (rm' = rm) by congruence. subst rm'.
  assert (FUN : forall ks (P : string -> R -> Prop) l l', (forall k x y, P k x -> P k y -> x = y) -> Forall2 P ks l -> Forall2 P ks l' -> l = l').
  { intros ks P l l' U F1. revert l'. induction F1 as [|k x ks l Hx F1 IH]; intros l' F2; inversion F2; subst; [reflexivity|]. f_equal; [eapply U; eassumption|now apply IH]. }
  assert (vals' = vals). { eapply (FUN _ (fun k v => reading E (sc_params c) o k = Ok v)); [|exact VA'|exact VA]. intros k x y X Y. congruence. } subst vals'.
  destruct normalize.
  - destruct (NI eq_refl) as (UV & QI & PI). destruct NO as (i' & -> & QI').
    assert (uvals' = uvals). { eapply (FUN _ (fun k v => unit_reading E (sc_params c) o k = Ok v)); [|exact UV'|exact UV]. intros k x y X Y. congruence. } subst uvals'.
    assert (i' = i) by (pose proof (eq_trans (eq_sym QI') QI) as Z; congruence). subst i'.
    assert (DN : forall r, dens_norm c (Some i) vals r = Ok (f r / i)) by (intros r; unfold dens_norm; rewrite DE; reflexivity).
    rewrite (rmapM_map _ _ DN) in YS. apply ok_inj in YS. subst ys. apply np_max_grid in YM. apply grid_max_scale in YM; [|exact PI]. destruct YM as (M & GM & ->).
    exists M. split; [exact GM|]. unfold height, curve. destruct progress; cbn [andb]; eapply accept_each; try exact AC; [exact DN|exact DE].
  - subst integral. assert (DN : forall r, dens_norm c None vals r = Ok (f r)) by (intros r; exact (DE r)).
    rewrite (rmapM_map _ _ DN) in YS. apply ok_inj in YS. subst ys. apply np_max_grid in YM. exists ymax. split; [exact YM|]. unfold height, curve. cbn [andb].
    destruct progress; eapply accept_each; try exact AC; [exact DN|exact DE].
Qed.
End Run.
End P.

(** A density below its grid maximum. *)
Theorem curve_follows normalize progress (i : R) (f : R -> R) (rm M : R) : 0 < rm -> (normalize = true -> progress = true /\ 0 < i) ->
  (forall r, 0 <= r <= rm -> 0 <= f r <= M /\ continuous f r) -> follows f (curve normalize progress i f) (height normalize i M) rm.
Proof.
  intros P NI HF. assert (PM : 0 <= M) by (destruct (HF 0 ltac:(lra)); lra). unfold curve, height. destruct normalize.
  - destruct (NI eq_refl) as [-> PI]. cbn [andb]. assert (IP := Rinv_0_lt_compat _ PI). apply (below_follows _ _ _ _ (/ i)); [exact IP|apply Rmult_le_pos; lra|].
    intros r Hr. destruct (HF r Hr) as [[A B] C]. split; [unfold Rdiv; ring|]. split; [exact A|]. split; [exact C|]. apply Rmult_le_compat_r; lra.
  - cbn [andb]. apply (below_follows _ _ _ _ 1); [lra|exact PM|]. intros r Hr. destruct (HF r Hr) as [[A B] C]. split; [ring|]. auto.
Qed.
(** A density that does not decrease is such. *)
Lemma rising_bounded f rm M : 0 < rm -> (forall r s, 0 <= r <= s -> s <= rm -> f r <= f s) -> grid_max f rm M -> forall r, 0 <= r <= rm -> f r <= M.
Proof.
  intros P MO (_ & B) r Hr. specialize (B 499%nat (le_n _)). rewrite INR499 in B. replace (499 * (rm / 499)) with rm in B by field.
  eapply Rle_trans; [apply (MO r rm); lra|exact B].
Qed.

(** ** A curve that leaves the box *)
Lemma not_follows (f F : R -> R) (H rm k a b a' b' : R) : 0 < k -> 0 < H -> 0 <= a < b -> b <= rm -> 0 <= a' < b' -> b' <= rm ->
  (forall r, 0 <= r <= rm -> F r = k * f r /\ 0 <= f r /\ continuous f r) ->
  (forall r, a <= r <= b -> F r <= H) -> 0 < RInt f a b -> (forall r, a' < r < b' -> H < F r) -> ~ follows f F H rm.
Proof.
  intros K PH A B A' B' HF LO P HI (c & PC & AR).
  assert (CF : forall r, 0 <= r <= rm -> 0 <= F r /\ continuous F r -> True) by auto. clear CF.
  assert (IN : forall x y, 0 <= x <= y -> y <= rm -> ex_RInt f x y).
  { intros x y X Y. apply (ex_RInt_continuous (V := R_CompleteNormedModule)). intros z Z. rewrite Rmin_left, Rmax_right in Z by lra. apply HF. lra. }
  assert (BI : forall r, 0 <= r <= rm -> is_RInt (below F r) 0 H (Rmin (k * f r) H)).
  { intros r Hr. destruct (HF r Hr) as (Q & N & _). rewrite <- Q. apply below_int; [lra|]. rewrite Q. apply Rmult_le_pos; lra. }
  assert (SC : forall x y, 0 <= x <= y -> y <= rm -> is_RInt (fun r => k * f r) x y (k * RInt f x y)).
  { intros x y X Y. apply (is_RInt_scal (V := R_NormedModule)). apply (RInt_correct (V := R_CompleteNormedModule)). now apply IN. }
  assert (Q1 : area F H a b (k * RInt f a b)).
  { exists (fun r => k * f r). split; [|apply SC; lra]. intros r Hr. replace (k * f r) with (Rmin (k * f r) H); [apply BI; lra|].
    apply Rmin_left. destruct (HF r ltac:(lra)) as [<- _]. now apply LO. }
  assert (c = k). { assert (X := area_unique _ _ _ _ _ _ (Rlt_le _ _ (proj2 A)) (AR a b ltac:(lra)) Q1). eapply Rmult_eq_reg_r; [exact X|lra]. } subst c.
  destruct (AR a' b' ltac:(lra)) as (h & H1 & H2).
  assert (Q2 : is_RInt h a' b' ((b' - a') * H)).
  { apply (is_RInt_ext (V := R_NormedModule) (fun _ => H)); [|exact (is_RInt_const (V := R_NormedModule) a' b' H)].
    intros x Hx. rewrite Rmin_left, Rmax_right in Hx by lra. apply (below_unique F x H); [|apply H1; lra]. replace H with (Rmin (k * f x) H) at 2; [apply BI; lra|].
    apply Rmin_right. destruct (HF x ltac:(lra)) as [<- _]. left. now apply HI. }
  assert (X : (b' - a') * H = k * RInt f a' b').
  { rewrite <- (is_RInt_unique (V := R_CompleteNormedModule) _ _ _ _ H2). now rewrite (is_RInt_unique (V := R_CompleteNormedModule) _ _ _ _ Q2). }
  assert (Y : RInt (fun _ => H) a' b' < RInt (fun r => k * f r) a' b').
  { apply RInt_lt; [lra| | |].
    - intros x Hx. apply (continuous_mult (K := R_AbsRing) (fun _ => k)); [apply continuous_const|apply HF; lra].
    - intros x Hx. apply continuous_const.
    - intros x Hx. destruct (HF x ltac:(lra)) as [<- _]. now apply HI. }
  rewrite (is_RInt_unique (V := R_CompleteNormedModule) _ _ _ _ (SC a' b' ltac:(lra) ltac:(lra))) in Y.
  rewrite (is_RInt_unique (V := R_CompleteNormedModule) _ _ _ _ (const_int a' b' H _ eq_refl)) in Y. rewrite X in Y. exact (Rlt_irrefl _ Y).
Qed.

(** ** Instances *)
Section Inst.
Variable m : machine.
Notation E := (real_env m).
Hypothesis Q : quad_exact m.

Section Class.
Variables (c : spcls E) (rm : R) (vals uvals : list R) (f u : R -> R) (d : sdist E).
Hypothesis IN : instance m c rm d.
Hypothesis VA : values E (sc_params c) (sd_par d) (sc_reads c) vals.
Hypothesis UV : unit_values E (sc_params c) (sd_par d) (sc_reads c) uvals.
Hypothesis DE : forall r, sc_dens c vals r = Ok (f r).
Hypothesis DU : forall r, sc_dens c uvals r = Ok (u r).
Hypothesis UI : ex_RInt u 0 rm /\ 0 < RInt u 0 rm.
Notation i := (RInt u 0 rm).

Lemma drawn_exact progress fuel n normalize s s' rs ps : drawn c (sd_par d) progress fuel n normalize s s' rs ps ->
  length rs = n /\ exists M, grid_max f rm M /\ each_below m (curve normalize progress i f) (height normalize i M) rm s rs s'.
Proof.
  intros D. split.
  - destruct D as (? & ? & ? & ? & ? & ? & _ & _ & _ & _ & _ & _ & AC & _). clear - AC. revert s rs s' AC. unfold accept_many. induction n as [|n IH]; intros s rs s' A; cbn [repeatM] in A.
    + now injection A as <- _.
    + apply bind_inv_ok in A. destruct A as (r & s1 & A1 & A). apply bind_inv_ok in A. destruct A as (rs1 & s2 & A2 & A). injection A as <- _. cbn. f_equal. eapply IH. exact A2.
  - destruct IN as (_ & _ & _ & RM). eapply (drawn_below m c (sd_par d) rm vals uvals f i RM VA DE progress normalize); [|exact D].
    intros _. split; [exact UV|]. split; [|apply UI]. apply (Q (sc_dens c uvals) u 0 rm); [auto|apply UI].
Qed.

(** A successful draw. *)
Lemma draw_exact progress fuel size normalize d' s s' : draw_distance progress fuel size normalize (d, s) = (Ok tt, (d', s')) ->
  exists rs M, length rs = size /\ sd_dist d' = Some rs /\ grid_max f rm M /\ each_below m (curve normalize progress i f) (height normalize i M) rm s rs s'.
Proof.
  intros H. destruct IN as (C & W & _). rewrite <- C in W. destruct (DistProofs.draw_distance_ok _ _ _ _ _ _ _ _ _ W H) as (rs & ps & o' & D & -> & _).
  rewrite C in D. destruct (drawn_exact _ _ _ _ _ _ _ _ D) as (L & M & GM & B). exists rs, M. auto.
Qed.
Lemma survey_exact progress fuel rl fs l10 ns normalize (y : synth E) p y' : y_sp y = d -> sc_sky c = None ->
  (normalize = true -> ns = None -> norm_value E (sd_par d)) -> draw_survey progress fuel rl fs l10 ns normalize y = (Ok p, y') ->
  exists M s s', sized_by ns normalize d (mc_seed m (y_seed y)) (p_nobj p) s /\ length (sv_lat (p_dist p)) = p_nobj p /\
    grid_max f rm M /\ each_below m (curve normalize progress i f) (height normalize i M) rm s (sv_lat (p_dist p)) s'.
Proof.
  intros Y SK NV H. destruct IN as (C & W & _). rewrite <- C, <- Y in W. rewrite <- Y in NV.
  destruct (SurveySize.distances_from _ _ _ _ _ _ _ _ _ _ _ H W NV) as (g & g' & ps & SZ & D); [rewrite Y, C; exact SK|].
  rewrite Y in *. rewrite C in D. destruct (drawn_exact _ _ _ _ _ _ _ _ D) as (L & M & GM & B). exists M, g, g'. auto.
Qed.

Hypothesis NN : forall r, 0 <= r <= rm -> 0 <= f r /\ continuous f r.
Hypothesis BO : forall M, grid_max f rm M -> forall r, 0 <= r <= rm -> f r <= M.
Lemma all_follow : draws_follow m d f rm /\ surveys_follow m d f rm.
Proof.
  assert (P : 0 < rm) by apply IN.
  assert (FO : forall normalize progress M, (normalize = true -> progress = true) -> grid_max f rm M -> follows f (curve normalize progress i f) (height normalize i M) rm).
  { intros normalize progress M NP GM. apply curve_follows; [exact P| |].
    - intros N. split; [now apply NP|apply UI].
    - intros r Hr. destruct (NN r Hr) as [A B]. split; [|exact B]. split; [exact A|now apply BO]. }
  split.
  - intros progress fuel size normalize d' s s' NP H. destruct (draw_exact _ _ _ _ _ _ _ H) as (rs & M & L & S & GM & B).
    exists rs, (curve normalize progress i f), (height normalize i M). auto.
  - intros progress fuel rl fs l10 ns normalize y p y' NP Y SK NV H. rewrite (proj1 IN) in SK.
    destruct (survey_exact _ _ _ _ _ _ _ _ _ _ Y SK NV H) as (M & s & s' & SZ & L & GM & B).
    exists (curve normalize progress i f), (height normalize i M), s, s'. auto.
Qed.
End Class.

(** ** The library *)
Variables (sol rel Om h0 : R).
Variables (sky : string -> option (list R -> nat -> mc_st m -> res (spvals E) * mc_st m))
  (draw : string -> list R -> nat -> mc_st m -> res (list R) * mc_st m)
  (phi : string -> list R -> R -> res R) (form : string -> string).
Notation fo := (lib sol rel Om h0 m sky draw phi form).
Notation reads := (reads m).
Ltac vals := repeat constructor; assumption.
Ltac unit := repeat constructor; unfold unit_reading; cbn; try reflexivity; assumption.
Open Scope string_scope.

Lemma sphere_rises L r s : 0 <= L -> 0 <= r <= s -> dens_sphere L r <= dens_sphere L s.
Proof.
  intros PL H. unfold dens_sphere, sphere_volume. assert (X := PI_RGT_0). assert (r * r <= s * s) by nra.
  assert (0 <= L * (4 * PI)) by nra. assert (L * (4 * PI) * (r * r) <= L * (4 * PI) * (s * s)) by (apply Rmult_le_compat_l; lra). lra.
Qed.
Lemma sphere_continuous L r : continuous (dens_sphere L) r.
Proof. apply RealProofs.derives. unfold dens_sphere, sphere_volume. auto_derive. lra. Qed.
Lemma sphere_nonneg L r : 0 <= L -> 0 <= dens_sphere L r.
Proof. intros P. unfold dens_sphere. assert (X := RealProofs.vol_nonneg r). apply Rmult_le_pos; [apply Rmult_le_pos; assumption|lra]. Qed.
Lemma sphere_follows rate rm L d : instance m (sd_cls (fst (ConstantSphericalDistribution fo rate))) rm d -> reads d "Lambda" L -> 0 <= L ->
  draws_follow m d (dens_sphere L) rm /\ surveys_follow m d (dens_sphere L) rm.
Proof.
  intros I HL PL. assert (P : 0 < rm) by apply I. unfold RealSpec.reads in HL. rewrite (proj1 I) in HL.
  apply (all_follow _ rm [L] [1] (dens_sphere L) (dens_sphere 1) d I); [vals|unit|reflexivity|reflexivity|now apply RealProofs.sphere_int| |].
  - intros r Hr. split; [now apply sphere_nonneg|apply sphere_continuous].
  - intros M GM. apply (rising_bounded _ rm M P); [|exact GM]. intros r s Hr Hs. now apply sphere_rises.
Qed.
Lemma zpow_continuous L delta r : 0 <= r -> continuous (dens_zpow_sphere L delta) r.
Proof. intros H. apply RealProofs.derives. unfold dens_zpow_sphere, sphere_volume, Rpower. auto_derive. lra. Qed.
Lemma zpow_nonneg L delta r : 0 <= L -> 0 <= dens_zpow_sphere L delta r.
Proof.
  intros P. unfold dens_zpow_sphere. assert (X := RealProofs.vol_nonneg r). apply Rmult_le_pos; [|lra]. apply Rmult_le_pos; [|exact X].
  apply Rmult_le_pos; [exact P|]. left. apply exp_pos.
Qed.
Lemma zpow_form L delta r : 0 <= r -> dens_zpow_sphere L delta r = L * (4 * PI) * (Rpower (r + 1) (delta + 2) * (r / (r + 1)) ^ 2).
Proof.
  intros H. unfold dens_zpow_sphere, sphere_volume. rewrite Rpower_plus. replace (Rpower (r + 1) 2) with ((r + 1) ^ 2).
  - field. lra.
  - rewrite <- Rpower_pow by lra. f_equal.
Qed.
Lemma zpow_rises L delta r s : 0 <= L -> -2 <= delta -> 0 <= r <= s -> dens_zpow_sphere L delta r <= dens_zpow_sphere L delta s.
Proof.
  intros PL HD H. rewrite !zpow_form by lra. assert (X := PI_RGT_0). apply Rmult_le_compat_l; [nra|].
  assert (A : forall x, 0 <= x -> 0 <= x / (x + 1)) by (intros x Hx; apply Rmult_le_pos; [exact Hx|left; apply Rinv_0_lt_compat; lra]).
  apply Rmult_le_compat; [left; apply exp_pos|apply pow_le, A; lra| |].
  - unfold Rpower. assert (ln (r + 1) <= ln (s + 1)). { destruct (Rle_lt_or_eq_dec r s (proj2 H)) as [Y| ->]; [left; apply ln_increasing; lra|lra]. }
    assert (Z : (delta + 2) * ln (r + 1) <= (delta + 2) * ln (s + 1)) by (apply Rmult_le_compat_l; lra).
    destruct (Rle_lt_or_eq_dec _ _ Z) as [Z'| ->]; [left; now apply exp_increasing|lra].
  - apply pow_incr. split; [apply A; lra|]. replace (r / (r + 1)) with (1 - / (r + 1)) by (field; lra). replace (s / (s + 1)) with (1 - / (s + 1)) by (field; lra).
    assert (/ (s + 1) <= / (r + 1)) by (apply Rinv_le_contravar; lra). lra.
Qed.
Lemma zpow_follows rate rm L delta d : instance m (sd_cls (fst (ZPowerSphericalDistribution fo rate))) rm d -> reads d "Lambda" L -> reads d "delta" delta ->
  0 <= L -> -2 <= delta -> draws_follow m d (dens_zpow_sphere L delta) rm /\ surveys_follow m d (dens_zpow_sphere L delta) rm.
Proof.
  intros I HL HD PL PD. assert (P : 0 < rm) by apply I. unfold RealSpec.reads in HL, HD. rewrite (proj1 I) in HL, HD.
  apply (all_follow _ rm [L; delta] [1; delta] (dens_zpow_sphere L delta) (dens_zpow_sphere 1 delta) d I); [vals|unit|reflexivity|reflexivity|now apply RealProofs.zpow_sphere_int| |].
  - intros r Hr. split; [now apply zpow_nonneg|now apply zpow_continuous].
  - intros M GM. apply (rising_bounded _ rm M P); [|exact GM]. intros r s Hr Hs. now apply zpow_rises.
Qed.
Lemma flatland_follows rate rm L d : instance m (sd_cls (fst (FlatlandDistribution m fo rate))) rm d -> reads d "Lambda" L -> 0 < L ->
  draws_follow m d (dens_flatland L) rm /\ surveys_follow m d (dens_flatland L) rm.
Proof.
  intros I HL PL. assert (P : 0 < rm) by apply I. unfold RealSpec.reads in HL. rewrite (proj1 I) in HL.
  apply (all_follow _ rm [L] [L] (dens_flatland L) (dens_flatland L) d I); [vals|unit|reflexivity|reflexivity|now apply RealProofs.flatland_int| |].
  - intros r Hr. split; [unfold dens_flatland; lra|]. apply RealProofs.derives. unfold dens_flatland. auto_derive. easy.
  - intros M GM. apply (rising_bounded _ rm M P); [|exact GM]. intros r s Hr Hs. unfold dens_flatland. lra.
Qed.
End Inst.

(** ** Where it fails *)
(** Normalised without progress bars: the curve is not normalised, the box is. *)
Lemma sphere_max L rm M : 0 <= L -> 0 < rm -> grid_max (dens_sphere L) rm M -> M = dens_sphere L rm.
Proof.
  intros PL P ((k & K & <-) & B). apply Rle_antisym.
  - apply sphere_rises; [exact PL|]. apply le_INR in K. rewrite INR499 in K. assert (0 <= INR k) by apply pos_INR.
    assert (A : 0 < rm / 499) by (apply Rdiv_lt_0_compat; lra). split; [nra|]. replace rm with (499 * (rm / 499)) at 2 by field. apply Rmult_le_compat_r; lra.
  - specialize (B 499%nat (le_n _)). rewrite INR499 in B. replace (499 * (rm / 499)) with rm in B by field. exact B.
Qed.
Lemma sphere_unit_int rm : RInt (dens_sphere 1) 0 rm = 4 / 3 * PI * rm ^ 3.
Proof. assert (Y : 4 * PI * rm ^ 3 / 3 = 4 / 3 * PI * rm ^ 3) by field. exact (eq_trans (RealSize.sphere_int_value rm) Y). Qed.
Lemma no_progress_wrong L rm M : 0 < L -> 0 < rm -> 1 < 4 / 3 * PI * rm ^ 3 -> grid_max (dens_sphere L) rm M ->
  ~ follows (dens_sphere L) (curve true false (RInt (dens_sphere 1) 0 rm) (dens_sphere L)) (height true (RInt (dens_sphere 1) 0 rm) M) rm.
Proof.
  intros PL P V GM. rewrite (sphere_max L rm M) by (auto; lra). rewrite sphere_unit_int. unfold height, curve. cbn [andb].
  assert (X := PI_RGT_0). set (H := dens_sphere L rm / (4 / 3 * PI * rm ^ 3)).
  assert (HQ : H = 3 * L / rm). { unfold H, dens_sphere, sphere_volume. field. repeat split; lra. }
  assert (PH : 0 < H) by (rewrite HQ; apply Rdiv_lt_0_compat; lra).
  set (x := sqrt (3 / (4 * PI * rm))).
  assert (PX : 0 < 3 / (4 * PI * rm)) by (apply Rdiv_lt_0_compat; [lra|apply Rmult_lt_0_compat; lra]).
  assert (X0 : 0 < x) by (now apply sqrt_lt_R0). assert (XX : x * x = 3 / (4 * PI * rm)) by (apply sqrt_sqrt; lra).
  assert (XH : dens_sphere L x = H). { rewrite HQ. unfold dens_sphere, sphere_volume. replace (L * (4 * PI * x * x) / 1) with (L * (4 * PI) * (x * x)) by field. rewrite XX. field. repeat split; lra. }
  assert (XR : x < rm).
  { apply Rnot_le_lt. intros C. assert (rm * rm <= x * x) by nra. rewrite XX in H0.
    assert (Y : rm * rm * (4 * PI * rm) <= 3 / (4 * PI * rm) * (4 * PI * rm)) by (apply Rmult_le_compat_r; [nra|exact H0]).
    replace (3 / (4 * PI * rm) * (4 * PI * rm)) with 3 in Y by (field; repeat split; lra). replace (rm ^ 3) with (rm * rm * rm) in V by ring. lra. }
  apply (not_follows _ _ _ rm 1 0 x ((x + rm) / 2) rm); try lra.
  - intros r Hr. split; [ring|]. split; [apply sphere_nonneg; lra|apply sphere_continuous].
  - intros r Hr. rewrite <- XH. apply sphere_rises; lra.
  - apply RInt_gt_0; [exact X0| |intros y Hy; apply sphere_continuous]. intros y Hy. unfold dens_sphere, sphere_volume. assert (0 < y * y) by nra. assert (0 < L * (4 * PI)) by nra.
    replace (L * (4 * PI * y * y) / 1) with (L * (4 * PI) * (y * y)) by field. apply Rmult_lt_0_compat; assumption.
  - intros r Hr. rewrite <- XH. unfold dens_sphere, sphere_volume. assert (x * x < r * r) by nra. assert (0 < L * (4 * PI)) by nra.
    assert (L * (4 * PI) * (x * x) < L * (4 * PI) * (r * r)) by (apply Rmult_lt_compat_l; lra). lra.
Qed.
(** A peak between the grid points. *)
Lemma peak_form L r : 0 <= r -> dens_zpow_sphere L (-4) r = L * (4 * PI) * (r / (r + 1) ^ 2) ^ 2.
Proof.
  intros H. rewrite zpow_form by exact H. replace (-4 + 2) with (- (2)) by ring. rewrite Rpower_Ropp. replace (Rpower (r + 1) 2) with ((r + 1) ^ 2).
  - field. lra.
  - rewrite <- Rpower_pow by lra. f_equal.
Qed.
Lemma peak_low r : 0 <= r -> r <= 1/2 \/ 2 <= r -> r / (r + 1) ^ 2 <= 2 / 9.
Proof.
  intros P H. apply (Rmult_le_reg_r ((r + 1) ^ 2)); [apply pow_lt; lra|]. replace (r / (r + 1) ^ 2 * (r + 1) ^ 2) with r by (field; lra). destruct H; nra.
Qed.
Lemma peak_high r : 1/2 < r < 2 -> 2 / 9 < r / (r + 1) ^ 2.
Proof.
  intros H. apply (Rmult_lt_reg_r ((r + 1) ^ 2)); [apply pow_lt; lra|]. replace (r / (r + 1) ^ 2 * (r + 1) ^ 2) with r by (field; lra). nra.
Qed.
Lemma peak_max L M : 0 < L -> grid_max (dens_zpow_sphere L (-4)) 998 M -> M = L * (4 * PI) * (2 / 9) ^ 2.
Proof.
  intros PL ((k & K & <-) & B). assert (X := PI_RGT_0). replace (998 / 499) with 2 in * by field. assert (PK : 0 <= INR k) by apply pos_INR. apply Rle_antisym.
  - rewrite peak_form by lra. apply Rmult_le_compat_l; [nra|]. apply pow_incr. split.
    + apply Rmult_le_pos; [lra|]. left. apply Rinv_0_lt_compat, pow_lt. lra.
    + apply peak_low; [lra|]. destruct k as [|k]; [left; cbn; lra|right]. rewrite S_INR. assert (0 <= INR k) by apply pos_INR. lra.
  - specialize (B 1%nat ltac:(lia)). replace (INR 1 * 2) with 2 in B by (cbn; ring). rewrite peak_form in B by lra. replace (2 / (2 + 1) ^ 2) with (2 / 9) in B by field. exact B.
Qed.
Lemma peak_wrong L M i normalize progress : 0 < L -> (normalize = true -> progress = true) -> 0 < i -> grid_max (dens_zpow_sphere L (-4)) 998 M ->
  ~ follows (dens_zpow_sphere L (-4)) (curve normalize progress i (dens_zpow_sphere L (-4))) (height normalize i M) 998.
Proof.
  intros PL NP PI GM. rewrite (peak_max L M PL GM). assert (X := PI_RGT_0). set (c := L * (4 * Rtrigo1.PI)). assert (PC : 0 < c) by (unfold c; nra).
  assert (IP := Rinv_0_lt_compat _ PI).
  assert (exists k, 0 < k /\ height normalize i (c * (2 / 9) ^ 2) = k * (c * (2 / 9) ^ 2) /\ forall r, curve normalize progress i (dens_zpow_sphere L (-4)) r = k * dens_zpow_sphere L (-4) r) as (k & K & -> & CK).
  { unfold height, curve. destruct normalize; [rewrite (NP eq_refl); exists (/ i)|exists 1]; cbn [andb]; (split; [assumption || lra|]); (split; [unfold Rdiv; ring|]); intros r; unfold Rdiv; ring. }
  assert (N29 : 0 < c * (2 / 9) ^ 2) by (apply Rmult_lt_0_compat; [exact PC|apply pow_lt; lra]).
  apply (not_follows _ _ _ 998 k 2 3 (1/2) 2); try lra.
  - apply Rmult_lt_0_compat; assumption.
  - intros r Hr. split; [apply CK|]. split; [apply zpow_nonneg; lra|apply zpow_continuous; lra].
  - intros r Hr. rewrite CK. apply Rmult_le_compat_l; [lra|]. rewrite peak_form by lra. fold c. apply Rmult_le_compat_l; [lra|]. apply pow_incr. split.
    + apply Rmult_le_pos; [lra|]. left. apply Rinv_0_lt_compat, pow_lt. lra.
    + apply peak_low; lra.
  - apply RInt_gt_0; [lra| |intros y Hy; apply zpow_continuous; lra]. intros y Hy. rewrite peak_form by lra. fold c. apply Rmult_lt_0_compat; [exact PC|]. apply pow_lt. apply Rdiv_lt_0_compat; [lra|apply pow_lt; lra].
  - intros r Hr. rewrite CK. apply Rmult_lt_compat_l; [exact K|]. rewrite peak_form by lra. fold c. apply Rmult_lt_compat_l; [exact PC|]. assert (Z := peak_high r Hr). nra.
Qed.
