From Verif Require Import Base BaseFacts SimVarModel SimVarSpec.

Lemma rmapM_app A B (f : A -> res B) l k :
  rmapM f (l ++ k) = (let? a := rmapM f l in let? b := rmapM f k in Ok (a ++ b)).
Proof.
  induction l as [|x l IH]; cbn.
  - destruct (rmapM f k); reflexivity.
  - destruct (f x); cbn; [|easy]. rewrite IH. destruct (rmapM f l); cbn; [|easy].
    destruct (rmapM f k); reflexivity.
Qed.

Lemma take_where_gen A (m : list bool) : forall (pre suf : list A),
  length suf = length m ->
  np_take (pre ++ suf) (where_from (length pre) m) = Ok (mselect suf m).
Proof.
  induction m as [|b m IH]; intros pre suf H; destruct suf as [|x suf]; cbn in H; try lia.
  - reflexivity.
  - cbn [where_from mselect]. injection H as H.
    assert (K : np_take (pre ++ x :: suf) (where_from (S (length pre)) m) = Ok (mselect suf m)).
    { specialize (IH (pre ++ [x]) suf H). rewrite <- app_assoc in IH.
      rewrite app_length in IH. cbn in IH. replace (length pre + 1) with (S (length pre)) in IH by lia.
      exact IH. }
    destruct b; [|exact K].
    unfold np_take in *. cbn [rmapM].
    rewrite nth_error_app2, Nat.sub_diag by lia. cbn [of_opt nth_error rbind]. rewrite K. reflexivity.
Qed.

Lemma take_where A (l : list A) m : length l = length m -> np_take l (np_where m) = Ok (mselect l m).
Proof. intros H. exact (take_where_gen A m [] l H). Qed.

Lemma mselect_keep A (l : list A) m : mselect l m = keep true l m.
Proof.
  unfold keep. revert m; induction l as [|x l IH]; intros [|b m]; cbn; auto.
  destruct b; cbn; now rewrite IH.
Qed.

Lemma mselect_keep_not A (l : list A) m : mselect l (mnot m) = keep false l m.
Proof.
  unfold keep, mnot. revert m; induction l as [|x l IH]; intros [|b m]; cbn; auto.
  destruct b; cbn; now rewrite IH.
Qed.

Lemma np_get_mask A (l : list A) m : length l = length m ->
  np_get l (IMask (MB m)) = Ok (keep true l m).
Proof.
  intros H. unfold np_get. cbn [item_positions]. rewrite H, Nat.eqb_refl. cbn [rbind].
  rewrite take_where by easy. now rewrite mselect_keep.
Qed.

Lemma keep_length A (l : list A) m : length l = length m -> length (keep true l m) = count m.
Proof. intros H. rewrite <- mselect_keep. now apply mselect_length. Qed.

Lemma keep_length_not A (l : list A) m : length l = length m ->
  length (keep false l m) = count (mnot m).
Proof.
  intros H. rewrite <- mselect_keep_not. apply mselect_length. unfold mnot. now rewrite map_length.
Qed.

Lemma mask_len_ones d n : mask_len (ones_like d n) = n.
Proof. destruct d; cbn; now rewrite ?repeat_length. Qed.
Lemma mask_len_zeros d n : mask_len (zeros_like d n) = n.
Proof. destruct d; cbn; now rewrite ?repeat_length. Qed.

Lemma sv_new_ok A (o l : list A) s d : mask_len s = length o -> length l = length o ->
  sv_new o l s d = Ok (SimVar o l s d).
Proof. intros H1 H2. unfold sv_new. now rewrite H1, H2, !Nat.eqb_refl. Qed.

(** C12 *)
Lemma new_iff A (o l : list A) s d :
  (mask_len s = length o /\ length l = length o -> sv_new o l s d = Ok (SimVar o l s d)) /\
  (~ (mask_len s = length o /\ length l = length o) -> sv_new o l s d = Err AssertionError).
Proof.
  unfold sv_new. destruct (Nat.eqb_spec (mask_len s) (length o)); cbn.
  - destruct (Nat.eqb_spec (length l) (length o)); cbn; split; intros H; try easy; exfalso; tauto.
  - split; intros H; [exfalso; tauto|easy].
Qed.

Lemma selected_eq A (x : simvar A) m : valid x m ->
  sv_selected x = Ok (SimVar (keep true (sv_obs x) m) (keep true (sv_lat x) m)
                             (ones_like (sv_dt x) (count m)) (sv_dt x)).
Proof.
  intros (S & H1 & H2). unfold sv_selected. rewrite S.
  rewrite !np_get_mask by easy. cbn [rbind].
  rewrite keep_length by easy.
  apply sv_new_ok; rewrite ?mask_len_ones, !keep_length; easy.
Qed.

Lemma non_selected_eq A (x : simvar A) m : valid x m ->
  sv_non_selected x = Ok (SimVar (keep false (sv_obs x) m) (keep false (sv_lat x) m)
                             (zeros_like (sv_dt x) (count (mnot m))) (sv_dt x)).
Proof.
  intros (S & H1 & H2). unfold sv_non_selected. rewrite S. cbn [mask_not rbind].
  assert (L : length (mnot m) = length m) by (unfold mnot; apply map_length).
  rewrite !np_get_mask by lia. cbn [rbind].
  rewrite keep_length by lia.
  rewrite <- !mselect_keep, !mselect_keep_not.
  apply sv_new_ok; rewrite ?mask_len_zeros, !keep_length_not; easy.
Qed.

Lemma merge_keep A (l : list A) m : length l = length m ->
  merge m (keep true l m) (keep false l m) = l.
Proof.
  unfold keep. revert m; induction l as [|x l IH]; intros [|b m]; cbn; try easy.
  intros H. injection H as H. specialize (IH m H). destruct b; cbn; now rewrite IH.
Qed.

Lemma partition A (x : simvar A) m : valid x m ->
  exists y z, sv_selected x = Ok y /\ sv_non_selected x = Ok z /\
    sv_obs y = keep true (sv_obs x) m /\ sv_lat y = keep true (sv_lat x) m /\
    sv_obs z = keep false (sv_obs x) m /\ sv_lat z = keep false (sv_lat x) m /\
    merge m (sv_obs y) (sv_obs z) = sv_obs x /\ merge m (sv_lat y) (sv_lat z) = sv_lat x /\
    length (sv_obs y) + length (sv_obs z) = length (sv_obs x).
Proof.
  intros Hv. rewrite (selected_eq _ _ _ Hv), (non_selected_eq _ _ _ Hv).
  destruct Hv as (S & H1 & H2). do 2 eexists. repeat split; cbn [sv_obs sv_lat].
  - now apply merge_keep.
  - now apply merge_keep.
  - rewrite keep_length, keep_length_not by easy. rewrite count_mnot. lia.
Qed.

(** C13 *)
Lemma keep_map A B (f : A -> B) l m b : keep b (map f l) m = map f (keep b l m).
Proof.
  unfold keep. revert m; induction l as [|x l IH]; intros [|c m]; cbn; auto.
  destruct (Bool.eqb c b); cbn; now rewrite IH.
Qed.

Lemma keep_map2 A B C (f : A -> B -> C) b l k m :
  keep b (map (fun p => f (fst p) (snd p)) (combine l k)) m =
  map (fun p => f (fst p) (snd p)) (combine (keep b l m) (keep b k m)).
Proof.
  unfold keep. revert k m; induction l as [|x l IH]; intros [|y k] [|c m]; cbn; auto.
  - now rewrite combine_nil.
  - destruct (Bool.eqb c b); cbn; now rewrite IH.
Qed.

Lemma ufunc1_eq A C dt (f : A -> C) x m : valid x m ->
  ufunc1 dt f x = Ok (SimVar (map f (sv_obs x)) (map f (sv_lat x)) (MB m) dt) /\
  valid (SimVar (map f (sv_obs x)) (map f (sv_lat x)) (MB m) dt) m.
Proof.
  intros (S & H1 & H2). split.
  - unfold ufunc1. rewrite S. apply sv_new_ok; cbn; rewrite !map_length; lia.
  - repeat split; cbn; rewrite map_length; lia.
Qed.

Definition psize (b : bool) (m : list bool) : nat := if b then count m else count (mnot m).

Lemma keep_psize A b (l : list A) m : length l = length m -> length (keep b l m) = psize b m.
Proof. destruct b; [apply keep_length|apply keep_length_not]. Qed.

Lemma part_eq A b (x : simvar A) m : valid x m ->
  exists s, mask_len s = psize b m /\ part b x = Ok (SimVar (keep b (sv_obs x) m) (keep b (sv_lat x) m) s (sv_dt x)).
Proof.
  intros Hv. destruct b; cbn [part psize].
  - rewrite (selected_eq _ _ _ Hv). eexists. split; [|reflexivity]. apply mask_len_ones.
  - rewrite (non_selected_eq _ _ _ Hv). eexists. split; [|reflexivity]. apply mask_len_zeros.
Qed.

Lemma ufunc1_selected A C dt (f : A -> C) b x m : valid x m ->
  exists y ys xs z, ufunc1 dt f x = Ok y /\ part b y = Ok ys /\
    part b x = Ok xs /\ ufunc1 dt f xs = Ok z /\
    sv_obs ys = sv_obs z /\ sv_lat ys = sv_lat z.
Proof.
  intros Hv. destruct (ufunc1_eq A C dt f x m Hv) as [-> Hy].
  destruct (part_eq _ b _ _ Hy) as (sy & Ly & Ey). destruct (part_eq _ b _ _ Hv) as (sx & Lx & Ex).
  do 4 eexists. split; [reflexivity|]. split; [exact Ey|].
  split; [exact Ex|]. destruct Hv as (S & H1 & H2). split.
  - unfold ufunc1. cbn [sv_obs sv_lat sv_sel]. apply sv_new_ok.
    + now rewrite map_length, keep_psize.
    + now rewrite !map_length, !keep_psize.
  - cbn [sv_obs sv_lat]. now rewrite !keep_map.
Qed.

Definition map2 {A B C} (f : A -> B -> C) (a : list A + A) (b : list B + B) : list C :=
  match a, b with
  | inl x, inl y => map (fun p => f (fst p) (snd p)) (combine x y)
  | inl x, inr b0 => map (fun a0 => f a0 b0) x
  | inr a0, inl y => map (f a0) y
  | inr _, inr _ => nil
  end.

Definition arg_len {A} (n : nat) (a : list A + A) : Prop :=
  match a with inl l => length l = n | inr _ => True end.
Definition one_array {A B} (a : list A + A) (b : list B + B) : Prop :=
  match a, b with inr _, inr _ => False | _, _ => True end.

Lemma ev2_eq A B C (f : A -> B -> C) n a b : arg_len n a -> arg_len n b -> one_array a b ->
  ev2 f a b = Ok (map2 f a b) /\ length (map2 f a b) = n.
Proof.
  destruct a as [x|a0], b as [y|b0]; cbn; intros H1 H2 O; try easy.
  - rewrite bcast2_same by congruence. split; [easy|].
    rewrite map_length, combine_length. lia.
  - split; [easy|]. now rewrite map_length.
  - split; [easy|]. now rewrite map_length.
Qed.

Lemma fits_obs A m (o : operand A) : fits m o -> arg_len (length m) (obs_arg o).
Proof. destruct o as [x|l|a]; cbn; auto. now intros (_ & H & _). Qed.
Lemma fits_lat A m (o : operand A) : fits m o -> arg_len (length m) (lat_arg o).
Proof. destruct o as [x|l|a]; cbn; auto. now intros (_ & _ & H). Qed.
Lemma has_var_one A B (a : operand A) (b : operand B) : has_var a b ->
  one_array (obs_arg a) (obs_arg b) /\ one_array (lat_arg a) (lat_arg b).
Proof. intros [[x ->]|[y ->]]; cbn; [easy|]. destruct a; easy. Qed.

Lemma ufunc2_eq A B C dt (f : A -> B -> C) a b m :
  fits m a -> fits m b -> has_var a b ->
  let r := SimVar (map2 f (obs_arg a) (obs_arg b)) (map2 f (lat_arg a) (lat_arg b)) (MB m) dt in
  ufunc2 dt f a b = Ok r /\ valid r m.
Proof.
  intros Fa Fb Hv. cbn zeta.
  destruct (has_var_one _ _ _ _ Hv) as [O1 O2].
  destruct (ev2_eq _ _ _ f _ _ _ (fits_obs _ _ _ Fa) (fits_obs _ _ _ Fb) O1) as [E1 L1].
  destruct (ev2_eq _ _ _ f _ _ _ (fits_lat _ _ _ Fa) (fits_lat _ _ _ Fb) O2) as [E2 L2].
  split.
  - unfold ufunc2. rewrite E1, E2. cbn [rbind].
    destruct Hv as [[x ->]|[y ->]].
    + cbn in Fa. destruct Fa as (S & _ & _). rewrite S. apply sv_new_ok; cbn [mask_len]; congruence.
    + cbn in Fb. destruct Fb as (Sy & _ & _).
      destruct a as [x|l|a0].
      * cbn in Fa. destruct Fa as (S & _ & _). rewrite S. apply sv_new_ok; cbn [mask_len]; congruence.
      * rewrite Sy. apply sv_new_ok; cbn [mask_len]; congruence.
      * rewrite Sy. apply sv_new_ok; cbn [mask_len]; congruence.
  - repeat split; cbn [sv_obs sv_lat]; easy.
Qed.

Lemma map2_nth A B C (f : A -> B -> C) (a : operand A) (b : operand B) i :
  has_var a b ->
  nth_error (map2 f (obs_arg a) (obs_arg b)) i =
    match obs_at a i, obs_at b i with Some x, Some y => Some (f x y) | _, _ => None end /\
  nth_error (map2 f (lat_arg a) (lat_arg b)) i =
    match lat_at a i, lat_at b i with Some x, Some y => Some (f x y) | _, _ => None end.
Proof.
  intros [[x ->]|[y ->]].
  - destruct b; cbn [obs_arg lat_arg map2 obs_at lat_at]; split;
    try apply nth_map_combine; rewrite nth_error_map;
    match goal with |- option_map _ ?o = _ => now destruct o end.
  - destruct a; cbn [obs_arg lat_arg map2 obs_at lat_at]; split;
    try apply nth_map_combine; rewrite nth_error_map;
    match goal with |- option_map _ ?o = _ => now destruct o end.
Qed.

Lemma ufunc2_pointwise A B C dt (f : A -> B -> C) a b m :
  fits m a -> fits m b -> has_var a b ->
  exists r, ufunc2 dt f a b = Ok r /\ valid r m /\
    forall i,
      nth_error (sv_obs r) i =
        match obs_at a i, obs_at b i with Some x, Some y => Some (f x y) | _, _ => None end /\
      nth_error (sv_lat r) i =
        match lat_at a i, lat_at b i with Some x, Some y => Some (f x y) | _, _ => None end.
Proof.
  intros Fa Fb Hv. destruct (ufunc2_eq A B C dt f a b m Fa Fb Hv) as [E V].
  eexists. split; [exact E|]. split; [exact V|]. intros i. cbn [sv_obs sv_lat].
  now apply map2_nth.
Qed.

Definition arg_keep {A} (b : bool) (m : list bool) (a : list A + A) : list A + A :=
  match a with inl l => inl (keep b l m) | inr a0 => inr a0 end.

Lemma keep_map2_arg A B C (f : A -> B -> C) c m a b : one_array a b ->
  keep c (map2 f a b) m = map2 f (arg_keep c m a) (arg_keep c m b).
Proof.
  destruct a as [x|a0], b as [y|b0]; cbn; intros O; try easy.
  - apply keep_map2.
  - apply keep_map.
  - apply keep_map.
Qed.

Lemma restrict_ok A c m (a : operand A) : fits m a ->
  exists a', restrict c m a = Ok a' /\ obs_arg a' = arg_keep c m (obs_arg a) /\
             lat_arg a' = arg_keep c m (lat_arg a) /\
             (forall x, a = OVar x -> exists y, a' = OVar y /\ mask_len (sv_sel y) = psize c m).
Proof.
  destruct a as [x|l|a0]; cbn [fits restrict]; intros F.
  - destruct (part_eq _ c _ _ F) as (s & Ls & ->). cbn [rmap]. eexists. repeat split.
    intros x0 Hx. eexists. split; [reflexivity|]. exact Ls.
  - eexists. repeat split. congruence.
  - eexists. repeat split. congruence.
Qed.

Lemma arg_keep_len A c m (a : list A + A) : arg_len (length m) a -> arg_len (psize c m) (arg_keep c m a).
Proof. destruct a as [l|a0]; cbn; auto. intros H. now apply keep_psize. Qed.

Lemma one_array_keep A B c m (a : list A + A) (b : list B + B) : one_array a b ->
  one_array (arg_keep c m a) (arg_keep c m b).
Proof. now destruct a, b. Qed.

Lemma ufunc2_selected A B C dt (f : A -> B -> C) c a b m :
  fits m a -> fits m b -> has_var a b ->
  exists r rs a' b' r', ufunc2 dt f a b = Ok r /\ part c r = Ok rs /\
    restrict c m a = Ok a' /\ restrict c m b = Ok b' /\ ufunc2 dt f a' b' = Ok r' /\
    sv_obs rs = sv_obs r' /\ sv_lat rs = sv_lat r'.
Proof.
  intros Fa Fb Hv. destruct (ufunc2_eq A B C dt f a b m Fa Fb Hv) as [E V].
  destruct (restrict_ok _ c _ _ Fa) as (a' & Ra & Oa & La & Va).
  destruct (restrict_ok _ c _ _ Fb) as (b' & Rb & Ob & Lb & Vb).
  destruct (has_var_one _ _ _ _ Hv) as [O1 O2].
  assert (X1 : ev2 f (obs_arg a') (obs_arg b') = Ok (map2 f (obs_arg a') (obs_arg b')) /\
               length (map2 f (obs_arg a') (obs_arg b')) = psize c m).
  { rewrite Oa, Ob. apply ev2_eq; try (apply arg_keep_len, fits_obs; assumption). now apply one_array_keep. }
  assert (X2 : ev2 f (lat_arg a') (lat_arg b') = Ok (map2 f (lat_arg a') (lat_arg b')) /\
               length (map2 f (lat_arg a') (lat_arg b')) = psize c m).
  { rewrite La, Lb. apply ev2_eq; try (apply arg_keep_len, fits_lat; assumption). now apply one_array_keep. }
  destruct X1 as [E1 L1], X2 as [E2 L2].
  assert (X3 : exists s, mask_len s = psize c m /\
    ufunc2 dt f a' b' = Ok (SimVar (map2 f (obs_arg a') (obs_arg b')) (map2 f (lat_arg a') (lat_arg b')) s dt)).
  { destruct Hv as [[x ->]|[y ->]].
    - destruct (Va x eq_refl) as (y & -> & My). exists (sv_sel y). split; [easy|].
      unfold ufunc2. rewrite E1, E2. cbn [rbind]. apply sv_new_ok; congruence.
    - destruct (Vb y eq_refl) as (z & -> & Mz).
      destruct a as [x|l|a0].
      + destruct (Va x eq_refl) as (w & -> & Mw). exists (sv_sel w). split; [easy|].
        unfold ufunc2. rewrite E1, E2. cbn [rbind]. apply sv_new_ok; congruence.
      + cbn in Ra. injection Ra as <-. exists (sv_sel z). split; [easy|].
        unfold ufunc2. rewrite E1, E2. cbn [rbind]. apply sv_new_ok; congruence.
      + cbn in Ra. injection Ra as <-. exists (sv_sel z). split; [easy|].
        unfold ufunc2. rewrite E1, E2. cbn [rbind]. apply sv_new_ok; congruence. }
  destruct X3 as (s & _ & X3).
  destruct (part_eq _ c _ _ V) as (sr & _ & Er).
  do 5 eexists. split; [exact E|]. split; [exact Er|].
  split; [exact Ra|]. split; [exact Rb|]. split; [exact X3|].
  cbn [sv_obs sv_lat]. rewrite Oa, Ob, La, Lb.
  now rewrite !keep_map2_arg.
Qed.

(** C14 *)
Lemma selected_twice_float A (x : simvar A) m : valid x m -> sv_dt x = DFloat ->
  exists y, sv_selected x = Ok y /\ sv_selected y = Err IndexError /\ sv_non_selected y = Err TypeError.
Proof.
  intros Hv D. rewrite (selected_eq _ _ _ Hv), D. eexists. split; [reflexivity|]. split; reflexivity.
Qed.

Lemma keep_all A (l : list A) n : length l = n -> keep true l (repeat true n) = l.
Proof.
  intros <-. unfold keep. induction l as [|x l IH]; cbn; auto. now rewrite IH.
Qed.
Lemma keep_none A (l : list A) n : keep false l (repeat true n) = [].
Proof.
  unfold keep. revert n; induction l as [|x l IH]; intros [|n]; cbn; auto.
Qed.
Lemma count_repeat n : count (repeat true n) = n.
Proof. induction n; cbn; auto. Qed.

Lemma selected_twice_bool A (x : simvar A) m : valid x m -> sv_dt x = DBool ->
  exists y, sv_selected x = Ok y /\ sv_selected y = Ok y /\
    exists z, sv_non_selected y = Ok z /\ sv_obs z = [] /\ sv_lat z = [].
Proof.
  intros Hv D. rewrite (selected_eq _ _ _ Hv), D. eexists. split; [reflexivity|].
  destruct Hv as (S & H1 & H2).
  assert (VY : valid (SimVar (keep true (sv_obs x) m) (keep true (sv_lat x) m) (ones_like DBool (count m)) DBool)
                     (repeat true (count m))).
  { repeat split; cbn; rewrite repeat_length; now rewrite keep_length. }
  split.
  - rewrite (selected_eq _ _ _ VY). cbn [sv_obs sv_lat sv_dt ones_like]. rewrite count_repeat.
    rewrite !keep_all by now rewrite keep_length. reflexivity.
  - rewrite (non_selected_eq _ _ _ VY). eexists. split; [reflexivity|]. cbn [sv_obs sv_lat]. now rewrite !keep_none.
Qed.

(** For integers the second selection repeats the entry at position one. *)
Lemma rmapM_repeat A B (f : A -> res B) a b n : f a = Ok b -> rmapM f (repeat a n) = Ok (repeat b n).
Proof. intros H. induction n as [|n IH]; cbn; auto. now rewrite H, IH. Qed.

Lemma np_get_ones A (l : list A) n a : nth_error l 1 = Some a ->
  np_get l (IMask (MI (repeat 1%Z n))) = Ok (repeat a n).
Proof.
  intros H. unfold np_get. cbn [item_positions].
  rewrite (rmapM_repeat _ _ _ _ 1).
  - cbn [rbind]. unfold np_take. apply rmapM_repeat. now rewrite H.
  - unfold py_index. cbn [Z.leb Z.compare].
    assert (1 < length l) by (apply nth_error_Some; congruence).
    destruct (Z.ltb_spec 1 (Z.of_nat (length l))); [reflexivity|lia].
Qed.

Lemma selected_twice_int A (x : simvar A) m a a' : valid x m -> sv_dt x = DInt ->
  nth_error (keep true (sv_obs x) m) 1 = Some a -> nth_error (keep true (sv_lat x) m) 1 = Some a' ->
  exists y z, sv_selected x = Ok y /\ sv_selected y = Ok z /\
    sv_obs z = repeat a (count m) /\ sv_lat z = repeat a' (count m).
Proof.
  intros Hv D H1 H2. rewrite (selected_eq _ _ _ Hv), D. do 2 eexists. split; [reflexivity|].
  unfold sv_selected. cbn [sv_obs sv_lat sv_sel sv_dt ones_like].
  rewrite (np_get_ones _ _ _ _ H1), (np_get_ones _ _ _ _ H2). cbn [rbind].
  split; [apply sv_new_ok; cbn; now rewrite !repeat_length|]. easy.
Qed.

(** C15 *)
Section InPlace.
Variable A : Type.
Implicit Types h : list (list A).

Lemma inplace_separate (f : A -> A) x h o l :
  sr_obs x <> sr_lat x ->
  nth_error h (sr_obs x) = Some o -> nth_error h (sr_lat x) = Some l -> length l = length o ->
  exists h', inplace f x h = Ok h' /\
    nth_error h' (sr_obs x) = Some (map f l) /\ nth_error h' (sr_lat x) = Some l /\
    forall b, b <> sr_obs x -> nth_error h' b = nth_error h b.
Proof.
  intros N Ho Hl L. unfold inplace. rewrite Ho. cbn [of_opt rbind].
  rewrite nth_lset_neq by easy. rewrite Hl. cbn [of_opt rbind]. rewrite L, Nat.eqb_refl.
  eexists. split; [reflexivity|].
  assert (LO : sr_obs x < length h) by (apply nth_error_Some; congruence).
  repeat split.
  - apply nth_lset_eq. now rewrite lset_length.
  - now rewrite !nth_lset_neq.
  - intros b Nb. now rewrite !nth_lset_neq by congruence.
Qed.

Lemma inplace_shared (f : A -> A) x h o :
  sr_obs x = sr_lat x -> nth_error h (sr_obs x) = Some o ->
  exists h', inplace f x h = Ok h' /\
    nth_error h' (sr_obs x) = Some (map f (map f o)) /\
    nth_error h' (sr_lat x) = Some (map f (map f o)) /\
    forall b, b <> sr_obs x -> nth_error h' b = nth_error h b.
Proof.
  intros EQ Ho. unfold inplace. rewrite <- EQ, Ho. cbn [of_opt rbind].
  assert (LO : sr_obs x < length h) by (apply nth_error_Some; congruence).
  rewrite nth_lset_eq by easy. cbn [of_opt rbind]. rewrite map_length, Nat.eqb_refl.
  eexists. split; [reflexivity|]. repeat split.
  - apply nth_lset_eq. now rewrite lset_length.
  - apply nth_lset_eq. now rewrite lset_length.
  - intros b Nb. now rewrite !nth_lset_neq by congruence.
Qed.
End InPlace.

(** C16 *)
Lemma np_take_nth A (l : list A) p r : np_take l p = Ok r ->
  length r = length p /\
  forall j q, nth_error p j = Some q -> nth_error r j = nth_error l q /\ q < length l.
Proof.
  intros H. split; [eapply rmapM_length; eassumption|].
  intros j q J. pose proof (rmapM_nth _ _ j H) as N. rewrite J in N.
  destruct N as (y & Hy & Ny).
  destruct (nth_error l q) eqn:Q; [|discriminate]. cbn in Hy. injection Hy as ->.
  split; [congruence|]. apply nth_error_Some. congruence.
Qed.

Lemma mask_get_spec m it s p : item_positions (mask_len m) it = Ok p ->
  (forall j q, nth_error p j = Some q -> q < mask_len m) ->
  mask_get m it = Ok s ->
  mask_len s = length p /\
  forall j q, nth_error p j = Some q -> mask_entry s j = mask_entry m q.
Proof.
  intros P B. unfold mask_get. rewrite P. cbn [rbind]. destruct m as [l|l|n].
  - destruct (np_take l p) as [r|] eqn:T; [|discriminate]. cbn. intros H. injection H as <-.
    destruct (np_take_nth _ _ _ _ T) as [L N]. split; [exact L|].
    intros j q J. cbn. now rewrite (proj1 (N j q J)).
  - destruct (np_take l p) as [r|] eqn:T; [|discriminate]. cbn. intros H. injection H as <-.
    destruct (np_take_nth _ _ _ _ T) as [L N]. split; [exact L|].
    intros j q J. cbn. now rewrite (proj1 (N j q J)).
  - intros H. injection H as <-. split; [easy|]. intros j q J. specialize (B j q J). cbn [mask_entry mask_len] in *.
    assert (j < length p) by (apply nth_error_Some; congruence).
    apply Nat.ltb_lt in B, H. now rewrite B, H.
Qed.

Lemma getitem_core A (x : simvar A) it y :
  mask_len (sv_sel x) = length (sv_obs x) -> length (sv_lat x) = length (sv_obs x) ->
  (let? o := np_get (sv_obs x) it in
   let? l := np_get (sv_lat x) it in
   let? s := mask_get (sv_sel x) it in
   rmap (@inr A (simvar A)) (sv_new o l s (sv_dt x))) = Ok (inr y) ->
  exists p, item_positions (length (sv_obs x)) it = Ok p /\ aligned x y p.
Proof.
  intros HM HL H.
  unfold np_get in H. rewrite HL in H.
  destruct (item_positions (length (sv_obs x)) it) as [p|] eqn:P; [|discriminate]. cbn [rbind] in H.
  destruct (np_take (sv_obs x) p) as [o|] eqn:T1; [|discriminate]. cbn [rbind] in H.
  destruct (np_take (sv_lat x) p) as [l|] eqn:T2; [|discriminate]. cbn [rbind] in H.
  destruct (np_take_nth _ _ _ _ T1) as [L1 N1]. destruct (np_take_nth _ _ _ _ T2) as [L2 N2].
  destruct (mask_get (sv_sel x) it) as [s|] eqn:G; [|discriminate]. cbn [rbind] in H.
  assert (P2 := P). rewrite <- HM in P2.
  assert (B : forall j q, nth_error p j = Some q -> q < mask_len (sv_sel x)).
  { intros j q J. rewrite HM. apply (N1 j q J). }
  destruct (mask_get_spec _ _ _ _ P2 B G) as [L3 N3].
  unfold sv_new in H. rewrite L3, L1, L2, !Nat.eqb_refl in H. cbn in H. injection H as <-.
  exists p. split; [easy|]. unfold aligned. cbn [sv_obs sv_lat sv_sel].
  split; [easy|]. split; [easy|]. split; [easy|]. intros j q J.
  split; [apply (N1 j q J)|]. split; [apply (N1 j q J)|]. split; [apply (N2 j q J)|apply (N3 j q J)].
Qed.

Lemma getitem_aligned A (x : simvar A) it y :
  mask_len (sv_sel x) = length (sv_obs x) -> length (sv_lat x) = length (sv_obs x) ->
  sv_getitem x it = Ok (inr y) ->
  exists p, item_positions (length (sv_obs x)) it = Ok p /\ aligned x y p.
Proof.
  intros HM HL H. unfold sv_getitem in H.
  destruct it as [i|m|a b c].
  { destruct (py_index _ i); [|discriminate]. cbn in H.
    destruct (nth_error _ _); discriminate. }
  all: now apply getitem_core.
Qed.

Lemma getitem_total A (x : simvar A) it p :
  mask_len (sv_sel x) = length (sv_obs x) -> length (sv_lat x) = length (sv_obs x) ->
  (forall i, it <> IInt i) ->
  item_positions (length (sv_obs x)) it = Ok p -> (forall q, In q p -> q < length (sv_obs x)) ->
  exists y, sv_getitem x it = Ok (inr y).
Proof.
  intros HM HL NI P B.
  assert (TK : forall T (l : list T), length l = length (sv_obs x) -> exists r, np_take l p = Ok r /\ length r = length p).
  { intros T l L. clear P. induction p as [|q p IH]; cbn; [eauto|].
    assert (q < length l) by (rewrite L; apply B; now left).
    apply nth_error_Some in H. destruct (nth_error l q); [|easy]. cbn.
    destruct IH as (r & E & Lr); [intros; apply B; now right|].
    unfold np_take in E. rewrite E. cbn. eexists. split; [reflexivity|]. cbn. lia. }
  destruct (TK _ (sv_obs x) eq_refl) as (o & To & Lo).
  destruct (TK _ (sv_lat x) HL) as (l & Tl & Ll).
  assert (G : exists s, mask_get (sv_sel x) it = Ok s /\ mask_len s = length p).
  { unfold mask_get. rewrite HM, P. cbn [rbind]. destruct (sv_sel x) as [m|m|n]; cbn in HM.
    - destruct (TK _ m HM) as (r & -> & Lr). cbn. eauto.
    - destruct (TK _ m HM) as (r & -> & Lr). cbn. eauto.
    - eexists. split; [reflexivity|]. easy. }
  destruct G as (s & G & Ls).
  unfold sv_getitem, np_get. rewrite HL, P. cbn [rbind]. rewrite To, Tl, G. cbn [rbind].
  rewrite sv_new_ok by congruence.
  destruct it; [now exfalso; eapply NI| |]; cbn; eauto.
Qed.

Lemma item_positions_bound n it p q :
  item_positions n it = Ok p -> In q p -> q < n.
Proof.
  assert (PI : forall i k, py_index n i = Ok k -> k < n).
  { intros i k. unfold py_index.
    destruct (Z.leb_spec 0 i).
    - destruct (Z.ltb_spec i (Z.of_nat n)); [|discriminate]. intros H1. injection H1 as <-. lia.
    - destruct (Z.leb_spec 0 (i + Z.of_nat n)); [|discriminate]. intros H1. injection H1 as <-. lia. }
  destruct it as [i|[m|z|k]|a b c]; cbn [item_positions].
  - destruct (py_index n i) as [k|] eqn:E; [|discriminate]. cbn. intros H. injection H as <-.
    intros [<-|[]]. eauto.
  - destruct (Nat.eqb_spec (length m) n) as [<-|]; [|discriminate]. intros H. injection H as <-.
    intros I. apply In_np_where in I. apply nth_error_Some. congruence.
  - intros H I. apply In_nth_error in I. destruct I as (j & J).
    pose proof (rmapM_nth _ _ j H) as N.
    destruct (nth_error z j) as [i|].
    + destruct N as (y & Hy & Ny). assert (y = q) by congruence. subst. eauto.
    + congruence.
  - discriminate.
  - intros H. injection H as <-. intros I. apply filter_In in I. destruct I as [I _].
    apply in_seq in I. lia.
Qed.

Lemma getitem_int A (x : simvar A) i :
  ((- Z.of_nat (length (sv_obs x)) <= i < Z.of_nat (length (sv_obs x)))%Z ->
     exists a, sv_getitem x (IInt i) = Ok (inl a) /\
       nth_error (sv_obs x) (Z.to_nat (if (0 <=? i)%Z then i else (i + Z.of_nat (length (sv_obs x)))%Z)) = Some a) /\
  (~ (- Z.of_nat (length (sv_obs x)) <= i < Z.of_nat (length (sv_obs x)))%Z ->
     sv_getitem x (IInt i) = Err IndexError).
Proof.
  unfold sv_getitem, py_index.
  destruct (Z.leb_spec 0 i).
  - destruct (Z.ltb_spec i (Z.of_nat (length (sv_obs x)))); cbn.
    + split; [intros _|intros N; exfalso; lia].
      destruct (nth_error (sv_obs x) (Z.to_nat i)) eqn:E; [eexists; split; reflexivity|].
      apply nth_error_None in E. lia.
    + split; [intros N; exfalso; lia|easy].
  - destruct (Z.leb_spec 0 (i + Z.of_nat (length (sv_obs x)))); cbn.
    + split; [intros _|intros N; exfalso; lia].
      destruct (nth_error (sv_obs x) (Z.to_nat (i + Z.of_nat (length (sv_obs x))))) eqn:E; [eexists; split; reflexivity|].
      apply nth_error_None in E. lia.
    + split; [intros N; exfalso; lia|easy].
Qed.

Lemma getitem_total' A (x : simvar A) it p :
  mask_len (sv_sel x) = length (sv_obs x) -> length (sv_lat x) = length (sv_obs x) ->
  (forall i, it <> IInt i) -> item_positions (length (sv_obs x)) it = Ok p ->
  exists y, sv_getitem x it = Ok (inr y).
Proof.
  intros HM HL NI P. eapply getitem_total; eauto. intros q. eapply item_positions_bound; eauto.
Qed.

(** C13: indexing. *)
Lemma np_take_ok A (l : list A) p : (forall q, In q p -> q < length l) -> exists r, np_take l p = Ok r.
Proof.
  intros B. unfold np_take. induction p as [|q p IH]; cbn; [eauto|].
  assert (H : q < length l) by (apply B; now left). apply nth_error_Some in H.
  destruct (nth_error l q); [|easy]. cbn.
  destruct IH as (r & E); [intros; apply B; now right|]. unfold np_take in E. rewrite E. cbn. eauto.
Qed.

Lemma getitem_eq A (x : simvar A) it p m o l ms :
  valid x m -> (forall i, it <> IInt i) ->
  item_positions (length m) it = Ok p ->
  np_take (sv_obs x) p = Ok o -> np_take (sv_lat x) p = Ok l -> np_take m p = Ok ms ->
  sv_getitem x it = Ok (inr (SimVar o l (MB ms) (sv_dt x))).
Proof.
  intros (S & H1 & H2) NI P To Tl Tm.
  destruct (np_take_nth _ _ _ _ To) as [Lo _]. destruct (np_take_nth _ _ _ _ Tl) as [Ll _].
  destruct (np_take_nth _ _ _ _ Tm) as [Lm _].
  unfold sv_getitem. destruct it as [i| |]; [now destruct (NI i)| |];
  unfold np_get, mask_get; rewrite S; cbn [mask_len]; rewrite H1, H2, P; cbn [rbind];
  rewrite To, Tl, Tm; cbn [rmap rbind]; rewrite sv_new_ok by (cbn; congruence); reflexivity.
Qed.

Definition arg_take {A} (p : list nat) (a : list A + A) (a' : list A + A) : Prop :=
  match a, a' with
  | inl l, inl r => np_take l p = Ok r
  | inr x, inr y => x = y
  | _, _ => False
  end.

Lemma pick_ok A (a : operand A) it p m : fits m a -> (forall i, it <> IInt i) ->
  item_positions (length m) it = Ok p ->
  exists a', pick it a = Ok a' /\ arg_take p (obs_arg a) (obs_arg a') /\ arg_take p (lat_arg a) (lat_arg a') /\
    match a with
    | OVar x => exists y ms, a' = OVar y /\ np_take m p = Ok ms /\ sv_sel y = MB ms
    | OArr _ => exists l, a' = OArr l
    | OScal _ => exists c, a' = OScal c
    end.
Proof.
  intros F NI P.
  assert (B : forall q, In q p -> q < length m) by (intros q; now apply (item_positions_bound _ _ _ _ P)).
  destruct a as [x|l|c]; cbn [fits] in F.
  - pose proof F as (S & H1 & H2).
    destruct (np_take_ok _ (sv_obs x) p) as (o & To); [now rewrite H1|].
    destruct (np_take_ok _ (sv_lat x) p) as (l & Tl); [now rewrite H2|].
    destruct (np_take_ok _ m p B) as (ms & Tm).
    cbn [pick]. rewrite (getitem_eq _ _ _ _ _ _ _ _ F NI P To Tl Tm). cbn [rbind].
    eexists. split; [reflexivity|]. split; [exact To|]. split; [exact Tl|].
    do 2 eexists. split; [reflexivity|]. split; [exact Tm|reflexivity].
  - destruct (np_take_ok _ l p) as (o & To); [now rewrite F|].
    cbn [pick]. unfold np_get. rewrite F, P. cbn [rbind]. rewrite To. cbn [rmap].
    eexists. split; [reflexivity|]. split; [exact To|]. split; [exact To|eauto].
  - cbn [pick]. eexists. split; [reflexivity|]. cbn. repeat split. eauto.
Qed.

Lemma np_take_map2 A B C (f : A -> B -> C) p a b a' b' n :
  arg_len n a -> arg_len n b -> one_array a b -> (forall q, In q p -> q < n) ->
  arg_take p a a' -> arg_take p b b' ->
  np_take (map2 f a b) p = Ok (map2 f a' b') /\ ev2 f a' b' = Ok (map2 f a' b') /\
  length (map2 f a' b') = length p.
Proof.
  intros La Lb O Bd Ta Tb.
  destruct (ev2_eq _ _ _ f n a b La Lb O) as [_ L].
  assert (La' : arg_len (length p) a').
  { destruct a as [l|c], a' as [l'|c']; cbn in *; try easy. eapply rmapM_length; eassumption. }
  assert (Lb' : arg_len (length p) b').
  { destruct b as [l|c], b' as [l'|c']; cbn in *; try easy. eapply rmapM_length; eassumption. }
  assert (O' : one_array a' b') by (destruct a, b, a', b'; easy).
  destruct (ev2_eq _ _ _ f _ a' b' La' Lb' O') as [E' L'].
  destruct (np_take_ok _ (map2 f a b) p) as (r & Tr); [intros q I; rewrite L; auto|].
  destruct (np_take_nth _ _ _ _ Tr) as [Lr Nr].
  split; [|easy]. rewrite Tr. f_equal. apply list_ext. intros j.
  destruct (nth_error p j) as [q|] eqn:J.
  - rewrite (proj1 (Nr j q J)).
    assert (Na : match a, a' with inl l, inl l' => nth_error l' j = nth_error l q | _, _ => True end).
    { destruct a, a'; try easy. apply (np_take_nth _ _ _ _ Ta). easy. }
    assert (Nb : match b, b' with inl l, inl l' => nth_error l' j = nth_error l q | _, _ => True end).
    { destruct b, b'; try easy. apply (np_take_nth _ _ _ _ Tb). easy. }
    destruct a as [la|ca], a' as [la'|ca']; try easy; destruct b as [lb|cb], b' as [lb'|cb']; try easy;
      cbn [map2]; rewrite ?nth_map_combine, ?nth_error_map, ?Na, ?Nb; try easy; cbn in Ta, Tb; subst; reflexivity.
  - apply nth_error_None in J.
    transitivity (@None C); [|symmetry]; apply nth_error_None; lia.
Qed.

Lemma ufunc2_index A B C dt (f : A -> B -> C) a b m it p :
  fits m a -> fits m b -> has_var a b -> (forall i, it <> IInt i) ->
  item_positions (length m) it = Ok p ->
  exists r a' b' r', ufunc2 dt f a b = Ok r /\ pick it a = Ok a' /\ pick it b = Ok b' /\
    sv_getitem r it = Ok (inr r') /\ ufunc2 dt f a' b' = Ok r'.
Proof.
  intros Fa Fb Hv NI P.
  assert (Bd : forall q, In q p -> q < length m) by (intros q; now apply (item_positions_bound _ _ _ _ P)).
  destruct (ufunc2_eq A B C dt f a b m Fa Fb Hv) as [E V].
  destruct (pick_ok _ a it p m Fa NI P) as (a' & Ea & Oa & La & Sa).
  destruct (pick_ok _ b it p m Fb NI P) as (b' & Eb & Ob & Lb & Sb).
  destruct (has_var_one _ _ _ _ Hv) as [O1 O2].
  destruct (np_take_map2 _ _ _ f p _ _ _ _ _ (fits_obs _ _ _ Fa) (fits_obs _ _ _ Fb) O1 Bd Oa Ob) as (T1 & E1 & L1).
  destruct (np_take_map2 _ _ _ f p _ _ _ _ _ (fits_lat _ _ _ Fa) (fits_lat _ _ _ Fb) O2 Bd La Lb) as (T2 & E2 & L2).
  destruct (np_take_ok _ m p Bd) as (ms & Tm). destruct (np_take_nth _ _ _ _ Tm) as [Lm _].
  do 4 eexists. split; [exact E|]. split; [exact Ea|]. split; [exact Eb|].
  split; [exact (getitem_eq _ _ _ _ _ _ _ _ V NI P T1 T2 Tm)|].
  unfold ufunc2. rewrite E1, E2. cbn [rbind sv_dt].
  destruct a as [x|l|c].
  - destruct Sa as (y & ms' & -> & Tm' & Sy). rewrite Sy.
    replace ms' with ms by congruence. apply sv_new_ok; cbn [mask_len]; congruence.
  - destruct Sa as (l' & ->). destruct b as [y|l2|c2].
    + destruct Sb as (z & ms' & -> & Tm' & Sz). rewrite Sz.
      replace ms' with ms by congruence. apply sv_new_ok; cbn [mask_len]; congruence.
    + destruct Hv as [[? ?]|[? ?]]; discriminate.
    + destruct Hv as [[? ?]|[? ?]]; discriminate.
  - destruct Sa as (c' & ->). destruct b as [y|l2|c2].
    + destruct Sb as (z & ms' & -> & Tm' & Sz). rewrite Sz.
      replace ms' with ms by congruence. apply sv_new_ok; cbn [mask_len]; congruence.
    + destruct Hv as [[? ?]|[? ?]]; discriminate.
    + destruct Hv as [[? ?]|[? ?]]; discriminate.
Qed.
