(** Properties of simulated variables (C12-C16). *)
From Verif Require Import Base SimVarModel SimVarSpec SimVarProofs SliceProofs SimVarExamples.

(** C12 *)
Theorem C12_construction_checks_lengths : forall A (obs lat : list A) sel dt,
  (mask_len sel = length obs /\ length lat = length obs ->
     sv_new obs lat sel dt = Ok (SimVar obs lat sel dt)) /\
  (~ (mask_len sel = length obs /\ length lat = length obs) ->
     sv_new obs lat sel dt = Err AssertionError).
Proof. exact new_iff. Qed.
Print Assumptions C12_construction_checks_lengths.

Theorem C12_selected_and_non_selected_partition : forall A (x : simvar A) m, valid x m ->
  exists y z, sv_selected x = Ok y /\ sv_non_selected x = Ok z /\
    sv_obs y = keep true (sv_obs x) m /\ sv_lat y = keep true (sv_lat x) m /\
    sv_obs z = keep false (sv_obs x) m /\ sv_lat z = keep false (sv_lat x) m /\
    merge m (sv_obs y) (sv_obs z) = sv_obs x /\ merge m (sv_lat y) (sv_lat z) = sv_lat x /\
    length (sv_obs y) + length (sv_obs z) = length (sv_obs x).
Proof. exact partition. Qed.
Print Assumptions C12_selected_and_non_selected_partition.

(** C13 *)
Theorem C13_binary_operations_act_on_both : forall A B C dt (f : A -> B -> C) a b m,
  fits m a -> fits m b -> has_var a b ->
  exists r, ufunc2 dt f a b = Ok r /\ valid r m /\
    forall i,
      nth_error (sv_obs r) i =
        match obs_at a i, obs_at b i with Some x, Some y => Some (f x y) | _, _ => None end /\
      nth_error (sv_lat r) i =
        match lat_at a i, lat_at b i with Some x, Some y => Some (f x y) | _, _ => None end.
Proof. exact ufunc2_pointwise. Qed.
Print Assumptions C13_binary_operations_act_on_both.

Theorem C13_unary_operations_act_on_both : forall A C dt (f : A -> C) x m, valid x m ->
  ufunc1 dt f x = Ok (SimVar (map f (sv_obs x)) (map f (sv_lat x)) (MB m) dt) /\
  valid (SimVar (map f (sv_obs x)) (map f (sv_lat x)) (MB m) dt) m.
Proof. exact ufunc1_eq. Qed.
Print Assumptions C13_unary_operations_act_on_both.

(** [part true] is [.selected], [part false] is [.non_selected]. *)
Theorem C13_unary_commutes_with_selection : forall A C dt (f : A -> C) b x m, valid x m ->
  exists y ys xs z, ufunc1 dt f x = Ok y /\ part b y = Ok ys /\
    part b x = Ok xs /\ ufunc1 dt f xs = Ok z /\
    sv_obs ys = sv_obs z /\ sv_lat ys = sv_lat z.
Proof. exact ufunc1_selected. Qed.
Print Assumptions C13_unary_commutes_with_selection.

Theorem C13_binary_commutes_with_selection : forall A B C dt (f : A -> B -> C) c a b m,
  fits m a -> fits m b -> has_var a b ->
  exists r rs a' b' r', ufunc2 dt f a b = Ok r /\ part c r = Ok rs /\
    restrict c m a = Ok a' /\ restrict c m b = Ok b' /\ ufunc2 dt f a' b' = Ok r' /\
    sv_obs rs = sv_obs r' /\ sv_lat rs = sv_lat r'.
Proof. exact ufunc2_selected. Qed.
Print Assumptions C13_binary_commutes_with_selection.

Theorem C13_binary_commutes_with_indexing : forall A B C dt (f : A -> B -> C) a b m it p,
  fits m a -> fits m b -> has_var a b -> (forall i, it <> IInt i) ->
  item_positions (length m) it = Ok p ->
  exists r a' b' r', ufunc2 dt f a b = Ok r /\ pick it a = Ok a' /\ pick it b = Ok b' /\
    sv_getitem r it = Ok (inr r') /\ ufunc2 dt f a' b' = Ok r'.
Proof. exact ufunc2_index. Qed.
Print Assumptions C13_binary_commutes_with_indexing.

Theorem C13_mask_of_mixed_operands_refuted : exists x y r s : simvar Z,
  ufunc2 DFloat Z.add (OVar x) (OVar y) = Ok r /\ ufunc2 DFloat Z.add (OVar y) (OVar x) = Ok s /\
  sv_obs r = sv_obs s /\ sv_lat r = sv_lat s /\ sv_sel r <> sv_sel s.
Proof. exact (ex_intro _ x1 (ex_intro _ xm leftmost_mask)). Qed.
Print Assumptions C13_mask_of_mixed_operands_refuted.

(** C14 *)
Theorem C14_selecting_twice_boolean_values : forall A (x : simvar A) m, valid x m -> sv_dt x = DBool ->
  exists y, sv_selected x = Ok y /\ sv_selected y = Ok y /\
    exists z, sv_non_selected y = Ok z /\ sv_obs z = [] /\ sv_lat z = [].
Proof. exact selected_twice_bool. Qed.
Print Assumptions C14_selecting_twice_boolean_values.

Theorem C14_selecting_twice_float_values_refuted : forall A (x : simvar A) m, valid x m -> sv_dt x = DFloat ->
  exists y, sv_selected x = Ok y /\ sv_selected y = Err IndexError /\ sv_non_selected y = Err TypeError.
Proof. exact selected_twice_float. Qed.
Print Assumptions C14_selecting_twice_float_values_refuted.

Theorem C14_selecting_twice_integer_values_refuted : forall A (x : simvar A) m a a', valid x m -> sv_dt x = DInt ->
  nth_error (keep true (sv_obs x) m) 1 = Some a -> nth_error (keep true (sv_lat x) m) 1 = Some a' ->
  exists y z, sv_selected x = Ok y /\ sv_selected y = Ok z /\
    sv_obs z = repeat a (count m) /\ sv_lat z = repeat a' (count m).
Proof. exact selected_twice_int. Qed.
Print Assumptions C14_selecting_twice_integer_values_refuted.

Theorem C14_witness_refuted : exists (x y z : simvar Z),
  sv_selected x = Ok y /\ sv_selected y = Ok z /\ sv_obs y = [10; 30]%Z /\ sv_obs z = [30; 30]%Z.
Proof. exact (ex_intro _ x2 twice_int_wrong). Qed.
Print Assumptions C14_witness_refuted.

(** C15: what an in-place operation really does. *)
Theorem C15_inplace_separate_arrays : forall A (f : A -> A) x h o l,
  sr_obs x <> sr_lat x ->
  nth_error h (sr_obs x) = Some o -> nth_error h (sr_lat x) = Some l -> length l = length o ->
  exists h', inplace f x h = Ok h' /\
    nth_error h' (sr_obs x) = Some (map f l) /\ nth_error h' (sr_lat x) = Some l /\
    forall b, b <> sr_obs x -> nth_error h' b = nth_error h b.
Proof. exact inplace_separate. Qed.
Print Assumptions C15_inplace_separate_arrays.

Theorem C15_inplace_shared_array : forall A (f : A -> A) x h o,
  sr_obs x = sr_lat x -> nth_error h (sr_obs x) = Some o ->
  exists h', inplace f x h = Ok h' /\
    nth_error h' (sr_obs x) = Some (map f (map f o)) /\
    nth_error h' (sr_lat x) = Some (map f (map f o)) /\
    forall b, b <> sr_obs x -> nth_error h' b = nth_error h b.
Proof. exact inplace_shared. Qed.
Print Assumptions C15_inplace_shared_array.

Theorem C15_inplace_equals_pure_refuted : exists (h h' : list (list Z)) x o l,
  nth_error h (sr_obs x) = Some o /\ nth_error h (sr_lat x) = Some l /\
  inplace (Z.add 1) x h = Ok h' /\
  nth_error h' (sr_obs x) <> Some (map (Z.add 1) o) /\ nth_error h' (sr_lat x) <> Some (map (Z.add 1) l).
Proof. exact inplace_pure_refuted. Qed.
Print Assumptions C15_inplace_equals_pure_refuted.

(** C16 *)
Theorem C16_indexing_keeps_alignment : forall A (x : simvar A) it y,
  mask_len (sv_sel x) = length (sv_obs x) -> length (sv_lat x) = length (sv_obs x) ->
  sv_getitem x it = Ok (inr y) ->
  exists p, item_positions (length (sv_obs x)) it = Ok p /\ aligned x y p.
Proof. exact getitem_aligned. Qed.
Print Assumptions C16_indexing_keeps_alignment.

Theorem C16_indexing_succeeds : forall A (x : simvar A) it p,
  mask_len (sv_sel x) = length (sv_obs x) -> length (sv_lat x) = length (sv_obs x) ->
  (forall i, it <> IInt i) -> item_positions (length (sv_obs x)) it = Ok p ->
  exists y, sv_getitem x it = Ok (inr y).
Proof. exact getitem_total'. Qed.
Print Assumptions C16_indexing_succeeds.

Theorem C16_integer_index : forall A (x : simvar A) i,
  ((- Z.of_nat (length (sv_obs x)) <= i < Z.of_nat (length (sv_obs x)))%Z ->
     exists a, sv_getitem x (IInt i) = Ok (inl a) /\
       nth_error (sv_obs x) (Z.to_nat (if (0 <=? i)%Z then i else (i + Z.of_nat (length (sv_obs x)))%Z)) = Some a) /\
  (~ (- Z.of_nat (length (sv_obs x)) <= i < Z.of_nat (length (sv_obs x)))%Z ->
     sv_getitem x (IInt i) = Err IndexError).
Proof. exact getitem_int. Qed.
Print Assumptions C16_integer_index.

(** A slice takes exactly the positions from its lower bound, in steps, below its
    upper bound, in increasing order. *)
Theorem C16_slice_takes : forall n a b step i,
  In i (slice_positions n a b step) <->
  (slice_from n a <= Z.of_nat i < slice_to n b)%Z /\
  exists k, (0 <= k)%Z /\ (Z.of_nat i = slice_from n a + k * Z.pos step)%Z.
Proof. exact slice_positions_spec. Qed.
Print Assumptions C16_slice_takes.

Theorem C16_slice_keeps_order : forall n a b step,
  Sorted.StronglySorted lt (slice_positions n a b step).
Proof. exact slice_positions_sorted. Qed.
Print Assumptions C16_slice_keeps_order.
