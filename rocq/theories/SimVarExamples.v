(** Concrete cases meeting the hypotheses of P_SimVar.v, and refutation witnesses. *)
From Verif Require Import Base BaseFacts SimVarModel SimVarSpec.

Definition x1 : simvar Z := SimVar [10; 20; 30]%Z [1; 2; 3]%Z (MB [true; false; true]) DFloat.
Definition x1b : simvar Z := SimVar [7; 8; 9]%Z [4; 5; 6]%Z (MB [true; false; true]) DFloat.
Definition x2 : simvar Z := SimVar [10; 20; 30]%Z [1; 2; 3]%Z (MB [true; false; true]) DInt.
Definition x3 : simvar bool := SimVar [true; true; false] [false; true; false] (MB [true; false; true]) DBool.

Example x1_valid : valid x1 [true; false; true].
Proof. repeat split. Qed.
Example x3_valid : valid x3 [true; false; true] /\ sv_dt x3 = DBool.
Proof. repeat split. Qed.
Example x1_built : sv_new (sv_obs x1) (sv_lat x1) (sv_sel x1) DFloat = Ok x1 /\
  sv_new (sv_obs x1) [1%Z] (sv_sel x1) DFloat = Err AssertionError.
Proof. split; reflexivity. Qed.
Example operands_fit : fits [true; false; true] (OVar x1) /\ fits [true; false; true] (OVar x1b) /\
  has_var (OVar x1) (OVar x1b) /\
  ufunc2 DFloat Z.add (OVar x1) (OVar x1b) =
    Ok (SimVar [17; 28; 39]%Z [5; 7; 9]%Z (MB [true; false; true]) DFloat).
Proof. repeat split; cbn. left. eauto. Qed.
Example slice_case : item_positions 3 (ISlice (Some 1%Z) None 1%positive) = Ok [1; 2] /\
  sv_getitem x1 (ISlice (Some (-2)%Z) None 1%positive) =
    Ok (inr (SimVar [20; 30]%Z [2; 3]%Z (MB [false; true]) DFloat)).
Proof. split; reflexivity. Qed.

(** C14: selecting twice. *)
Lemma twice_float_fails : sv_selected x1 = Ok (SimVar [10; 30]%Z [1; 3]%Z (MF 2) DFloat) /\
  (let? y := sv_selected x1 in sv_selected y) = Err IndexError.
Proof. split; reflexivity. Qed.
Lemma twice_int_wrong : exists y z, sv_selected x2 = Ok y /\ sv_selected y = Ok z /\
  sv_obs y = [10; 30]%Z /\ sv_obs z = [30; 30]%Z.
Proof. do 2 eexists. repeat split. Qed.

(** C15: in-place addition of one to separate buffers and to a shared buffer. *)
Definition h1 : list (list Z) := [[10; 20]; [1; 2]]%Z.
Lemma inplace_separate_wrong :
  inplace (Z.add 1) (SvRef 0 1) h1 = Ok [[2; 3]; [1; 2]]%Z.
Proof. reflexivity. Qed.
Lemma inplace_shared_wrong :
  inplace (Z.add 1) (SvRef 0 0) h1 = Ok [[12; 22]; [1; 2]]%Z.
Proof. reflexivity. Qed.

(** C13: two variables with different masks: the left one's is used. *)
Definition xm : simvar Z := SimVar [7; 8; 9]%Z [4; 5; 6]%Z (MB [false; true; true]) DFloat.
Lemma leftmost_mask : exists r s,
  ufunc2 DFloat Z.add (OVar x1) (OVar xm) = Ok r /\ ufunc2 DFloat Z.add (OVar xm) (OVar x1) = Ok s /\
  sv_obs r = sv_obs s /\ sv_lat r = sv_lat s /\ sv_sel r <> sv_sel s.
Proof. do 2 eexists. repeat split. cbn. congruence. Qed.

Lemma inplace_pure_refuted : exists (h h' : list (list Z)) x o l,
  nth_error h (sr_obs x) = Some o /\ nth_error h (sr_lat x) = Some l /\
  inplace (Z.add 1) x h = Ok h' /\
  nth_error h' (sr_obs x) <> Some (map (Z.add 1) o) /\ nth_error h' (sr_lat x) <> Some (map (Z.add 1) l).
Proof. exists h1, [[2; 3]; [1; 2]]%Z, (SvRef 0 1). do 2 eexists. repeat split; cbn; congruence. Qed.

(** x[1:-1:2] of seven values. *)
Example slice_odd : slice_positions 7 (Some 1%Z) (Some (-1)%Z) 2 = [1; 3; 5]%nat.
Proof. reflexivity. Qed.
