(** Model of [popsynth/simulated_variable.py].  One-dimensional arrays only. *)
From Verif Require Import Base.
Set Implicit Arguments.

(** Element type of an array, as far as it matters: what [np.ones_like] of it can
    be used for. *)
Inductive dtype := DFloat | DInt | DBool.

(** The array stored as [_selection]: booleans, integers, or floats (whose values
    are irrelevant because numpy never indexes with them). *)
Inductive mask := MB (m : list bool) | MI (z : list Z) | MF (n : nat).

Definition mask_len (m : mask) : nat :=
  match m with MB l => length l | MI l => length l | MF n => n end.

(** [np.ones_like(a)], [np.zeros_like(a)] for [a] of length [n] and type [d]. *)
Definition ones_like (d : dtype) (n : nat) : mask :=
  match d with DFloat => MF n | DInt => MI (repeat 1%Z n) | DBool => MB (repeat true n) end.
Definition zeros_like (d : dtype) (n : nat) : mask :=
  match d with DFloat => MF n | DInt => MI (repeat 0%Z n) | DBool => MB (repeat false n) end.

(** [~mask]: floats do not support it. *)
Definition mask_not (m : mask) : res mask :=
  match m with
  | MB l => Ok (MB (mnot l))
  | MI l => Ok (MI (map Z.lnot l))
  | MF _ => Err TypeError
  end.

(** Position meant by a python index into a sequence of length [n]. *)
Definition py_index (n : nat) (i : Z) : res nat :=
  if (0 <=? i)%Z then (if (i <? Z.of_nat n)%Z then Ok (Z.to_nat i) else Err IndexError)
  else (if (0 <=? i + Z.of_nat n)%Z then Ok (Z.to_nat (i + Z.of_nat n)) else Err IndexError).

(** Positions of a slice [start:stop:step] with positive step
    ([slice.indices] followed by [range]). *)
Definition clip (n : nat) (i : Z) : Z :=
  let j := (if i <? 0 then i + Z.of_nat n else i)%Z in
  if (j <? 0)%Z then 0%Z else if (Z.of_nat n <? j)%Z then Z.of_nat n else j.
Definition slice_positions (n : nat) (start stop : option Z) (step : positive) : list nat :=
  let a := match start with Some i => clip n i | None => 0%Z end in
  let b := match stop with Some i => clip n i | None => Z.of_nat n end in
  filter (fun i => (a <=? Z.of_nat i)%Z && (Z.of_nat i <? b)%Z && ((Z.of_nat i - a) mod Z.pos step =? 0)%Z)
         (seq 0 n).

(** What can be written between brackets. *)
Inductive item :=
| IInt (i : Z)
| IMask (m : mask)
| ISlice (start stop : option Z) (step : positive).

(** The positions an array-like item selects in an array of length [n]. *)
Definition item_positions (n : nat) (it : item) : res (list nat) :=
  match it with
  | IInt i => let? p := py_index n i in Ok [p]
  | IMask (MB m) => if Nat.eqb (length m) n then Ok (np_where m) else Err IndexError
  | IMask (MI z) => rmapM (py_index n) z
  | IMask (MF _) => Err IndexError
  | ISlice a b c => Ok (slice_positions n a b c)
  end.

Section SV.
Variable A : Type.

(** The three arrays of a variable and the element type of the observed values. *)
Record simvar := SimVar {
  sv_obs : list A;
  sv_lat : list A;
  sv_sel : mask;
  sv_dt : dtype }.

(** [SimulatedVariable(observed, latent, selection)] (simulated_variable.py:29-61). *)
Definition sv_new (obs lat : list A) (sel : mask) (dt : dtype) : res simvar :=
  if negb (Nat.eqb (mask_len sel) (length obs)) then Err AssertionError
  else if negb (Nat.eqb (length lat) (length obs)) then Err AssertionError
  else Ok (SimVar obs lat sel dt).

(** [a[it]] for an array-like item. *)
Definition np_get (l : list A) (it : item) : res (list A) :=
  let? p := item_positions (length l) it in np_take l p.

(** [.selected] (simulated_variable.py:76-88). *)
Definition sv_selected (x : simvar) : res simvar :=
  let? o := np_get (sv_obs x) (IMask (sv_sel x)) in
  let? l := np_get (sv_lat x) (IMask (sv_sel x)) in
  sv_new o l (ones_like (sv_dt x) (length o)) (sv_dt x).

(** [.non_selected] (simulated_variable.py:90-103). *)
Definition sv_non_selected (x : simvar) : res simvar :=
  let? ns := mask_not (sv_sel x) in
  let? o := np_get (sv_obs x) (IMask ns) in
  let? l := np_get (sv_lat x) (IMask ns) in
  sv_new o l (zeros_like (sv_dt x) (length o)) (sv_dt x).

(** Indexing a stored mask. *)
Definition mask_get (m : mask) (it : item) : res mask :=
  let? p := item_positions (mask_len m) it in
  match m with
  | MB l => rmap MB (np_take l p)
  | MI l => rmap MI (np_take l p)
  | MF _ => Ok (MF (length p))
  end.

(** [x[item]] (simulated_variable.py:117-129): a python scalar for an integer
    item, a variable otherwise. *)
Definition sv_getitem (x : simvar) (it : item) : res (A + simvar) :=
  match it with
  | IInt i =>
      let? p := py_index (length (sv_obs x)) i in
      rmap inl (of_opt IndexError (nth_error (sv_obs x) p))
  | _ =>
      let? o := np_get (sv_obs x) it in
      let? l := np_get (sv_lat x) it in
      let? s := mask_get (sv_sel x) it in
      rmap inr (sv_new o l s (sv_dt x))
  end.
End SV.

(** ** ufuncs without [out=] (simulated_variable.py:131-222) *)
Section Ufunc.
Variables A B C : Type.

(** An input of a ufunc call. *)
Inductive operand (T : Type) := OVar (x : simvar T) | OArr (l : list T) | OScal (a : T).
Arguments OVar {T} x.
Arguments OArr {T} l.
Arguments OScal {T} a.

(** The array or scalar that takes part in the observed / latent computation
    (138-145). *)
Definition obs_arg {T} (o : operand T) : list T + T :=
  match o with OVar x => inl (sv_obs x) | OArr l => inl l | OScal a => inr a end.
Definition lat_arg {T} (o : operand T) : list T + T :=
  match o with OVar x => inl (sv_lat x) | OArr l => inl l | OScal a => inr a end.

(** Element-wise evaluation with broadcasting; at least one array. *)
Definition ev2 (f : A -> B -> C) (a : list A + A) (b : list B + B) : res (list C) :=
  match a, b with
  | inl x, inl y => bcast2 f x y
  | inl x, inr b0 => Ok (map (fun a0 => f a0 b0) x)
  | inr a0, inl y => Ok (map (f a0) y)
  | inr _, inr _ => Err Unmodelled     (* not a call on a SimulatedVariable *)
  end.

(** Unary ufunc; [dt] is the element type of the result. *)
Definition ufunc1 (dt : dtype) (f : A -> C) (x : simvar A) : res (simvar C) :=
  sv_new (map f (sv_obs x)) (map f (sv_lat x)) (sv_sel x) dt.

(** Binary ufunc; [self] is the leftmost variable, and its mask is used (203). *)
Definition ufunc2 (dt : dtype) (f : A -> B -> C) (a : operand A) (b : operand B) : res (simvar C) :=
  let? o := ev2 f (obs_arg a) (obs_arg b) in
  let? l := ev2 f (lat_arg a) (lat_arg b) in
  match a, b with
  | OVar x, _ => sv_new o l (sv_sel x) dt
  | _, OVar y => sv_new o l (sv_sel y) dt
  | _, _ => Err Unmodelled
  end.

(** Reductions give a scalar for both computations; the observed one is returned
    (200-208). *)
Definition ureduce (f : list A -> C) (x : simvar A) : C := f (sv_obs x).
End Ufunc.
Arguments OVar {T} x.
Arguments OArr {T} l.
Arguments OScal {T} a.

(** ** In-place operations: arrays are buffers on a heap *)
Section InPlace.
Variable A : Type.

(** A variable refers to a buffer of observed and one of latent values; they may
    be the same buffer (population.py:118-137 passes one array twice). *)
Record svref := SvRef { sr_obs : nat; sr_lat : nat }.

(** [x op= c] (simulated_variable.py:131-222 with [out=(x,)]): the observed result
    is written to x's buffer (157, 167), then the latent result, computed from the
    latent buffer as it is *then*, is written to the same buffer (169-171). *)
Definition inplace (f : A -> A) (x : svref) (h : list (list A)) : res (list (list A)) :=
  let? o := of_opt Unmodelled (nth_error h (sr_obs x)) in
  let h1 := lset h (sr_obs x) (map f o) in
  let? l := of_opt Unmodelled (nth_error h1 (sr_lat x)) in
  if Nat.eqb (length l) (length o) then Ok (lset h1 (sr_obs x) (map f l)) else Err ValueError.
End InPlace.
