(** Specification vocabulary for simulated variables. *)
From Verif Require Import Base SimVarModel.
Set Implicit Arguments.

(** The values of the objects whose mask entry is [b], in order. *)
Definition keep {A} (b : bool) (l : list A) (m : list bool) : list A :=
  map fst (filter (fun p => Bool.eqb (snd p) b) (combine l m)).

(** Put two lists back together according to a mask. *)
Fixpoint merge {A} (m : list bool) (yes no : list A) : list A :=
  match m with
  | nil => nil
  | true :: r => match yes with x :: q => x :: merge r q no | nil => nil end
  | false :: r => match no with x :: q => x :: merge r yes q | nil => nil end
  end.

(** A variable as [Population] builds it: aligned arrays, boolean mask. *)
Definition valid {A} (x : simvar A) (m : list bool) : Prop :=
  sv_sel x = MB m /\ length (sv_obs x) = length m /\ length (sv_lat x) = length m.

(** Entry [i] of a mask of any element type. *)
Definition mask_entry (m : mask) (i : nat) : option (bool + Z + unit) :=
  match m with
  | MB l => option_map (fun b => inl (inl b)) (nth_error l i)
  | MI l => option_map (fun z => inl (inr z)) (nth_error l i)
  | MF n => if i <? n then Some (inr tt) else None
  end.

(** [x.selected] or [x.non_selected]. *)
Definition part {A} (b : bool) (x : simvar A) : res (simvar A) :=
  if b then sv_selected x else sv_non_selected x.

(** An operand restricted to the selected (non-selected) objects. *)
Definition restrict {A} (b : bool) (m : list bool) (o : operand A) : res (operand A) :=
  match o with
  | OVar x => rmap (fun y => OVar y) (part b x)
  | OArr l => Ok (OArr (keep b l m))
  | OScal a => Ok (OScal a)
  end.

(** An operand indexed with [it]. *)
Definition pick {A} (it : item) (o : operand A) : res (operand A) :=
  match o with
  | OVar x => let? y := sv_getitem x it in
              match y with inr z => Ok (OVar z) | inl a => Ok (OScal a) end
  | OArr l => rmap (fun r => OArr r) (np_get l it)
  | OScal a => Ok (OScal a)
  end.

(** The operand has one entry per object of mask [m] (scalars always fit). *)
Definition fits {A} (m : list bool) (o : operand A) : Prop :=
  match o with
  | OVar x => valid x m
  | OArr l => length l = length m
  | OScal _ => True
  end.

Definition has_var {A B} (a : operand A) (b : operand B) : Prop :=
  (exists x, a = OVar x) \/ (exists y, b = OVar y).

(** Entry [i] of an operand in the observed / latent computation. *)
Definition obs_at {A} (o : operand A) (i : nat) : option A :=
  match o with OVar x => nth_error (sv_obs x) i | OArr l => nth_error l i | OScal a => Some a end.
Definition lat_at {A} (o : operand A) (i : nat) : option A :=
  match o with OVar x => nth_error (sv_lat x) i | OArr l => nth_error l i | OScal a => Some a end.

(** [y] holds the entries of [x] at the positions [p], in that order, for the
    observed values, the latent values and the mask alike. *)
Definition aligned {A} (x y : simvar A) (p : list nat) : Prop :=
  length (sv_obs y) = length p /\ length (sv_lat y) = length p /\ mask_len (sv_sel y) = length p /\
  forall j q, nth_error p j = Some q ->
    q < length (sv_obs x) /\
    nth_error (sv_obs y) j = nth_error (sv_obs x) q /\
    nth_error (sv_lat y) j = nth_error (sv_lat x) q /\
    mask_entry (sv_sel y) j = mask_entry (sv_sel x) q.

(** Python's meaning of a bound [i] of a slice of a sequence of length [n]: counted
    from the end if negative, then clipped to the sequence. *)
Definition slice_bound (n : nat) (i : Z) : Z :=
  Z.max 0 (Z.min (Z.of_nat n) (if (i <? 0)%Z then i + Z.of_nat n else i)%Z).
Definition slice_from (n : nat) (b : option Z) : Z := match b with Some i => slice_bound n i | None => 0%Z end.
Definition slice_to (n : nat) (b : option Z) : Z := match b with Some i => slice_bound n i | None => Z.of_nat n end.
