(** Values of python dictionaries as they are saved and read back: configuration
    dictionaries ([PopulationSynth.to_dict]) and the dictionaries stored in HDF5
    files. *)
From Verif Require Import Base.
Set Implicit Arguments.

Section Tree.
Variable V : Type.

Inductive tree :=
| TNone
| TNum (v : V)                 (* float *)
| TInt (z : Z)
| TBool (b : bool)
| TNpb (b : bool)              (* numpy.bool_, which is not a python bool *)
| TStr (s : string)
| TBytes (s : string)
| TArr (l : list V)            (* one-dimensional numpy array *)
| TList (l : list tree)
| TDict (d : list (string * tree)).

(** A dictionary of parameter values. *)
Definition tdict (d : dict V) : tree := TDict (map (fun kv => (fst kv, TNum (snd kv))) d).

(** Induction principle that reaches into lists and dictionaries. *)
Section Ind.
Variable P : tree -> Prop.
Hypothesis HNone : P TNone.
Hypothesis HNum : forall v, P (TNum v).
Hypothesis HInt : forall z, P (TInt z).
Hypothesis HBool : forall b, P (TBool b).
Hypothesis HNpb : forall b, P (TNpb b).
Hypothesis HStr : forall s, P (TStr s).
Hypothesis HBytes : forall s, P (TBytes s).
Hypothesis HArr : forall l, P (TArr l).
Hypothesis HList : forall l, Forall P l -> P (TList l).
Hypothesis HDict : forall d, Forall (fun kv => P (snd kv)) d -> P (TDict d).

Fixpoint tree_rect' (t : tree) : P t :=
  match t with
  | TNone => HNone
  | TNum v => HNum v
  | TInt z => HInt z
  | TBool b => HBool b
  | TNpb b => HNpb b
  | TStr s => HStr s
  | TBytes s => HBytes s
  | TArr l => HArr l
  | TList l => HList ((fix go l : Forall P l :=
      match l with nil => Forall_nil _ | x :: r => Forall_cons _ (tree_rect' x) (go r) end) l)
  | TDict d => HDict ((fix go d : Forall (fun kv => P (snd kv)) d :=
      match d with nil => Forall_nil _ | x :: r => Forall_cons _ (tree_rect' (snd x)) (go r) end) d)
  end.
End Ind.
End Tree.
Arguments TNone {V}.
Arguments TInt {V} z.
Arguments TBool {V} b.
Arguments TNpb {V} b.
Arguments TStr {V} s.
Arguments TBytes {V} s.
