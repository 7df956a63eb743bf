(** Shared vocabulary: python exceptions, results, dictionaries, boolean masks,
    numpy indexing and broadcasting, and a state/exception monad. *)
From Coq Require Export String.
From Coq Require Export List Arith ZArith Bool Lia.
Export ListNotations.
Set Implicit Arguments.

(** The exceptions the modelled code can raise.  [NameError] stands for
    [UnboundLocalError].  [OutOfFuel] is not a python exception: it is the result
    of a loop that has not finished within the iterations allowed to it.
    [Unmodelled] marks python behaviour outside the model; theorems never
    conclude anything useful from it. *)
Inductive exn :=
| RuntimeError | AssertionError | TypeError | ValueError | KeyError | IndexError
| AttributeError | NameError | RecursionError | ZeroDivisionError
| OutOfFuel | Unmodelled.

(** Outcome of a python call. *)
Inductive res (A : Type) := Ok (a : A) | Err (e : exn).
Arguments Ok {A} a.
Arguments Err {A} e.

Definition rbind {A B} (r : res A) (k : A -> res B) : res B :=
  match r with Ok a => k a | Err e => Err e end.
Definition rmap {A B} (f : A -> B) (r : res A) : res B :=
  match r with Ok a => Ok (f a) | Err e => Err e end.
Definition is_ok {A} (r : res A) : bool := match r with Ok _ => true | Err _ => false end.
Notation "'let?' x := r 'in' k" := (rbind r (fun x => k))
  (at level 200, x pattern, r at level 100, k at level 200).

(** [assert b] of python. *)
Definition rassert (b : bool) : res unit := if b then Ok tt else Err AssertionError.

Definition of_opt {A} (e : exn) (o : option A) : res A :=
  match o with Some a => Ok a | None => Err e end.

(** Programs: they consume a state, return a value or an exception, and keep the
    state reached when an exception is raised (python does not roll back). *)
Definition M (S A : Type) := S -> res A * S.
Definition ret {S A} (a : A) : M S A := fun s => (Ok a, s).
Definition raise {S A} (e : exn) : M S A := fun s => (Err e, s).
Definition bind {S A B} (m : M S A) (k : A -> M S B) : M S B :=
  fun s => match m s with (Ok a, s1) => k a s1 | (Err e, s1) => (Err e, s1) end.
Definition get {S} : M S S := fun s => (Ok s, s).
Definition put {S} (s : S) : M S unit := fun _ => (Ok tt, s).
Definition modify {S} (f : S -> S) : M S unit := fun s => (Ok tt, f s).
Definition gets {S A} (f : S -> A) : M S A := fun s => (Ok (f s), s).
Definition lift {S A} (r : res A) : M S A := fun s => (r, s).
Notation "'let!' x := m 'in' k" := (bind m (fun x => k))
  (at level 200, x pattern, m at level 100, k at level 200).
Notation "m ;; k" := (bind m (fun _ => k)) (at level 61, right associativity).

(** [for x in l: f(x)] *)
Fixpoint iterM {S A} (f : A -> M S unit) (l : list A) : M S unit :=
  match l with
  | nil => ret tt
  | x :: r => f x ;; iterM f r
  end.

(** [out = [f(x) for x in l]] *)
Fixpoint mapM {S A B} (f : A -> M S B) (l : list A) : M S (list B) :=
  match l with
  | nil => ret nil
  | x :: r => let! y := f x in let! ys := mapM f r in ret (y :: ys)
  end.

(** The same for pure functions that can raise. *)
Fixpoint rmapM {A B} (f : A -> res B) (l : list A) : res (list B) :=
  match l with
  | nil => Ok nil
  | x :: r => let? y := f x in let? ys := rmapM f r in Ok (y :: ys)
  end.

(** [out = acc; for x in l: acc = f(acc, x)] *)
Fixpoint foldM {S A B} (f : B -> A -> M S B) (b : B) (l : list A) : M S B :=
  match l with
  | nil => ret b
  | x :: r => let! b1 := f b x in foldM f b1 r
  end.

(** Call [f] [n] times, collecting the results in order. *)
Fixpoint repeatM {S A} (f : M S A) (n : nat) : M S (list A) :=
  match n with
  | O => ret nil
  | Datatypes.S n' => let! x := f in let! xs := repeatM f n' in ret (x :: xs)
  end.

(** ** Python dictionaries: insertion-ordered, assignment to an existing key
    keeps its position. *)
Definition dict (A : Type) := list (string * A).

Fixpoint dget {A} (d : dict A) (k : string) : option A :=
  match d with
  | nil => None
  | (k', v) :: r => if String.eqb k k' then Some v else dget r k
  end.

Fixpoint dset {A} (d : dict A) (k : string) (v : A) : dict A :=
  match d with
  | nil => (k, v) :: nil
  | (k', v') :: r => if String.eqb k k' then (k', v) :: r else (k', v') :: dset r k v
  end.

Fixpoint ddel {A} (d : dict A) (k : string) : dict A :=
  match d with
  | nil => nil
  | (k', v') :: r => if String.eqb k k' then r else (k', v') :: ddel r k
  end.

Definition dkeys {A} (d : dict A) : list string := map fst d.
Definition dvals {A} (d : dict A) : list A := map snd d.
Definition dmem {A} (d : dict A) (k : string) : bool :=
  match dget d k with Some _ => true | None => false end.
(** [d.update(e)] *)
Definition dupdate {A} (d e : dict A) : dict A :=
  fold_left (fun acc kv => dset acc (fst kv) (snd kv)) e d.

(** ** Object heaps: an object reference is a position in a list. *)
Fixpoint lset {A} (l : list A) (i : nat) (a : A) : list A :=
  match l, i with
  | nil, _ => nil
  | _ :: r, O => a :: r
  | x :: r, Datatypes.S i' => x :: lset r i' a
  end.

(** ** numpy boolean masks. *)

(** [sum(mask)] *)
Fixpoint count (m : list bool) : nat :=
  match m with nil => 0 | b :: r => (if b then 1 else 0) + count r end.

(** [~mask] *)
Definition mnot (m : list bool) : list bool := map negb m.

(** The entries of [l] at the positions where [m] is true. *)
Fixpoint mselect {A} (l : list A) (m : list bool) : list A :=
  match l, m with
  | x :: r, b :: mr => if b then x :: mselect r mr else mselect r mr
  | _, _ => nil
  end.

(** [l[mask]]: numpy raises [IndexError] when the mask has another length. *)
Definition np_mask {A} (l : list A) (m : list bool) : res (list A) :=
  if Nat.eqb (length l) (length m) then Ok (mselect l m) else Err IndexError.

(** [np.where(mask)[0]], starting at position [i]. *)
Fixpoint where_from (i : nat) (m : list bool) : list nat :=
  match m with
  | nil => nil
  | b :: r => if b then i :: where_from (Datatypes.S i) r else where_from (Datatypes.S i) r
  end.
Definition np_where (m : list bool) : list nat := where_from 0 m.

(** [l[[i, j, ...]]] with non-negative indices. *)
Definition np_take {A} (l : list A) (idx : list nat) : res (list A) :=
  rmapM (fun i => of_opt IndexError (nth_error l i)) idx.

(** Element-wise binary operation with numpy broadcasting of one-dimensional
    arrays: equal lengths, or one of them of length one; else [ValueError]. *)
Definition bcast2 {A B C} (f : A -> B -> C) (a : list A) (b : list B) : res (list C) :=
  if Nat.eqb (length a) (length b) then Ok (map (fun p => f (fst p) (snd p)) (combine a b))
  else match a, b with
       | [x], _ => Ok (map (f x) b)
       | _, [y] => Ok (map (fun x => f x y) a)
       | _, _ => Err ValueError
       end.

(** In-place [a op= b]: the result must fit into [a]. *)
Definition bcast2_inplace {A B} (f : A -> B -> A) (a : list A) (b : list B) : res (list A) :=
  if Nat.eqb (length a) (length b) then Ok (map (fun p => f (fst p) (snd p)) (combine a b))
  else match b with
       | [y] => Ok (map (fun x => f x y) a)
       | _ => Err ValueError
       end.

Definition np_logical_and : list bool -> list bool -> res (list bool) := bcast2 andb.
