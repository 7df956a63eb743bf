(** Model of [popsynth/utils/meta.py] (parameter descriptors) and of the parameter
    access of [popsynth/distribution.py:Distribution]. *)
From Verif Require Import Base.
Set Implicit Arguments.

Section Param.
(** Parameter values (python floats) and the two comparisons the code performs:
    [ge v m] is [v >= m], [le v m] is [v <= m].  No law is assumed. *)
Variable V : Type.
Variables ge le : V -> V -> bool.

(** [Parameter.__init__] (meta.py:9-34).  [pd_free] is the mutable attribute
    [_free]; the others never change.  [name] is the key under which the
    descriptor is found in the class (set at meta.py:166). *)
Record pdecl := PDecl {
  pd_default : option V;
  pd_vmin : option V;
  pd_vmax : option V;
  pd_free : bool;
  pd_norm : bool }.

(** The parameter attributes visible through a class: one descriptor per name,
    shared by all instances. *)
Definition pclass := dict pdecl.

(** [_parameter_storage] (values may be python's [None]) and
    [_normalization_parameter] of an instance (distribution.py:45-46). *)
Record pobj := PObj { po_store : dict (option V); po_norm : option string }.

(** A new instance (distribution.py:33-46, selection_probability.py:49,
    auxiliary_sampler.py:190). *)
Definition pobj_new : pobj := PObj nil None.

(** meta.py:46-48 and 75-77 *)
Definition touch_norm (d : pdecl) (k : string) (o : pobj) : pobj :=
  if pd_norm d then PObj (po_store o) (Some k) else o.

(** [Parameter.__get__] (meta.py:44-70): a missing or [None] entry is replaced by
    the default, which stays in the storage; [AssertionError] if that is [None].
    The two code paths (52-60 and 62-70) store and check the same way. *)
Definition param_get (d : pdecl) (k : string) (o : pobj) : res V * pobj :=
  let o1 := touch_norm d k o in
  match dget (po_store o1) k with
  | Some (Some v) => (Ok v, o1)
  | _ =>
      let o2 := PObj (dset (po_store o1) k (pd_default d)) (po_norm o1) in
      match pd_default d with
      | Some v => (Ok v, o2)
      | None => (Err AssertionError, o2)
      end
  end.

(** [not (value >= self._vmin)] (meta.py:84-85); comparing [None] raises
    [TypeError]. *)
Definition check_bound (cmp : V -> V -> bool) (bound : option V) (v : option V) : res unit :=
  match bound with
  | None => Ok tt
  | Some b => match v with
              | None => Err TypeError
              | Some x => if cmp x b then Ok tt else Err RuntimeError
              end
  end.

(** [Parameter.__set__] (meta.py:72-100). *)
Definition param_set (d : pdecl) (k : string) (v : option V) (o : pobj) : res unit * pobj :=
  let o1 := touch_norm d k o in
  if pd_free d then
    match (let? _ := check_bound ge (pd_vmin d) v in check_bound le (pd_vmax d) v) with
    | Ok _ => (Ok tt, PObj (dset (po_store o1) k v) (po_norm o1))
    | Err e => (Err e, o1)
    end
  else (Err RuntimeError, o1).

(** [Distribution.normalization_parameter] getter (distribution.py:54-57):
    [_parameter_storage[None]] raises [KeyError]. *)
Definition norm_get (o : pobj) : res (option V) :=
  match po_norm o with
  | None => Err KeyError
  | Some k => of_opt KeyError (dget (po_store o) k)
  end.

(** Setter (distribution.py:59-61): writes the storage directly.  With no
    normalisation parameter python would store under the key [None]; that entry
    is unreachable through the API and is not modelled. *)
Definition norm_set (v : option V) (o : pobj) : pobj :=
  match po_norm o with
  | None => o
  | Some k => PObj (dset (po_store o) k v) (po_norm o)
  end.

(** [Distribution.truth] / [SelectionProbability.parameters] /
    [AuxiliarySampler.truth] (distribution.py:92-105,
    selection_probability.py:135-146, auxiliary_sampler.py:654-668). *)
Fixpoint truth_of (s : dict (option V)) : dict V :=
  match s with
  | nil => nil
  | (k, Some v) :: r => (k, v) :: truth_of r
  | (_, None) :: r => truth_of r
  end.
Definition truth (o : pobj) : dict V := truth_of (po_store o).

(** ** A class and all its instances as a state machine. *)
Record pstate := PState { ps_class : pclass; ps_objs : list pobj }.

(** [obj_i.k], [obj_i.k = v], descriptor [k].fix = b, and the assignment to
    [obj_i.normalization_parameter]. *)
Inductive pop :=
| PGet (i : nat) (k : string)
| PSet (i : nat) (k : string) (v : option V)
| PFix (k : string) (b : bool)
| PNormSet (i : nat) (v : option V).

(** meta.py:121-123 *)
Definition set_fix (d : pdecl) (b : bool) : pdecl :=
  PDecl (pd_default d) (pd_vmin d) (pd_vmax d) (negb b) (pd_norm d).

(** One operation; the result is the value read, if any.  Simplification: names
    that are not declared parameters are refused (python would read or create a
    plain attribute, which has nothing to do with parameters). *)
Definition pstep (s : pstate) (o : pop) : res (option V) * pstate :=
  match o with
  | PGet i k =>
      match nth_error (ps_objs s) i, dget (ps_class s) k with
      | Some ob, Some d =>
          let (r, ob') := param_get d k ob in
          (rmap Some r, PState (ps_class s) (lset (ps_objs s) i ob'))
      | _, _ => (Err AttributeError, s)
      end
  | PSet i k v =>
      match nth_error (ps_objs s) i, dget (ps_class s) k with
      | Some ob, Some d =>
          let (r, ob') := param_set d k v ob in
          (rmap (fun _ => None) r, PState (ps_class s) (lset (ps_objs s) i ob'))
      | _, _ => (Err AttributeError, s)
      end
  | PFix k b =>
      match dget (ps_class s) k with
      | Some d => (Ok None, PState (dset (ps_class s) k (set_fix d b)) (ps_objs s))
      | None => (Err AttributeError, s)
      end
  | PNormSet i v =>
      match nth_error (ps_objs s) i with
      | Some ob => (Ok None, PState (ps_class s) (lset (ps_objs s) i (norm_set v ob)))
      | None => (Err AttributeError, s)
      end
  end.

(** A history of operations: the list of results and the final state. *)
Fixpoint prun (s : pstate) (h : list pop) : list (res (option V)) * pstate :=
  match h with
  | nil => (nil, s)
  | o :: r => let (x, s1) := pstep s o in
              let (xs, s2) := prun s1 r in (x :: xs, s2)
  end.

(** [n] new instances of a class. *)
Definition pinit (c : pclass) (n : nat) : pstate := PState c (repeat pobj_new n).

(** [ParameterMeta.__new__] (meta.py:155-174): the loop over the class body.  The
    counter is initialised at 159 and tested at 170 but never incremented.
    Attributes that are not parameters are [None]. *)
Fixpoint meta_loop (norm_counter : nat) (attrs : list (string * option pdecl)) : res unit :=
  match attrs with
  | nil => Ok tt
  | (_, None) :: r => meta_loop norm_counter r
  | (_, Some d) :: r =>
      if pd_norm d && (0 <? norm_counter) then Err AssertionError
      else meta_loop norm_counter r
  end.
Definition meta_new (attrs : list (string * option pdecl)) : res unit := meta_loop 0 attrs.

End Param.
