(** Vocabulary for C83. *)
From Verif Require Import Base ClassModel.
Open Scope string_scope.
Open Scope list_scope.

(** [l] with some entries left out. *)
Inductive sub_list {A} : list A -> list A -> Prop :=
| sl_nil l : sub_list nil l
| sl_take x a b : sub_list a b -> sub_list (x :: a) (x :: b)
| sl_skip x a b : sub_list a b -> sub_list a (x :: b).

(** What [getattr] on a class gives: the definition in the first class of its order that
    defines the name. *)
Definition defines (w : classes) (d : nat) (n : string) (v : attr) : Prop :=
  exists k, nth_error (cl w) d = Some k /\ dget (k_attrs k) n = Some v.
Definition inherits (w : classes) (c : nat) (n : string) (v : attr) : Prop :=
  exists k before d after, nth_error (cl w) c = Some k /\ k_mro k = before ++ d :: after /\
    defines w d n v /\ forall b u, In b before -> ~ defines w b n u.
(** Some method is left to be implemented. *)
Definition incomplete (w : classes) (c : nat) : Prop := exists n, inherits w c n Abstract.

(** [c] belongs to family [h]. *)
Definition member (w : classes) (h : hier) (c : nat) : Prop := exists k, nth_error (cl w) c = Some k /\ k_meta k = Some h.
(** Only classes of the families have abstract methods. *)
Definition no_abstract_mixins (w : classes) : Prop :=
  forall c k n, nth_error (cl w) c = Some k -> k_meta k = None -> ~ defines w c n Abstract.
(** [c] is the last complete class of its family that has the name [s], its own or an
    inherited one. *)
Definition latest (w : classes) (h : hier) (s : string) (c : nat) : Prop :=
  member w h c /\ ~ incomplete w c /\ inherits w c (attr_name h) (Str s) /\
  forall c', c < c' -> member w h c' -> ~ incomplete w c' -> ~ inherits w c' (attr_name h) (Str s).
