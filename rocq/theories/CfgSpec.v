(** Specification for C59. *)
From Verif Require Import Base CfgModel.
Open Scope string_scope.
Section Spec.
Variable V : Type.
Notation cfg := (cfg V).
Notation yaml := (yaml V).

(** Keys occur once, at every level, as in every python dictionary. *)
Inductive proper : yaml -> Prop :=
| pr_null : proper YNull
| pr_bool b : proper (YBool b)
| pr_num v : proper (YNum V v)
| pr_str s : proper (YStr s)
| pr_list l : proper (YList V l)
| pr_map d : NoDup (dkeys d) -> (forall k u, In (k, u) d -> proper u) -> proper (YMap V d).
Inductive proper_cfg : cfg -> Prop :=
| pc_bool b : proper_cfg (CBool b)
| pc_num v : proper_cfg (CNum V v)
| pc_str s : proper_cfg (CStr s)
| pc_group d : NoDup (dkeys d) -> (forall k c, In (k, c) d -> proper_cfg c) -> proper_cfg (CGroup V d).

Definition leaf (c : cfg) : Prop := forall d, c <> CGroup V d.

Variable as_bool : yaml -> option bool.
Variable as_num : yaml -> option V.
Variable as_str : yaml -> option string.
Definition scalar (u : yaml) : Prop := match u with YBool _ | YNum _ _ | YStr _ => True | _ => False end.
(** [c'] is the value [u], converted to the type of [c]. *)
Definition is_value (c : cfg) (u : yaml) (c' : cfg) : Prop :=
  scalar u /\ match c, c' with
  | CBool _, CBool b => as_bool u = Some b
  | CNum _ _, CNum _ v => as_num u = Some v
  | CStr _, CStr s => as_str u = Some s
  | _, _ => False
  end.
(** Values of the right type are taken as they are. *)
Record lawful : Prop := {
  law_bool : forall b, as_bool (YBool b) = Some b;
  law_num : forall v, as_num (YNum V v) = Some v;
  law_str : forall s, as_str (YStr s) = Some s }.
(** Every group in the file is a group of the configuration, and every value in it
    can be converted to the type of a value of the configuration. *)
Definition acceptable (c : cfg) (u : yaml) : Prop :=
  forall p x, named V u p = Some x -> exists c0, setting V c p = Some c0 /\
    ((exists d e, x = YMap V d /\ c0 = CGroup V e) \/ exists c1, is_value c0 x c1).
End Spec.
