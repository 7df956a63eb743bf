(** Specification vocabulary for parameters, independent of how values are stored. *)
From Verif Require Import Base ParamModel.
Set Implicit Arguments.

Section Spec.
Variable V : Type.
Variables ge le : V -> V -> bool.
Notation pop := (pop V).
Notation pclass := (pclass V).
Notation pstate := (pstate V).

(** [v] satisfies the declared bounds. *)
Definition within (d : pdecl V) (v : V) : Prop :=
  (forall m, pd_vmin d = Some m -> ge v m = true) /\
  (forall m, pd_vmax d = Some m -> le v m = true).

(** What a read of parameter [k] of instance [i] gives in state [s]. *)
Definition reads (s : pstate) (i : nat) (k : string) : res (option V) :=
  fst (pstep ge le s (PGet V i k)).

(** The value of the last assignment to parameter [k] of instance [i] in the
    history [h] that did not raise ([outs] are the outcomes of [h]). *)
Fixpoint last_accepted (i : nat) (k : string) (h : list pop)
         (outs : list (res (option V))) (acc : option V) : option V :=
  match h, outs with
  | PSet j k' v :: h', Ok _ :: outs' =>
      last_accepted i k h' outs' (if Nat.eqb j i && String.eqb k' k then v else acc)
  | _ :: h', _ :: outs' => last_accepted i k h' outs' acc
  | _, _ => acc
  end.

(** The history uses parameters only (never the [normalization_parameter] setter). *)
Definition no_norm_set (h : list pop) : Prop :=
  forall i v, ~ In (PNormSet i v) h.

(** The history never changes the fixed/free flag of [k]. *)
Definition never_refixed (k : string) (h : list pop) : Prop :=
  forall b, ~ In (PFix V k b) h.

End Spec.
