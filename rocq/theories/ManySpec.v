(** Files that hold several populations (C80). *)
From Verif Require Import Base Env Tree PopModel HdfModel HdfSpec.
Open Scope string_scope.
Open Scope list_scope.

(** Neither group lies in the other one, and they are not the same. *)
Definition apart (a b : list string) : Prop := (forall r, b <> a ++ r) /\ (forall r, a <> b ++ r).

(** [addto] for one population after the other, as a loop in a script does; an exception
    stops it (population.py:560-574). *)
Fixpoint add_all {E} (ps : list (string * population E)) (f : dict (h5 (V E))) : res unit * dict (h5 (V E)) :=
  match ps with
  | nil => (Ok tt, f)
  | (name, p) :: r => match addto p name f with
                      | (Ok _, f1) => add_all r f1
                      | (Err e, f1) => (Err e, f1)
                      end
  end.

(** A list of populations, each with its own group, that a file has room for. *)
Record room_for {E} (ps : list (string * population E)) (f : dict (h5 (V E))) : Prop := {
  ro_names : forall name p, In (name, p) ps -> no_nul name /\ vacant (comps name) f;
  ro_apart : ForallOrdPairs (fun a b => apart (comps (fst a)) (comps (fst b))) ps }.
