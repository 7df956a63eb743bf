(** C88: the names listed are the names that can be used. *)
From Verif Require Import Base ClassModel ClassSpec ClassTable ListModel.
From Verif Require ClassProofs ListProofs.
Open Scope string_scope.
Open Scope list_scope.

(** Whatever classes were defined: a name is listed exactly if the registry makes an
    instance for it. *)
Theorem C88_listed_iff_usable : forall l h s, In s (list_available h (run l)) <-> exists c, registry_make (run l) h s = Ok c.
Proof. exact ListProofs.usable. Qed.
(** That is, if it is the name of a complete class of the family. *)
Theorem C88_listed_iff_class : forall l h s, no_abstract_mixins (run l) -> In s (list_available h (run l)) <-> exists c, latest (run l) h s c.
Proof.
  intros l h s NM. rewrite C88_listed_iff_usable. split; intros [c H]; exists c; now apply (ClassProofs.registry_iff l h s c NM).
Qed.
(** No name is listed twice. *)
Theorem C88_listed_once : forall l h, NoDup (list_available h (run l)).
Proof. exact ListProofs.once. Qed.
(** Later classes add at most one name each, behind the others, and take none away. *)
Theorem C88_names_stay_in_order : forall l1 l2 h, exists more, list_available h (run (l1 ++ l2)) = list_available h (run l1) ++ more /\ length more <= length l2.
Proof. exact ListProofs.grows. Qed.

(** popsynth itself lists 15 distributions, 11 selections and 13 samplers. *)
Example C88_applies : no_abstract_mixins (run predefined) /\
  map (fun h => length (list_available h (run predefined))) [HDist; HSel; HAux] = [15; 11; 13] /\
  In "ParetoDistribution" (list_available HDist (run predefined)) /\ latest (run predefined) HDist "ParetoDistribution" id_ParetoDistribution.
Proof.
  assert (NM : no_abstract_mixins (run predefined)) by (apply ClassProofs.mixins_check; vm_compute; reflexivity).
  split; [exact NM|]. split; [vm_compute; reflexivity|]. split; [vm_compute; tauto|]. apply (ClassProofs.registry_iff predefined HDist); [exact NM|vm_compute; reflexivity].
Qed.

Print Assumptions C88_listed_iff_usable.
Print Assumptions C88_listed_iff_class.
Print Assumptions C88_listed_once.
Print Assumptions C88_names_stay_in_order.
