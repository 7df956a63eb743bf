(** Concrete histories. *)
From Verif Require Import Base LogModel LogSpec.
Open Scope string_scope.
Open Scope Z_scope.
Definition start : logs := logs_init WARNING INFO true.
Lemma restored_run : let s := after start [OUpdate (LName "ERROR"); OQuiet; OWith [OUpdate (LInt 5); ORaise ValueError]; OSilenceWarnings; OActivate] in
  (usr_level s, console_level s, dev_level s, l_progress s) = (30, 40, 10, false).
Proof. reflexivity. Qed.
Lemma between : forall o, In o [OWith [OUpdate (LInt 5); ORaise ValueError]; OSilenceWarnings] -> no_mode o.
Proof.
  intros o [<-|[<-|[]]]; constructor. intros o [<-|[<-|[]]]; constructor.
Qed.
(** Silenced twice, the logs stay silent. *)
Lemma twice_run : let s := after start [OSilence; OQuiet; OActivate] in (usr_level s, console_level s) = (50, 50).
Proof. reflexivity. Qed.
(** A block that raises, in a program. *)
Lemma block_run : let (r, s) := runs [OWith [OBars false; OLoud; ORaise KeyError; OSilence]; OSilence] start in
  (r, usr_level s, console_level s, l_progress s) = (Err KeyError, 30, 20, true).
Proof. reflexivity. Qed.
Lemma bad_level : fst (run (OUpdate (LName "LOUD")) start) = Err ValueError /\ fst (run (OUpdate LOther) start) = Err TypeError.
Proof. split; reflexivity. Qed.
(** Warnings silenced twice and activated once. *)
Lemma warn_run : let s := after start [OSilenceWarnings; OSilenceWarnings] in let s' := step s OActivateWarnings in
  (writes (l_usr s) 30, writes (l_con s) 30, writes (l_con s) 40, writes (l_usr s') 30, writes (l_con s') 30) = (false, false, true, true, true).
Proof. reflexivity. Qed.
