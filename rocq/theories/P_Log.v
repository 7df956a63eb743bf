(** C58: logging. *)
From Verif Require Import Base LogModel LogSpec.
From Verif Require LogProofs.
Open Scope Z_scope.

(** After a mode change and anything that is not one, [activate_logs] gives the user
    file and the console the levels they had; in every state. *)
Theorem C58_restores_partial : forall s o h, mode o -> (forall x, In x h -> no_mode x) ->
  same_levels s (after s (o :: h ++ [OActivate])).
Proof. exact LogProofs.restored. Qed.
(** What each mode sets. *)
Theorem C58_modes : forall s,
  (usr_level (step s OSilence) = CRITICAL /\ console_level (step s OSilence) = CRITICAL /\ dev_level (step s OSilence) = CRITICAL) /\
  (usr_level (step s OQuiet) = CRITICAL /\ console_level (step s OQuiet) = CRITICAL /\ dev_level (step s OQuiet) = CRITICAL /\ l_progress (step s OQuiet) = false) /\
  (usr_level (step s OLoud) = INFO /\ console_level (step s OLoud) = INFO /\ l_progress (step s OLoud) = true) /\
  (usr_level (step s ODebug) = usr_level s /\ console_level (step s ODebug) = DEBUG).
Proof. intros s. cbn. auto 10. Qed.
(** Two mode changes: the levels in force before the first are gone. *)
Theorem C58_twice_refuted : forall s o1 o2, mode o1 -> mode o2 ->
  let s1 := step s o1 in same_levels s1 (after s [o1; o2; OActivate]).
Proof. intros s o1 o2 _ M2. exact (LogProofs.restored (step s o1) o2 nil M2 (fun x F => match F with end)). Qed.
Theorem C58_silent_for_ever_refuted : forall s o1 o2, o1 = OSilence \/ o1 = OQuiet -> o2 = OSilence \/ o2 = OQuiet ->
  usr_level (after s [o1; o2; OActivate]) = CRITICAL /\ console_level (after s [o1; o2; OActivate]) = CRITICAL.
Proof. intros s o1 o2 [-> | ->] [-> | ->]; cbn; auto. Qed.
(** The developer log is switched on by [activate_logs], also if it was off. *)
Theorem C58_developer_log : forall s, dev_level (step s OActivate) = DEBUG.
Proof. reflexivity. Qed.
Theorem C58_developer_log_refuted : exists s o, mode o /\ dev_level s = CRITICAL /\ dev_level (after s [o; OActivate]) = DEBUG.
Proof. exists (after (logs_init WARNING WARNING true) [OSilence]), OLoud. unfold mode. cbn. auto. Qed.
(** [activate_logs] does not bring progress bars back. *)
Theorem C58_progress_bars : forall s, l_progress (after s [OQuiet; OActivate]) = false.
Proof. reflexivity. Qed.
(** Every exit from [silence_console_log()] restores the levels; the exception, if
    any, goes on.  Inside the block the levels are ERROR to begin with. *)
Theorem C58_console_block : forall body s, same_levels s (snd (run (OWith body) s)) /\
  exists s0, usr_level s0 = ERROR /\ console_level s0 = ERROR /\ fst (run (OWith body) s) = fst (runs body s0).
Proof.
  intros body s. destruct (LogProofs.with_levels body s) as (A & B). split; [exact A|]. eexists. split; [|split; [|exact B]]; reflexivity.
Qed.
(** After any history, activating warnings once lets them through again; while they
    are silenced no warning is written and nothing else is held back. *)
Theorem C58_warnings_back : forall u c b h,
  let s := after (logs_init u c b) h in let s' := step s OActivateWarnings in
  forall lvl, writes (l_usr s') lvl = (usr_level s <=? lvl) /\ writes (l_con s') lvl = (console_level s <=? lvl).
Proof.
  intros u c b h s s' lvl. assert (O : LogProofs.both_once s) by (apply LogProofs.once_after; split; reflexivity).
  split; apply LogProofs.writes_removed; apply O.
Qed.
Theorem C58_warnings_off : forall s, let s' := step s OSilenceWarnings in
  forall lvl, writes (l_usr s') lvl = writes (l_usr s) lvl && negb (lvl =? WARNING) /\ writes (l_con s') lvl = writes (l_con s) lvl && negb (lvl =? WARNING).
Proof. intros s s' lvl. split; apply LogProofs.writes_added. Qed.

Print Assumptions C58_restores_partial.
Print Assumptions C58_modes.
Print Assumptions C58_twice_refuted.
Print Assumptions C58_silent_for_ever_refuted.
Print Assumptions C58_developer_log.
Print Assumptions C58_developer_log_refuted.
Print Assumptions C58_progress_bars.
Print Assumptions C58_console_block.
Print Assumptions C58_warnings_back.
Print Assumptions C58_warnings_off.
