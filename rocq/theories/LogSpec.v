(** Specification for C58. *)
From Verif Require Import Base LogModel.
Open Scope Z_scope.

(** The four functions that change the mode. *)
Definition mode (o : op) : Prop := o = OSilence \/ o = OQuiet \/ o = OLoud \/ o = ODebug.
(** No mode is changed and none restored, at any depth. *)
Inductive no_mode : op -> Prop :=
| nm_sw : no_mode OSilenceWarnings
| nm_aw : no_mode OActivateWarnings
| nm_up a : no_mode (OUpdate a)
| nm_bars b : no_mode (OBars b)
| nm_raise e : no_mode (ORaise e)
| nm_with l : (forall o, In o l -> no_mode o) -> no_mode (OWith l).

Definition usr_level (s : logs) : Z := h_level (l_usr s).
Definition console_level (s : logs) : Z := h_level (l_con s).
Definition dev_level (s : logs) : Z := h_level (l_dev s).
(** The levels users see. *)
Definition same_levels (s s' : logs) : Prop := usr_level s' = usr_level s /\ console_level s' = console_level s.
