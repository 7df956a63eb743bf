(** Model of [popsynth/utils/logging.py]: the three handlers, the stored state and
    the functions that switch modes. *)
From Verif Require Import Base.
Open Scope string_scope.
Open Scope Z_scope.

(** Levels of python's [logging]. *)
Definition DEBUG := 10. Definition INFO := 20. Definition WARNING := 30. Definition ERROR := 40. Definition CRITICAL := 50.

(** A handler: its level, and its filters.  [true] stands for [warning_filter]
    (104, 44-49), [false] for a filter somebody else added. *)
Record handler := Handler { h_level : Z; h_filters : list bool }.
Definition set_level (l : Z) (h : handler) : handler := Handler l (h_filters h).
(** [Filterer.addFilter], [removeFilter] of the standard library: a filter that is
    there is not added again; one occurrence is removed. *)
Definition add_filter (h : handler) : handler :=
  if existsb (fun b => b) (h_filters h) then h else Handler (h_level h) (h_filters h ++ [true]).
Fixpoint drop1 (l : list bool) : list bool :=
  match l with nil => nil | true :: r => r | false :: r => false :: drop1 r end.
Definition remove_filter (h : handler) : handler := Handler (h_level h) (drop1 (h_filters h)).

(** The module's state: user file, console and developer handlers, the two levels
    kept by [_log_state] (107-127, 173-176), and [popsynth_config.show_progress]. *)
Record logs := Logs { l_usr : handler; l_con : handler; l_dev : handler; l_susr : Z; l_scon : Z; l_progress : bool }.

(** After import (53-104, 173-176); [u] and [c] are the configured levels. *)
Definition logs_init (u c : Z) (progress : bool) : logs :=
  Logs (Handler u nil) (Handler c nil) (Handler DEBUG nil) u c progress.

(** The argument of [setLevel]: an integer, a level name, or something else
    ([logging._checkLevel]). *)
Inductive level_arg := LInt (z : Z) | LName (s : string) | LOther.
Definition names : dict Z :=
  [("CRITICAL", 50); ("FATAL", 50); ("ERROR", 40); ("WARN", 30); ("WARNING", 30); ("INFO", 20); ("DEBUG", 10); ("NOTSET", 0)].
Definition check_level (a : level_arg) : res Z :=
  match a with LInt z => Ok z | LName s => of_opt ValueError (dget names s) | LOther => Err TypeError end.

(** What a program does: the functions of the module; a raised exception; a block
    under [silence_console_log()]. *)
Inductive op :=
| OSilence                     (* silence_logs, 202-210 *)
| OQuiet                       (* quiet_mode, 223-231 *)
| OLoud                        (* loud_mode, 234-242 *)
| ODebug                       (* debug_mode, 256-262 *)
| OActivate                    (* activate_logs, 245-253 *)
| OSilenceWarnings             (* silence_warnings, 179-185 *)
| OActivateWarnings            (* activate_warnings, 188-194 *)
| OUpdate (l : level_arg)      (* update_logging_level, 197-199 *)
| OBars (b : bool)             (* show_/silence_progress_bars, 213-220 *)
| ORaise (e : exn)
| OWith (body : list op).      (* silence_console_log, 265-280 *)

Definition LM := M logs.
Definition on_usr (f : handler -> handler) : LM unit :=
  modify (fun s => Logs (f (l_usr s)) (l_con s) (l_dev s) (l_susr s) (l_scon s) (l_progress s)).
Definition on_con (f : handler -> handler) : LM unit :=
  modify (fun s => Logs (l_usr s) (f (l_con s)) (l_dev s) (l_susr s) (l_scon s) (l_progress s)).
Definition on_dev (f : handler -> handler) : LM unit :=
  modify (fun s => Logs (l_usr s) (l_con s) (f (l_dev s)) (l_susr s) (l_scon s) (l_progress s)).
Definition bars (b : bool) : LM unit :=
  modify (fun s => Logs (l_usr s) (l_con s) (l_dev s) (l_susr s) (l_scon s) b).

(** [_store_state], [restore_last_state], [silence_logs], [loud_logs],
    [debug_logs] of [LoggingState] (129-170). *)
Definition store_state : LM unit :=
  modify (fun s => Logs (l_usr s) (l_con s) (l_dev s) (h_level (l_usr s)) (h_level (l_con s)) (l_progress s)).
Definition restore_last_state : LM unit :=
  let! s := get in on_usr (set_level (l_susr s)) ;; on_con (set_level (l_scon s)).
Definition state_silence : LM unit := store_state ;; on_usr (set_level CRITICAL) ;; on_con (set_level CRITICAL).
Definition state_loud : LM unit := store_state ;; on_usr (set_level INFO) ;; on_con (set_level INFO).
Definition state_debug : LM unit := store_state ;; on_con (set_level DEBUG).

Definition silence_logs : LM unit := on_dev (set_level CRITICAL) ;; state_silence.

(** [try: yield finally: ...] *)
Definition finally {A} (m : LM A) (f : LM unit) : LM A := fun s =>
  let (r, s1) := m s in let (r2, s2) := f s1 in (match r2 with Ok _ => r | Err e => Err e end, s2).

Fixpoint run (o : op) : LM unit :=
  match o with
  | OSilence => silence_logs
  | OQuiet => bars false ;; silence_logs
  | OLoud => bars true ;; state_loud
  | ODebug => state_debug
  | OActivate => on_dev (set_level DEBUG) ;; restore_last_state
  | OSilenceWarnings => on_usr add_filter ;; on_con add_filter
  | OActivateWarnings => on_usr remove_filter ;; on_con remove_filter
  | OUpdate a => let! l := lift (check_level a) in on_con (set_level l)
  | OBars b => bars b
  | ORaise e => raise e
  | OWith body =>
      let! s := get in
      on_con (set_level ERROR) ;; on_usr (set_level ERROR) ;;
      finally ((fix go (l : list op) : LM unit := match l with nil => ret tt | x :: r => run x ;; go r end) body)
              (on_con (set_level (h_level (l_con s))) ;; on_usr (set_level (h_level (l_usr s))))
  end.
(** Statements one after the other; an exception ends them. *)
Fixpoint runs (l : list op) : LM unit := match l with nil => ret tt | x :: r => run x ;; runs r end.

(** A history at the prompt: each statement is run, whatever happened before. *)
Definition step (s : logs) (o : op) : logs := snd (run o s).
Definition after (s : logs) (h : list op) : logs := fold_left step h s.

(** Whether a handler writes a record of a level ([Logger.callHandlers],
    [Handler.handle]); other filters are supposed to let it pass. *)
Definition writes (h : handler) (lvl : Z) : bool :=
  (h_level h <=? lvl) && forallb (fun b : bool => if b then negb (lvl =? WARNING) else true) (h_filters h).
