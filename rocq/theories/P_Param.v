(** C01-C04: parameters. *)
From Verif Require Import Base ParamModel ParamSpec ParamProofs ParamExamples.
Open Scope string_scope.

Section P.
Variable V : Type.
Variables ge le : V -> V -> bool.

(** C01.  After any history of reads, assignments and fix/free on [n] instances,
    reading parameter [k] of instance [i] gives the last accepted assignment, or
    the default, or [AssertionError]. *)
Theorem C01_read_last_accepted (c : pclass V) n h i k d :
  no_norm_set h -> i < n -> dget c k = Some d ->
  let r := prun ge le (pinit c n) h in
  reads ge le (snd r) i k =
  match last_accepted i k h (fst r) None with
  | Some v => Ok (Some v)
  | None => match pd_default d with Some v => Ok (Some v) | None => Err AssertionError end
  end.
Proof. exact (@read_last_accepted V ge le c n h i k d). Qed.

(** C01.  A read, and an assignment to anything else, never changes a read. *)
Theorem C01_read_is_pure (s : pstate V) i k i2 k2 :
  reads ge le (snd (pstep ge le s (PGet V i k))) i2 k2 = reads ge le s i2 k2.
Proof. exact (get_keeps_reads ge le s i k i2 k2). Qed.

Theorem C01_set_is_local (s : pstate V) i k v i2 k2 :
  (i2, k2) <> (i, k) ->
  reads ge le (snd (pstep ge le s (PSet i k v))) i2 k2 = reads ge le s i2 k2.
Proof. exact (@set_keeps_other_reads V ge le s i k v i2 k2). Qed.

(** C02.  An assignment is accepted exactly when the parameter is free and the
    value satisfies both bounds (for NaN the comparisons are false); otherwise it
    raises [RuntimeError]. *)
Theorem C02_set_outcome (s : pstate V) i k v ob d :
  nth_error (ps_objs s) i = Some ob -> dget (ps_class s) k = Some d ->
  (pd_free d = true /\ within ge le d v -> fst (pstep ge le s (PSet i k (Some v))) = Ok None) /\
  (~ (pd_free d = true /\ within ge le d v) ->
     fst (pstep ge le s (PSet i k (Some v))) = Err RuntimeError).
Proof. exact (@set_outcome V ge le s i k v ob d). Qed.

(** C02.  A rejected assignment leaves every readable value as it was. *)
Theorem C02_rejected_set_keeps_values (s : pstate V) i k v e :
  fst (pstep ge le s (PSet i k v)) = Err e ->
  forall i2 k2, reads ge le (snd (pstep ge le s (PSet i k v))) i2 k2 = reads ge le s i2 k2.
Proof. exact (@rejected_set_keeps_reads V ge le s i k v e). Qed.

(** C02.  Whatever the history, a value read satisfies the bounds or is the
    declared default. *)
Theorem C02_reads_within_bounds (c : pclass V) n h i k d v :
  no_norm_set h -> i < n -> dget c k = Some d ->
  reads ge le (snd (prun ge le (pinit c n) h)) i k = Ok (Some v) ->
  within ge le d v \/ pd_default d = Some v.
Proof. exact (@reads_within V ge le c n h i k d v). Qed.

(** C03.  While fixed, every assignment on every instance raises and the value
    read through every instance stays the same. *)
Theorem C03_fixed_never_changes (s : pstate V) k d h :
  dget (ps_class s) k = Some d -> pd_free d = false ->
  never_refixed k h -> no_norm_set h ->
  (forall i v x, In (PSet i k v, x) (combine h (fst (prun ge le s h))) ->
                 i < length (ps_objs s) -> x = Err RuntimeError) /\
  (forall i, reads ge le (snd (prun ge le s h)) i k = reads ge le s i k).
Proof. exact (@fixed_never_changes V ge le h s k d). Qed.

(** C03.  Setting the flag affects the shared declaration and nothing else in it. *)
Theorem C03_fix_is_shared (s : pstate V) k d b :
  dget (ps_class s) k = Some d ->
  exists d', dget (ps_class (snd (pstep ge le s (PFix V k b)))) k = Some d' /\
             pd_free d' = negb b /\ pd_default d' = pd_default d /\
             pd_vmin d' = pd_vmin d /\ pd_vmax d' = pd_vmax d.
Proof. exact (@fix_sets_flag V ge le s k d b). Qed.

(** C04.  The check never fires, whatever the class body. *)
Theorem C04_every_class_accepted (attrs : list (string * option (pdecl V))) :
  meta_new attrs = Ok tt.
Proof. exact (meta_accepts_all attrs). Qed.
End P.

(** C02.  The [normalization_parameter] setter can store an out-of-range value. *)
Theorem C02_norm_setter_refuted :
  exists (c : pclass Z) (d : pdecl Z) (h : list (pop Z)),
    dget c "Lambda" = Some d /\ pd_vmin d = Some 0%Z /\ pd_default d = Some 1%Z /\
    reads Z.geb Z.leb (snd (prun Z.geb Z.leb (pinit c 1) h)) 0 "Lambda" = Ok (Some (-1)%Z).
Proof. exact norm_setter_breaks_bounds. Qed.

(** C04.  A class with two normalisation parameters is accepted. *)
Theorem C04_one_normalization_refuted :
  exists attrs : list (string * option (pdecl Z)),
    length (filter (fun a => match snd a with Some d => pd_norm d | None => false end) attrs) = 2 /\
    meta_new attrs = Ok tt.
Proof. exact two_normalizations. Qed.

Print Assumptions C01_read_last_accepted.
Print Assumptions C01_read_is_pure.
Print Assumptions C01_set_is_local.
Print Assumptions C02_set_outcome.
Print Assumptions C02_rejected_set_keeps_values.
Print Assumptions C02_reads_within_bounds.
Print Assumptions C02_norm_setter_refuted.
Print Assumptions C03_fixed_never_changes.
Print Assumptions C03_fix_is_shared.
Print Assumptions C04_every_class_accepted.
Print Assumptions C04_one_normalization_refuted.
