(** Samplers with a history, beside copies that were never drawn. *)
From Verif Require Import Base Env ParamModel SelModel DistModel AuxModel AuxSpec.
Set Implicit Arguments.
Open Scope nat_scope.

Section Spec.
Variable E : env.
Notation V := (V E).
Notation world := (world E).

(** [sampler.k = v] and [sampler._selector.k = v] (meta.py:72-100). *)
Definition ge (a b : V) : bool := vle E b a.
Definition assign_aux (i : nat) (k : string) (v : option V) : AM E unit :=
  let! a := get_aux i in
  match dget (k_params (kind_of a)) k with
  | None => raise AttributeError
  | Some d => let (r, o) := param_set ge (vle E) d k v (a_par (a_dy a)) in upd_aux i (dy_par o) ;; lift r
  end.
Definition assign_sel (i : nat) (k : string) (v : option V) : AM E unit :=
  let! s := get_sel i in
  match dget (sel_class (s_kind s)) k with
  | None => raise AttributeError
  | Some d => let (r, o) := param_set ge (vle E) d k v (s_par s) in put_sel i (with_par s o) ;; lift r
  end.

(** What a user tells samplers and selectors: luminosities, positions, parameters. *)
Inductive setting :=
| GiveLum (i : nat) (l : list V)
| GivePos (i : nat) (p : spvals E)
| Assign (i : nat) (k : string) (v : option V)
| AssignSel (i : nat) (k : string) (v : option V).
Definition apply_setting (s : setting) : AM E unit :=
  match s with
  | GiveLum i l => set_lum i l
  | GivePos i p => set_sp i p
  | Assign i k v => assign_aux i k v
  | AssignSel i k v => assign_sel i k v
  end.

(** Nothing has been drawn or selected. *)
Definition unused (w : world) : Prop :=
  (forall i a, at_ w i a -> a_sampled (a_dy a) = false /\ a_true (a_dy a) = None /\ a_obs (a_dy a) = None) /\
  (forall k s, nth_error (w_sels w) k = Some s -> s_sampled s = false /\ s_mask s = None).

(** [w] has a history of settings, draws and resets; [c] is a copy that got the same
    settings (accepted or refused) but was never drawn. *)
Inductive lived : world -> world -> Prop :=
| lived_new w : unused w -> lived w w
| lived_set s w c : lived w c -> lived (snd (apply_setting s w)) (snd (apply_setting s c))
| lived_draw prog fuel i n w c w' : lived w c -> aux_draw prog fuel i n w = (Ok tt, w') -> lived w' c
| lived_reset fuel i w c w' : lived w c -> aux_reset fuel i w = (Ok tt, w') -> lived w' c.

(** Sampler [j] gives the same values, probabilities and selection in both. *)
Definition same_outcome (w c : world) (j : nat) : Prop := exists a b s t,
  at_ w j a /\ at_ c j b /\
  nth_error (w_sels w) (a_sel (a_ln a)) = Some s /\ nth_error (w_sels c) (a_sel (a_ln b)) = Some t /\
  a_true (a_dy a) = a_true (a_dy b) /\ a_obs (a_dy a) = a_obs (a_dy b) /\
  probability_of a = probability_of b /\ s_mask s = s_mask t.
End Spec.
