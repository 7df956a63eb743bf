(** C17-C21: auxiliary samplers. *)
From Verif Require Import Base BaseFacts Env ParamModel SelModel DistModel AuxModel AuxSpec
  AuxProofs AuxCycle AuxProps AuxMore AuxChoose Toy AuxExamples.
Open Scope string_scope.
Open Scope list_scope.

(** C17.  A draw evaluates a list [t] of samplers one after the other: exactly those
    that can be reached through samplers not yet sampled, each once, each after its
    secondaries, the drawn sampler last; all others keep their values ([drew]). *)
Theorem C17_draws_once_after_secondaries : forall E prog fuel i size (w w' : world E),
  acyclic w -> aux_draw prog fuel i size w = (Ok tt, w') ->
  exists t, drew prog size w t w' /\ sampled w' i /\ (forall j, In j t <-> pending w i j) /\
    (~ sampled w i -> exists t1, t = t1 ++ [i]).
Proof. exact draw_exactly. Qed.

(** C17.  In plain words, from the record of calls. *)
Theorem C17_each_call_once_in_order : forall E prog fuel i size (w w' : world E),
  acyclic w -> aux_draw prog fuel i size w = (Ok tt, w') ->
  exists t, w_log w' = w_log w ++ t /\ NoDup t /\ (forall j, In j t <-> pending w i j) /\
    (forall t1 j t2, t = t1 ++ j :: t2 -> forall k, depends w j k -> sampled w k \/ In k t1) /\
    (forall j a, ~ In j t -> at_ w j a -> exists a', at_ w' j a' /\ same_values a a').
Proof.
  intros E prog fuel i size w w' AC H. destruct (draw_exactly _ _ _ _ _ _ _ AC H) as (t & D & _ & P & _).
  exists t. destruct D. auto 8.
Qed.

(** C18.  After a draw on unsampled samplers. *)
Theorem C18_values_and_mask_after_draw : forall E prog fuel i size (w w' : world E),
  acyclic w -> (forall j, reaches w i j -> ~ sampled w j) ->
  aux_draw prog fuel i size w = (Ok tt, w') ->
  forall j, reaches w i j -> exists a, at_ w' j a /\ a_sampled (a_dy a) = true /\ filled size a /\
     (own_selectors w -> selected_on prog size w' a).
Proof. exact fresh_draw. Qed.

(** C18.  A selector given to a sampler is the one that judges its observed values, and
    giving it changes nothing else. *)
Theorem C18_chosen_selector_judges : forall E prog fuel size i sel (w w1 w2 : world E),
  acyclic w -> (forall j, reaches w i j -> ~ sampled w j) ->
  set_selection i sel w = (Ok tt, w1) -> own_selectors w1 -> aux_draw prog fuel i size w1 = (Ok tt, w2) ->
  exists a s0 g0 s1 g1, at_ w2 i a /\ filled size a /\ d_oval (s_data s0) = a_obs (a_dy a) /\
    sel_draw prog size (s0, g0) = (Ok tt, (s1, g1)) /\ nth_error (w_sels w2) sel = Some s1.
Proof. exact chosen_judges. Qed.
Theorem C18_choosing_changes_only_the_selector : forall E i sel (w w1 : world E),
  set_selection i sel w = (Ok tt, w1) ->
  exists a b, at_ w i a /\ at_ w1 i b /\ a_st b = a_st a /\ a_dy b = a_dy a /\ a_sec (a_ln b) = a_sec (a_ln a) /\ a_sel (a_ln b) = sel /\
    (forall j, j <> i -> nth_error (w_auxs w1) j = nth_error (w_auxs w) j) /\ w_sels w1 = w_sels w.
Proof.
  intros E i sel w w1 H. destruct (set_selection_ok _ _ _ _ _ H) as (a & A & A1 & O & S & _). eexists a, _. split; [exact A|]. split; [exact A1|]. auto 10.
Qed.

(** C18 needs a selector object of its own for each sampler. *)
Theorem C18_shared_selector_refuted :
  exists (w w' : world toy), acyclic w /\ (forall j, ~ sampled w j) /\
    aux_draw false 10 0 3 w = (Ok tt, w') /\
    exists b s, at_ w' 1 b /\ reaches w 0 1 /\ a_obs (a_dy b) = Some [8; 9; 10]%Z /\
      nth_error (w_sels w') (a_sel (a_ln b)) = Some s /\
      dget (po_store (s_par s)) "boundary" = Some (Some 9%Z) /\ s_mask s = Some [true; true; true].
Proof. exact shared_selector. Qed.

(** C18.  A sampler declared observed that keeps the inherited observation_sampler
    can never be drawn. *)
Theorem C18_inherited_observation_sampler_fails : forall E prog fuel i size (w : world E) a,
  acyclic w -> at_ w i a -> a_sampled (a_dy a) = false -> a_observed (a_st a) = true -> a_obs (a_dy a) = None ->
  (forall vals v n g, fst (k_obs (kind_of a) vals v n g) = Ok None) ->
  fst (aux_draw prog fuel i size w) <> Ok tt.
Proof. exact default_observation_fails. Qed.

(** C19.  Reset forgets the values of all direct and indirect secondaries. *)
Theorem C19_reset_forgets_values : forall E fuel i (w w' : world E),
  aux_reset fuel i w = (Ok tt, w') ->
  (forall j a, reaches w i j -> at_ w j a -> a_sampled (a_dy a) = true ->
     exists a', at_ w' j a' /\ a_sampled (a_dy a') = false /\ a_true (a_dy a') = None /\ a_obs (a_dy a') = None) /\
  resets w w'.
Proof. exact reset_forgets. Qed.

(** C19.  Reset always succeeds on samplers without circular dependencies. *)
Theorem C19_reset_succeeds : forall E fuel i (w : world E) a (r : nat -> nat),
  (forall i j, depends w i j -> r j < r i) -> closed w -> at_ w i a -> r i < fuel ->
  exists w', aux_reset fuel i w = (Ok tt, w') /\ same_wiring w w' /\ length (w_sels w') = length (w_sels w).
Proof. exact reset_total. Qed.

(** C20.  Circular dependencies can be registered ... *)
Theorem C20_any_connection_is_accepted : forall E p c (w : world E) a b, at_ w p a -> at_ w c b ->
  exists w', set_secondary p c w = (Ok tt, w') /\ depends w' p c /\ w_sels w' = w_sels w /\
    (forall i a', at_ w' i a' -> exists a0, at_ w i a0 /\ a_st a' = a_st a0 /\ a_dy a' = a_dy a0) /\
    (exists b', at_ w' c b' /\ a_issec (a_ln b') = true).
Proof. exact registration_accepts. Qed.

(** ... but drawing never returns ... *)
Theorem C20_cycle_never_returns : forall E prog fuel size (w : world E) i c d,
  pending w i c -> depends w c d -> pending w d c ->
  fst (aux_draw prog fuel i size w) <> Ok tt.
Proof. exact cycle_never_returns. Qed.

(** ... and raises RecursionError at any recursion limit if the circle is met first. *)
Theorem C20_cycle_raises_recursion_error : forall E prog fuel size C i (w : world E) a sp,
  endless C w -> C i -> at_ w i a -> a_sp (a_dy a) = Some sp ->
  fst (aux_draw prog fuel i size w) = Err RecursionError.
Proof. exact endless_raises. Qed.

(** C21 *)
Theorem C21_one_entry_per_name : forall E fuel (w : world E) i p G s G',
  (forall j b, reaches w i j -> at_ w j b -> name_of b <> "") ->
  sec_props fuel (w_auxs w) i p G = (Ok s, G') ->
  NoDup (dkeys s) /\
  (forall k, In k (dkeys s) <-> exists j b, reaches w i j /\ at_ w j b /\ name_of b = k) /\
  ((forall j j' b b', reaches w i j -> reaches w i j' -> at_ w j b -> at_ w j' b' -> name_of b = name_of b' -> j = j') ->
   forall j b, reaches w i j -> at_ w j b -> exists c, dget s (name_of b) = Some c /\
     c_true c = a_true (a_dy b) /\ c_obs c = a_obs (a_dy b) /\ c_sel c = a_sel (a_ln b) /\ c_prob c = probability_of b).
Proof. exact props_entries. Qed.

Theorem C21_collecting_succeeds : forall E fuel (w : world E) i p a (r : nat -> nat),
  (forall i j, depends w i j -> r j < r i) -> closed w -> at_ w i a -> r i < fuel ->
  exists s, sec_props fuel (w_auxs w) i p None = (Ok s, None).
Proof. exact props_succeed. Qed.

(** C21 is false of a secondary whose name is empty. *)
Theorem C21_empty_name_lost_refuted : exists (w : world toy) s,
  sec_props 10 (w_auxs w) 0 "x" None = (Ok s, None) /\
  exists b, at_ w 1 b /\ reaches w 0 1 /\ ~ In (name_of b) (dkeys s).
Proof. exact empty_name_lost. Qed.

Print Assumptions C17_draws_once_after_secondaries.
Print Assumptions C17_each_call_once_in_order.
Print Assumptions C18_values_and_mask_after_draw.
Print Assumptions C18_chosen_selector_judges.
Print Assumptions C18_shared_selector_refuted.
Print Assumptions C18_inherited_observation_sampler_fails.
Print Assumptions C19_reset_forgets_values.
Print Assumptions C19_reset_succeeds.
Print Assumptions C20_any_connection_is_accepted.
Print Assumptions C20_cycle_never_returns.
Print Assumptions C20_cycle_raises_recursion_error.
Print Assumptions C21_one_entry_per_name.
Print Assumptions C21_collecting_succeeds.
Print Assumptions C21_empty_name_lost_refuted.
Print Assumptions C18_choosing_changes_only_the_selector.
