(** Specification vocabulary for auxiliary samplers. *)
From Verif Require Import Base Env ParamModel SelModel DistModel AuxModel.
Set Implicit Arguments.
Open Scope string_scope.
Open Scope list_scope.

Section Spec.
Variable E : env.
Notation V := (V E).
Notation sampler := (sampler E).
Notation world := (world E).

Definition at_ (w : world) (i : nat) (a : sampler) : Prop := nth_error (w_auxs w) i = Some a.

(** [j] is a direct secondary of [i]. *)
Definition depends (w : world) (i j : nat) : Prop :=
  exists a k, at_ w i a /\ In (k, j) (a_sec (a_ln a)).

(** [j] is [i] or a direct or indirect secondary of it. *)
Inductive reaches (w : world) : nat -> nat -> Prop :=
| reaches_refl i : reaches w i i
| reaches_step i j k : depends w i j -> reaches w j k -> reaches w i k.

(** No circular dependencies: secondaries have a smaller rank. *)
Definition acyclic (w : world) : Prop := exists rank : nat -> nat, forall i j, depends w i j -> rank j < rank i.

Definition sampled (w : world) (i : nat) : Prop := exists a, at_ w i a /\ a_sampled (a_dy a) = true.

(** [j] can be reached from [i] through samplers that are not sampled yet. *)
Inductive pending (w : world) : nat -> nat -> Prop :=
| pending_refl i : ~ sampled w i -> pending w i i
| pending_step i j k : ~ sampled w i -> depends w i j -> pending w j k -> pending w i k.

(** No two samplers share a selector object. *)
Definition own_selectors (w : world) : Prop :=
  forall i j a b, at_ w i a -> at_ w j b -> a_sel (a_ln a) = a_sel (a_ln b) -> i = j.

(** Same name, class, flags, secondaries and selector. *)
Definition same_wiring (w w' : world) : Prop :=
  map (fun a : sampler => (a_st a, a_ln a)) (w_auxs w) = map (fun a => (a_st a, a_ln a)) (w_auxs w').

(** Same in everything but the spatial values last handed over. *)
Definition same_values (a b : sampler) : Prop :=
  a_st a = a_st b /\ a_ln a = a_ln b /\
  a_par (a_dy a) = a_par (a_dy b) /\ a_sampled (a_dy a) = a_sampled (a_dy b) /\
  a_true (a_dy a) = a_true (a_dy b) /\ a_obs (a_dy a) = a_obs (a_dy b) /\
  a_prob (a_dy a) = a_prob (a_dy b) /\ a_lum (a_dy a) = a_lum (a_dy b).

(** [n] true and [n] observed values; equal if the sampler is not observed. *)
Definition filled (n : nat) (a : sampler) : Prop :=
  exists t o, a_true (a_dy a) = Some t /\ a_obs (a_dy a) = Some o /\
    length t = n /\ length o = n /\ (a_observed (a_st a) = false -> o = t).

(** The selector's state is the outcome of its [draw] on the observed values of [a]. *)
Definition selected_on (prog : bool) (n : nat) (w : world) (a : sampler) : Prop :=
  exists s0 g0 s1 g1,
    d_oval (s_data s0) = a_obs (a_dy a) /\
    sel_draw prog n (s0, g0) = (Ok tt, (s1, g1)) /\
    nth_error (w_sels w) (a_sel (a_ln a)) = Some s1.

(** The samplers in [t] were evaluated one after the other, taking [w] to [w']. *)
Record drew (prog : bool) (n : nat) (w : world) (t : list nat) (w' : world) : Prop := Drew {
  dr_wiring : same_wiring w w';
  dr_nsel : length (w_sels w') = length (w_sels w);
  dr_log : w_log w' = w_log w ++ t;
  dr_once : NoDup t;
  dr_new : forall j, In j t -> ~ sampled w j;
  dr_sampled : forall j, sampled w' j <-> sampled w j \/ In j t;
  dr_frame : forall j a, ~ In j t -> at_ w j a -> exists a', at_ w' j a' /\ same_values a a';
  dr_order : forall t1 j t2, t = t1 ++ j :: t2 -> forall k, depends w j k -> sampled w k \/ In k t1;
  dr_filled : forall j, In j t -> exists a, at_ w' j a /\ filled n a;
  dr_sels : forall i, (forall j a, In j t -> at_ w j a -> a_sel (a_ln a) <> i) ->
              nth_error (w_sels w') i = nth_error (w_sels w) i;
  dr_mask : own_selectors w -> forall j, In j t -> exists a, at_ w' j a /\ selected_on prog n w' a }.

(** Every reference of a sampler is valid. *)
Definition closed (w : world) : Prop := forall i a, at_ w i a ->
  (exists s, nth_error (w_sels w) (a_sel (a_ln a)) = Some s) /\
  forall k j, In (k, j) (a_sec (a_ln a)) -> exists b, at_ w j b.

(** Secondaries are filed under their names. *)
Definition keyed (w : world) : Prop := forall i a k j, at_ w i a ->
  In (k, j) (a_sec (a_ln a)) -> exists b, at_ w j b /\ name_of b = k.

(** An edge of the dependency graph below sampler [i]: from a secondary to its
    parent, or from an observed secondary to its observed value. *)
Definition tree_edge (w : world) (i : nat) (e : string * string) : Prop :=
  exists p a c b, reaches w i p /\ depends w p c /\ at_ w p a /\ at_ w c b /\
    (e = (name_of b, name_of a) \/ (a_observed (a_st b) = true /\ e = (name_of b, obs_name_of b))).

(** What [reset] did: parameters, luminosities and positions stay, and values
    disappear only from samplers that were drawn. *)
Record resets (w w' : world) : Prop := Resets {
  re_wiring : same_wiring w w';
  re_gens : w_g w' = w_g w /\ w_n w' = w_n w;
  re_log : w_log w' = w_log w;
  re_aux : forall j a, at_ w j a -> exists a', at_ w' j a' /\
     (a_dy a' = a_dy a \/
      (a_sampled (a_dy a) = true /\ a_sampled (a_dy a') = false /\ a_true (a_dy a') = None /\ a_obs (a_dy a') = None /\
       a_par (a_dy a') = a_par (a_dy a) /\ a_lum (a_dy a') = a_lum (a_dy a) /\ a_sp (a_dy a') = a_sp (a_dy a))) }.

(** A chain of first secondaries, none of them sampled, that never leaves [C]. *)
Definition endless (C : nat -> Prop) (w : world) : Prop :=
  forall j, C j -> exists a k j' r s, at_ w j a /\ a_sampled (a_dy a) = false /\ a_issec (a_ln a) = true /\
    nth_error (w_sels w) (a_sel (a_ln a)) = Some s /\ a_sec (a_ln a) = (k, j') :: r /\ C j'.

End Spec.
