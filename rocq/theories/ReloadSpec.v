(** Synths that have been assembled but not drawn from yet (C64). *)
From Verif Require Import Base Env ParamModel SelModel DistModel AuxModel SynthModel Tree ConfModel ConfSpec.
Set Implicit Arguments.
Open Scope string_scope.

Section Spec.
Variable E : env.
Notation V := (V E).
Notation synth := (synth E).
Notation selector := (selector E).

(** The class declares at most one normalisation parameter. *)
Definition one_norm (c : pclass V) : Prop := forall k k' d d',
  dget c k = Some d -> dget c k' = Some d' -> pd_norm d = true -> pd_norm d' = true -> k = k'.
(** Parameters have been given values; the object knows its normalisation parameter
    exactly if that is one of them. *)
Record settled (c : pclass V) (o : pobj V) : Prop := {
  st_one : one_norm c;
  st_some : forall k v, In (k, v) (po_store o) -> v <> None;
  st_norm : forall k, po_norm o = Some k <-> In k (dkeys (po_store o)) /\ exists d, dget c k = Some d /\ pd_norm d = true }.

(** A selector that has not been used. *)
Definition new_selection (s : selector) : Prop :=
  s_data s = no_data E /\ s_mask s = None /\ s_sampled s = false /\ settled (sel_class (s_kind s)) (s_par s).

(** What a selector is used for in a synth. *)
Inductive purpose := ForFlux | ForDistance | ForSky | ForSampler (i : nat).
Definition selects (y : synth) (r : purpose) (k : nat) : Prop :=
  match r with
  | ForFlux => k = y_flux y
  | ForDistance => k = y_dsel y
  | ForSky => y_ssel y = Some k
  | ForSampler i => reach y i /\ exists a, nth_error (w_auxs (y_w y)) i = Some a /\ k = a_sel (a_ln a)
  end.

Record undrawn (y : synth) : Prop := {
  un_sp : sd_dist (y_sp y) = None /\ sd_theta (y_sp y) = None /\ sd_phi (y_sp y) = None /\ sd_prob (y_sp y) = None /\
          settled (sc_params (sd_cls (y_sp y))) (sd_par (y_sp y));
  un_lum : forall l, y_lum y = Some l -> ld_prob l = None /\ settled (lc_params (ld_cls l)) (ld_par l);
  (** no model space was added, the graph was not read *)
  un_extra : y_nmodel y = 500 /\ y_spaces y = [] /\ y_graph y = add_node (sd_name (y_sp y)) None g_empty;
  (** selections that were not chosen accept everything *)
  un_flux : y_fluxset y = false -> exists s, nth_error (w_sels (y_w y)) (y_flux y) = Some s /\ s_kind s = KUnity E /\ s_type s = "UnitySelection" /\ s_par s = pobj_new V;
  un_dist : y_dset y = false -> exists s, nth_error (w_sels (y_w y)) (y_dsel y) = Some s /\ s_kind s = KUnity E /\ s_type s = "UnitySelection" /\ s_par s = pobj_new V;
  (** selectors are new, and each is used for one thing *)
  un_sels : forall r k, selects y r k -> exists s, nth_error (w_sels (y_w y)) k = Some s /\ new_selection s;
  un_apart : forall r r' k, selects y r k -> selects y r' k -> r = r';
  (** samplers are new; those below others have been marked *)
  un_aux : forall i, reach y i -> exists a o, nth_error (w_auxs (y_w y)) i = Some a /\
    a_dy a = ADyn o false None None None None None /\ settled (k_params (kind_of a)) o /\
    (a_issec (a_ln a) = true <-> secondary_of y i) }.

(** Constructors make new objects of classes with at most one normalisation
    parameter. *)
Record makes_new (rg : registry E) : Prop := {
  mn_sp : forall nm d m, rg_dist rg nm = Ok (DSpatial d m) ->
    d = sd_new (sd_cls d) (sd_name d) /\ one_norm (sc_params (sd_cls d));
  mn_lum : forall nm d m, rg_dist rg nm = Ok (DLuminosity d m) ->
    d = LDist (ld_cls d) (ld_name d) (pobj_new V) None /\ one_norm (lc_params (ld_cls d));
  mn_sel : forall nm c, rg_sel rg nm = Ok c ->
    s_data (sc_new c) = no_data E /\ s_mask (sc_new c) = None /\ s_sampled (sc_new c) = false /\ s_par (sc_new c) = pobj_new V;
  mn_aux : forall nm c n o i st, rg_aux rg nm = Ok c -> ac_new c n o i = Ok st -> one_norm (k_params (a_kind st)) }.
End Spec.
