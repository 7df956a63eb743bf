(** Specification for C79: synths whose surveys can be kept in a file. *)
From Verif Require Import Base Env ParamModel SelModel DistModel AuxModel Tree PopModel SynthModel HdfModel HdfSpec.
Set Implicit Arguments.
Open Scope string_scope.

(** The names of the parameters can be stored. *)
Definition named_parameters V (c : pclass V) (o : pobj V) : Prop :=
  plain_names (po_store o) /\ (forall k d, dget c k = Some d -> plain_name k) /\ (forall k, po_norm o = Some k -> plain_name k).
(** And every parameter has a value or a default; none is [None]. *)
Definition set_parameters V (c : pclass V) (o : pobj V) : Prop :=
  named_parameters c o /\ (forall k, ~ In (k, None) (po_store o)) /\
  (forall k d, dget c k = Some d -> pd_default d = None -> exists v, dget (po_store o) k = Some (Some v)).
(** Text that HDF5 stores, and that is not the mark of an empty dictionary. *)
Definition text (s : string) : Prop := no_nul s /\ s <> "FILL_VALUE".

Section Spec.
Variable E : env.

Record keepable_sampler (a : sampler E) : Prop := KeepableSampler {
  ks_name : plain_name (name_of a) /\ text (name_of a);
  ks_type : text (a_type (a_st a));
  ks_par : named_parameters (k_params (kind_of a)) (a_par (a_dy a));
  ks_sec : forall k j, In (k, j) (a_sec (a_ln a)) -> plain_name k }.
Record keepable_selector (s : selector E) : Prop := KeepableSelector {
  kl_type : plain_name (s_type s);
  kl_par : named_parameters (sel_class (s_kind s)) (s_par s) }.
(** Names of distributions, samplers, parameters, classes and model spaces can be stored,
    forms and the name of the synth are ASCII, the distributions are set up, the numbers
    fit. *)
Record keepable (y : synth E) : Prop := Keepable {
  ke_name : is_ascii (y_name y) = true;
  ke_forms : is_ascii (m_form (y_spm y)) = true /\ is_ascii (m_form (y_lumm y)) = true;
  ke_nmodel : fits64 (Z.of_nat (y_nmodel y));
  ke_seed : fits64 (y_seed y);
  ke_spaces : plain_names (y_spaces y);
  ke_sp : plain_name (sd_name (y_sp y)) /\ set_parameters (sc_params (sd_cls (y_sp y))) (sd_par (y_sp y));
  ke_types : plain_name (m_type (y_spm y)) /\ m_type (y_spm y) <> "is_rate" /\ (y_lum y <> None -> plain_name (m_type (y_lumm y)));
  ke_lum : forall l, y_lum y = Some l -> plain_name (ld_name l) /\ set_parameters (lc_params (ld_cls l)) (ld_par l);
  ke_samplers : forall a, In a (w_auxs (y_w y)) -> keepable_sampler a;
  ke_selectors : forall s, In s (w_sels (y_w y)) -> keepable_selector s;
  ke_aux : forall k i, In (k, i) (y_aux y) -> plain_name k;
  ke_graph : gr_nodes (y_graph y) <> nil /\ sound_graph (y_graph y) /\ forall k, In k (dkeys (gr_nodes (y_graph y))) -> plain_name k }.
End Spec.
