(** Vocabulary for descriptions of synths (C82). *)
From Verif Require Import Base Env ParamModel DistModel AuxModel SynthModel DescModel.
Set Implicit Arguments.

Section S.
Variable E : env.
(** The sampler object that number [i] stands for. *)
Definition sampler_is (y : synth E) (i : nat) (a : sampler E) : Prop := nth_error (w_auxs (y_w y)) i = Some a.
(** [k], sampler [i], is a secondary of the sampler that derives the luminosity. *)
Definition of_luminosity (y : synth E) (k : string) (i : nat) : Prop :=
  exists d a, y_der y = Some d /\ sampler_is y d a /\ In (k, i) (a_sec (a_ln a)).
(** The synth refers to objects that exist. *)
Definition present (y : synth E) : Prop :=
  (forall d, y_der y = Some d -> exists a, sampler_is y d a) /\ (forall k i, In (k, i) (y_aux y) -> exists a, sampler_is y i a) /\
  (forall k i, of_luminosity y k i -> exists a, sampler_is y i a).
(** The table of a sampler, of the spatial distribution, of the luminosity. *)
Definition table_of (a : sampler E) := po_store (a_par (a_dy a)).
(** The section [s] describes a part of [y]. *)
Definition describes (y : synth E) (s : sect E) : Prop :=
  s = Sect "Spatial Function" (Some (m_form (y_spm y))) (po_store (sd_par (y_sp y))) \/
  (exists d a, y_der y = Some d /\ sampler_is y d a /\ s = Sect "Luminosity Function" None (table_of a)) \/
  (exists l, y_der y = None /\ y_lum y = Some l /\ s = Sect "Luminosity Function" (Some (m_form (y_lumm y))) (po_store (ld_par l))) \/
  (exists k i a, of_luminosity y k i /\ sampler_is y i a /\ s = Sect k None (table_of a)) \/
  (exists k i a, In (k, i) (y_aux y) /\ (forall j, ~ of_luminosity y k j) /\ sampler_is y i a /\ s = Sect k None (table_of a)).
End S.
