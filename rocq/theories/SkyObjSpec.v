(** Vocabulary for the sky sampler (C90). *)
From Coq Require Import Reals List String.
From Verif Require Import Base Env SelModel AuxModel AuxSpec SynthModel.
Import ListNotations.

Section S.
Context {E : env}.
(** Nothing that existed was changed, and no random number was drawn. *)
Definition extends (w w' : world E) : Prop :=
  w_g w' = w_g w /\ w_n w' = w_n w /\ w_log w' = w_log w /\
  (forall i a, nth_error (w_auxs w) i = Some a -> nth_error (w_auxs w') i = Some a) /\
  (forall i s, nth_error (w_sels w) i = Some s -> nth_error (w_sels w') i = Some s).
(** [x] is a sampler of the kind [k] and called [nm] that did not exist in [w], is attached
    to nothing, was not drawn, and has a selection of its own, which accepts everything. *)
Definition fresh (w w' : world E) (nm : string) (k : akind E) (x : registrable) : Prop :=
  exists i a, x = IsSampler i /\ nth_error (w_auxs w) i = None /\ at_ w' i a /\ name_of a = nm /\ kind_of a = k /\
    a_issec (a_ln a) = false /\ a_parents (a_ln a) = [] /\ a_sec (a_ln a) = [] /\ a_observed (a_st a) = false /\ a_sampled (a_dy a) = false /\
    nth_error (w_sels w) (a_sel (a_ln a)) = None /\ nth_error (w_sels w') (a_sel (a_ln a)) = Some (unity E "unity"%string).
(** [x] is the sampler given, or else such a new one. *)
Definition hands_out (w w' : world E) (nm : string) (k : akind E) (given : option registrable) (x : registrable) : Prop :=
  match given with Some z => x = z | None => fresh w w' nm k x end.
(** The selections of two samplers are different objects. *)
Definition apart (w : world E) (x z : registrable) : Prop :=
  forall i j a b, x = IsSampler i -> z = IsSampler j -> at_ w i a -> at_ w j b -> i <> j /\ a_sel (a_ln a) <> a_sel (a_ln b).
End S.
