(** What a draw of an auxiliary sampler does with the methods of its class. *)
From Verif Require Import Base Env ParamModel DistModel DistSpec AuxModel AuxSpec.
Set Implicit Arguments.
Open Scope string_scope.

Section Spec.
Variable E : env.
Notation V := (V E).
Notation sampler := (sampler E).

(** [v] is what the sampler's parameter [k] reads as. *)
Definition reads_as (a : sampler) (k : string) (v : V) : Prop := reading E (k_params (kind_of a)) (a_par (a_dy a)) k = Ok v.

(** A method either assigned the attribute or left it alone. *)
Definition assigned (x : option (list V)) (attribute : option (list V)) : Prop :=
  match x with Some l => attribute = Some l | None => True end.

(** What a method sees of [w]: the luminosities given to the sampler and, under their
    names, the values of its secondaries. *)
Definition sees (w : world E) (a : sampler) (v : view E) : Prop :=
  vw_lum v = a_lum (a_dy a) /\
  Forall2 (fun (kj : string * nat) (kv : string * (option (list V) * option (list V))) =>
             fst kv = fst kj /\ exists b, at_ w (snd kj) b /\ a_sampled (a_dy b) = true /\ snd kv = (a_true (a_dy b), a_obs (a_dy b)))
          (a_sec (a_ln a)) (vw_sec v).

(** The true values come from [true_sampler], called with the values of the
    parameters; the observed ones from [observation_sampler], called directly
    afterwards on these true values, or are the true values; the probability from
    [_compute_probability]. *)
Definition made_by_methods (size : nat) (w : world E) (a : sampler) : Prop :=
  exists tvals tview g0 g1 x,
    Forall2 (reads_as a) (k_treads (kind_of a)) tvals /\ sees w a tview /\
    k_true (kind_of a) tvals tview size g0 = (Ok x, g1) /\ assigned x (a_true (a_dy a)) /\
    (if a_observed (a_st a) then
      exists ovals oview g2 y,
        Forall2 (reads_as a) (k_oreads (kind_of a)) ovals /\ sees w a oview /\ vw_true oview = a_true (a_dy a) /\
        k_obs (kind_of a) ovals oview size g1 = (Ok y, g2) /\ assigned y (a_obs (a_dy a))
    else a_obs (a_dy a) = a_true (a_dy a)) /\
    exists pvals pview,
      Forall2 (reads_as a) (k_preads (kind_of a)) pvals /\ sees w a pview /\
      vw_true pview = a_true (a_dy a) /\ vw_obs pview = a_obs (a_dy a) /\ k_prob (kind_of a) pvals pview = Ok (a_prob (a_dy a)).

(** The sampler with other luminosities. *)
Definition given_lum (lum : option (list V)) (a : sampler) : sampler :=
  upd_dy (fun d => ADyn (a_par d) (a_sampled d) (a_true d) (a_obs d) (a_prob d) lum (a_sp d)) a.
(** The same, for some luminosities: during a survey a sampler may be given
    luminosities after it was drawn. *)
Definition made_for_some_lum (size : nat) (w : world E) (a : sampler) : Prop := exists lum, made_by_methods size w (given_lum lum a).
End Spec.
