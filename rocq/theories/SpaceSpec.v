(** What a model space is (C74). *)
From Coq Require Import Reals List String.
From Verif Require Import Base Env SynthModel LibModel RealModel.
Import ListNotations.
Open Scope R_scope.

(** [n] points from [a] to [b]: neighbours differ by a fixed number, or, for a logarithmic
    space, by a fixed factor. *)
Definition points_from_to (lg : bool) (a b : R) (n : nat) (l : list R) : Prop :=
  List.length l = n /\
  (forall x, nth_error l 0 = Some x -> x = a) /\
  (forall x, (2 <= n)%nat -> nth_error l (n - 1) = Some x -> x = b) /\
  exists step, forall i x x', nth_error l i = Some x -> nth_error l (S i) = Some x' -> x' = if lg then x * step else x + step.

(** Requests to [add_model_space]: name, start, stop, log. *)
Definition request : Type := string * R * R * bool.
Definition named_as (nm : string) (r : request) : bool := let '(k, _, _, _) := r in String.eqb k nm.
(** The last request of this name. *)
Definition last_request (rs : list request) (nm : string) : option request := find (named_as nm) (rev rs).
(** [synth.add_model_space(name, start, stop, log)] for one request after the other. *)
Definition ask {m : machine} (rs : list request) : YM (real_env m) unit :=
  iterM (fun r : request => let '(nm, a, b, lg) := r in add_space (E := real_env m) nm a b lg) rs.
