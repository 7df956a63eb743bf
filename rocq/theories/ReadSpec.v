(** Vocabulary for the attributes of a population (C91). *)
From Coq Require Import List String DecimalString.
From Verif Require Import Base Env SimVarModel SimVarSpec PopModel ReadModel.
Import ListNotations.

Section R.
Context {E : env}.
Notation V := (V E).
(** The attribute [k] is a variable with these observed and latent values. *)
Definition is_variable (p : population E) (k : string) (o l : list V) : Prop :=
  exists x, getattr k p = Ok (AVar x) /\ sv_obs x = o /\ sv_lat x = l.
(** ... one of each object, with the selection of the population. *)
Definition is_quantity (p : population E) (k : string) (o l : list V) (m : list bool) : Prop :=
  exists x, getattr k p = Ok (AVar x) /\ sv_obs x = o /\ sv_lat x = l /\ sv_sel x = MB m.
Definition is_array (p : population E) (k : string) (l : list V) : Prop := getattr k p = Ok (AArr l).
End R.
(** The text [s] is the number [n] in decimal notation. *)
Definition reads (s : string) (n : nat) : Prop := option_map Nat.of_uint (NilZero.uint_of_string s) = Some n.
