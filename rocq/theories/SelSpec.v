(** Specification vocabulary for selectors. *)
From Verif Require Import Base Env ParamModel SelModel.
From Coq Require Export Sorting.Sorted.
Set Implicit Arguments.
Open Scope string_scope.

Section Spec.
Variable E : env.
Notation V := (V E).
Notation Rst := (Rst E).
Notation selector := (selector E).

(** The array a bound selector looks at: flux if flagged, else luminosity, else
    observed value, else distance. *)
Definition selects_on (s : selector) (v : option (list V)) : Prop :=
  (s_fflux s = true /\ v = d_oflux (s_data s)) \/
  (s_fflux s = false /\ s_flum s = true /\ v = d_lum (s_data s)) \/
  (s_fflux s = false /\ s_flum s = false /\ s_fobs s = true /\ v = d_oval (s_data s)) \/
  (s_fflux s = false /\ s_flum s = false /\ s_fobs s = false /\ s_fdist s = true /\ v = d_dist (s_data s)).

Definition no_flag (s : selector) : Prop :=
  s_fflux s = false /\ s_flum s = false /\ s_fobs s = false /\ s_fdist s = false.

(** The value parameter [k] of the selector reads as. *)
Definition par_is (s : selector) (k : string) (b : V) : Prop :=
  exists d, dget (sel_class (s_kind s)) k = Some d /\ fst (param_get d k (s_par s)) = Ok b.
Definition par_unset (s : selector) (k : string) : Prop :=
  exists d, dget (sel_class (s_kind s)) k = Some d /\ fst (param_get d k (s_par s)) = Err AssertionError.

(** [draw(size)] succeeded, produced exactly the mask [m] and left generator [g']. *)
Definition draws (progress : bool) (size : nat) (s : selector) (g : Rst) (m : list bool) (g' : Rst) : Prop :=
  exists s', sel_draw progress size (s, g) = (Ok tt, (s', g')) /\ s_mask s' = Some m.

(** Mask [m] has one entry per value, true exactly where [P] holds. *)
Definition mask_is {A} (m : list bool) (v : list A) (P : A -> Prop) : Prop :=
  length m = length v /\
  forall i x, nth_error v i = Some x -> (nth_error m i = Some true <-> P x).

(** Operations a user can perform on one selector. *)
Inductive selop :=
| OSelect (progress : bool) (size : nat)
| OSetFlux (l : list V) | OSetVal (l : list V) | OSetDist (l : list V) | OSetLum (l : list V)
| OReset.

Definition selstep (o : selop) : M (selector * Rst) unit :=
  match o with
  | OSelect p n => @sel_select E p n
  | OSetFlux l => fun st => (Ok tt, (set_observed_flux (fst st) l, snd st))
  | OSetVal l => fun st => (Ok tt, (set_observed_value (fst st) l, snd st))
  | OSetDist l => fun st => (Ok tt, (set_distance (fst st) l, snd st))
  | OSetLum l => fun st => (Ok tt, (set_luminosity (fst st) l, snd st))
  | OReset => fun st => (Ok tt, (sel_reset (fst st), snd st))
  end.

(** A history; exceptions are caught by the user and the history goes on. *)
Fixpoint selrun (h : list selop) (st : selector * Rst) : selector * Rst :=
  match h with
  | nil => st
  | o :: r => selrun r (snd (selstep o st))
  end.

(** A new selector of the same class and flags, given the same parameters and data. *)
Definition new_like (s : selector) : selector :=
  with_data (with_par (new_selector (s_kind s) (s_type s) (s_name s)
              (s_fobs s) (s_fdist s) (s_flum s) (s_fflux s)) (s_par s)) (s_data s).

(** [s + t1 + t2 + ...] *)
Fixpoint sel_sum (s : selector) (l : list selector) : res selector :=
  match l with
  | nil => Ok s
  | t :: r => let? u := sel_add s t in sel_sum u r
  end.

(** Parameters of the library selectors that have bounds. *)
Definition bounded (k : selkind E) (n : string) (lo : V) (hi : option V) : Prop :=
  (k = KBernoulli E /\ n = "probability" /\ lo = vofnat E 0 /\ hi = Some (vofnat E 1)) \/
  (k = KSoft E /\ n = "strength" /\ lo = vofnat E 0 /\ hi = None) \/
  (k = KGalactic E /\ n = "b_limit" /\ lo = vofnat E 0 /\ hi = Some (vofnat E 90)) \/
  (k = KDistance E /\ n = "min_distance" /\ lo = vofnat E 0 /\ hi = None) \/
  (k = KDistance E /\ n = "max_distance" /\ lo = vofnat E 0 /\ hi = None).

End Spec.
