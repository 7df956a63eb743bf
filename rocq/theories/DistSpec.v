(** Specification vocabulary for drawing distances. *)
From Verif Require Import Base Env ParamModel DistModel.
Set Implicit Arguments.
Open Scope string_scope.

Section Spec.
Variable E : env.
Notation V := (V E).
Notation Rst := (Rst E).
Notation zero := (vofnat E 0).
Notation one := (vofnat E 1).

(** What reading parameter [k] gives. *)
Definition reading (c : pclass V) (o : pobj V) (k : string) : res V := fst (pread E c k o).
(** Every parameter of the class reads the same. *)
Definition same_reads (c : pclass V) (o o' : pobj V) : Prop :=
  forall k, reading c o k = reading c o' k.

(** [vals] are the values the parameters [ks] read as. *)
Definition values (c : pclass V) (o : pobj V) (ks : list string) (vals : list V) : Prop :=
  Forall2 (fun k v => reading c o k = Ok v) ks vals.

(** The same with the normalisation parameter replaced by one. *)
Definition unit_reading (c : pclass V) (o : pobj V) (k : string) : res V :=
  match dget c k with
  | Some d => if pd_norm d then Ok one else reading c o k
  | None => Err AttributeError
  end.
Definition unit_values (c : pclass V) (o : pobj V) (ks : list string) (vals : list V) : Prop :=
  Forall2 (fun k v => unit_reading c o k = Ok v) ks vals.

(** The class declares at most one normalisation parameter, and the instance's
    current one, if any, is it; [r_max] is not a normalisation.  (Every instance reached by assignments and reads
    satisfies the second clause, see [wf_*] in DistProofs.v.) *)
Definition wf_par (c : pclass V) (o : pobj V) : Prop :=
  (forall k1 k2 d1 d2, dget c k1 = Some d1 -> dget c k2 = Some d2 ->
     pd_norm d1 = true -> pd_norm d2 = true -> k1 = k2) /\
  (forall k, po_norm o = Some k -> exists d, dget c k = Some d /\ pd_norm d = true) /\
  (forall d, dget c "r_max" = Some d -> pd_norm d = false).

(** Order laws used by the range theorems. *)
Definition le_lt_trans : Prop :=
  forall a b c, vle E a b = true -> vlt E b c = true -> vlt E a c = true.
(** Contract of [np.random.uniform(0, hi)]: in [0, hi) for positive [hi], and not
    negative for non-negative [hi]. *)
Definition unif_range : Prop :=
  forall hi g, vlt E zero hi = true ->
    vle E zero (fst (r_unif E zero hi g)) = true /\ vlt E (fst (r_unif E zero hi g)) hi = true.
Definition unif_nonneg : Prop :=
  forall hi g, vle E zero hi = true -> vle E zero (fst (r_unif E zero hi g)) = true.
Definition div_nonneg : Prop :=
  forall a b, vle E zero a = true -> vlt E zero b = true -> vle E zero (vdiv E a b) = true.
Definition max_nonneg : Prop :=
  forall a b, vle E zero a = true -> vle E zero b = true -> vle E zero (vmax2 E a b) = true.
(** A non-negative number with a positive quotient is positive. *)
Definition div_pos : Prop :=
  forall a b, vle E zero a = true -> vlt E zero (vdiv E a b) = true -> vlt E zero a = true.

(** The distances [r] at which a draw evaluates the density: from zero up to [r_max],
    and the 500 points of [np.linspace(0, r_max, 500)]. *)
Definition evaluated (rm r : V) : Prop := In r (grid E rm) \/ vle E zero r = true /\ vlt E r rm = true.
(** [f] takes only non-negative values there. *)
Definition nonneg_fun (rm : V) (f : V -> res V) : Prop :=
  forall r d, evaluated rm r -> f r = Ok d -> vle E zero d = true.
(** [f] is nowhere positive from zero up to [r_max]. *)
Definition zero_upto (rm : V) (f : V -> res V) : Prop :=
  forall r d, vle E zero r = true -> vlt E r rm = true -> f r = Ok d -> vlt E zero d = false.
Definition nowhere_pos (f : V -> res V) : Prop :=
  forall r d, f r = Ok d -> vlt E zero d = false.

(** The proposal made in generator state [g], and the state after it. *)
Definition proposal (ymax rmax : V) (g : Rst) : V * V * Rst :=
  let (y, g1) := r_unif E zero ymax g in
  let (r, g2) := r_unif E zero rmax g1 in (y, r, g2).
(** Within [k] proposals from state [g] one lies under the curve [f]. *)
Fixpoint accepts_within (k : nat) (f : V -> res V) (ymax rmax : V) (g : Rst) : Prop :=
  match k with
  | O => False
  | S k' => let '(y, r, g2) := proposal ymax rmax g in
            exists d, f r = Ok d /\ (vlt E y d = true \/ accepts_within k' f ymax rmax g2)
  end.

(** Every normalisation parameter of the class takes part in the density (true of
    all library classes). *)
Definition norm_used (c : spcls E) : Prop :=
  forall k d, dget (sc_params c) k = Some d -> pd_norm d = true -> In k (sc_reads c).

(** The normalisation parameter has been read or assigned (its value is stored),
    or the class has none. *)
Definition norm_stored (c : pclass V) (o : pobj V) : Prop :=
  (exists k v, po_norm o = Some k /\ dget (po_store o) k = Some v) \/
  (forall k d, dget c k = Some d -> pd_norm d = false).

(** What a successful [draw_distance] did. *)
Definition drawn (c : spcls E) (o : pobj V) (progress : bool) (fuel size : nat) (normalize : bool)
                 (g g' : Rst) (rs ps : list V) : Prop :=
  exists rm vals uvals integral ys ymax,
    reading (sc_params c) o "r_max" = Ok rm /\
    values (sc_params c) o (sc_reads c) vals /\
    unit_values (sc_params c) o (sc_reads c) uvals /\
    (if normalize then exists i, integral = Some i /\ quad E (sc_dens c uvals) zero rm = Ok i
     else integral = None) /\
    rmapM (dens_norm c integral vals) (grid E rm) = Ok ys /\ np_max E ys = Ok ymax /\
    accept_many E fuel (if progress then dens_norm c integral vals else sc_dens c vals) ymax rm size g = (Ok rs, g') /\
    rmapM (dens_norm c integral uvals) rs = Ok ps.

End Spec.
