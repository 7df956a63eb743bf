(** Model of [popsynth/distribution.py] (drawing distances and sky positions),
    [utils/rejection_sample.py] and [utils/spherical_geometry.py]. *)
From Verif Require Import Base Env ParamModel.
Set Implicit Arguments.
Open Scope string_scope.

Section Dist.
Variable E : env.
Notation V := (V E).
Notation Rst := (Rst E).
Notation zero := (vofnat E 0).
Notation one := (vofnat E 1).

(** A spatial distribution class.  [sc_reads] are the parameters that one
    evaluation of [dNdV(r) * differential_volume(r) / time_adjustment(r)] reads, in
    order; [sc_dens] is that product as a function of their values and of [r]
    (elementwise on arrays, as in all library classes).  [sc_transform] is
    [transform(luminosity, distance)].  [sc_sky], if given, is an overriding
    [draw_sky_positions] (SpiralGalaxyDistribution, spiral_galaxy_distribution.py:63-105)
    as a function of the distances; it may replace them. *)
Record spcls := SpCls {
  sc_params : pclass V;
  sc_reads : list string;
  sc_dens : list V -> V -> res V;
  sc_transform : V -> V -> V;
  sc_sky : option (list V -> nat -> Rst -> res (spvals E) * Rst) }.

(** An instance (distribution.py:45-51, 176-177).  [sd_dist] is [None] while the
    attribute [_distances] does not exist. *)
Record sdist := SDist {
  sd_cls : spcls;
  sd_name : string;
  sd_par : pobj V;
  sd_dist : option (list V);
  sd_theta : option (list V);
  sd_phi : option (list V);
  sd_prob : option (list V) }.

Definition sd_new (c : spcls) (nm : string) : sdist :=
  SDist c nm (pobj_new V) None None None None.

Definition with_spar (d : sdist) (o : pobj V) : sdist :=
  SDist (sd_cls d) (sd_name d) o (sd_dist d) (sd_theta d) (sd_phi d) (sd_prob d).
Definition with_dist (d : sdist) (l : list V) : sdist :=
  SDist (sd_cls d) (sd_name d) (sd_par d) (Some l) (sd_theta d) (sd_phi d) (sd_prob d).
Definition with_sky (d : sdist) (t p : list V) : sdist :=
  SDist (sd_cls d) (sd_name d) (sd_par d) (sd_dist d) (Some t) (Some p) (sd_prob d).
Definition with_prob (d : sdist) (l : list V) : sdist :=
  SDist (sd_cls d) (sd_name d) (sd_par d) (sd_dist d) (sd_theta d) (sd_phi d) (Some l).

(** Read one parameter, or several in order, of an object of class [c]. *)
Definition pread (c : pclass V) (k : string) : M (pobj V) V :=
  fun o => match dget c k with
           | None => (Err AttributeError, o)
           | Some d => param_get d k o
           end.
Definition preads (c : pclass V) (ks : list string) : M (pobj V) (list V) := mapM (pread c) ks.

Definition DM := M (sdist * Rst).
Definition in_par {A} (m : M (pobj V) A) : DM A :=
  fun st => let (r, o) := m (sd_par (fst st)) in (r, (with_spar (fst st) o, snd st)).
Definition cls : DM spcls := gets (fun st => sd_cls (fst st)).
Definition rd_rmax : DM V := let! c := cls in in_par (pread (sc_params c) "r_max").
Definition rd_dens : DM (list V) := let! c := cls in in_par (preads (sc_params c) (sc_reads c)).

(** [if self._normalization_parameter is not None: old_value = ...; ... = 1]
    (distribution.py:323-326, 380-383).  [old] is the local variable [old_value],
    [None] while it is unbound. *)
Definition norm_to_one (old : option (option V)) : DM (option (option V)) :=
  let! o := gets (fun st => sd_par (fst st)) in
  match po_norm o with
  | None => ret old
  | Some _ =>
      let! v := lift (norm_get o) in
      in_par (modify (norm_set (Some one))) ;;
      ret (Some v)
  end.

(** [if self._normalization_parameter is not None: ... = old_value]
    (distribution.py:332-334, 387-389). *)
Definition norm_restore (old : option (option V)) : DM unit :=
  let! o := gets (fun st => sd_par (fst st)) in
  match po_norm o, old with
  | None, _ => ret tt
  | Some _, None => raise NameError
  | Some _, Some v => in_par (modify (norm_set v))
  end.

(** [dNdr_norm] for given parameter values: divided by the integral if there is
    one (distribution.py:330, 338). *)
Definition dens_norm (c : spcls) (integral : option V) (vals : list V) (r : V) : res V :=
  match integral with
  | None => sc_dens c vals r
  | Some i => rmap (fun d => vdiv E d i) (sc_dens c vals r)
  end.

(** [np.linspace(0., r_max, 500)] (distribution.py:341-343): multiples of the step,
    the last point being [r_max] itself. *)
Definition grid (rmax : V) : list V :=
  map (fun i => vmul E (vofnat E i) (vdiv E rmax (vofnat E 499))) (seq 0 499) ++ [rmax].

(** [np.max] of a non-empty array. *)
Definition np_max (l : list V) : res V :=
  match l with nil => Err ValueError | x :: r => Ok (fold_left (vmax2 E) r x) end.

(** One object of the rejection sampler (distribution.py:353-368,
    rejection_sample.py:20-34): [y] first, then [r], until [y < f(r)].  At most
    [fuel] proposals. *)
Fixpoint accept (fuel : nat) (f : V -> res V) (ymax rmax : V) (g : Rst) : res V * Rst :=
  match fuel with
  | O => (Err OutOfFuel, g)
  | S n =>
      let (y, g1) := r_unif E zero ymax g in
      let (r, g2) := r_unif E zero rmax g1 in
      match f r with
      | Err e => (Err e, g2)
      | Ok d => if vlt E y d then (Ok r, g2) else accept n f ymax rmax g2
      end
  end.
Definition accept_many (fuel : nat) (f : V -> res V) (ymax rmax : V) (size : nat) : M Rst (list V) :=
  repeatM (accept fuel f ymax rmax) size.

Definition in_rng {A} (m : M Rst A) : DM A :=
  fun st => let (r, g) := m (snd st) in (r, (fst st, g)).

(** [draw_distance(size, normalize)] (distribution.py:304-389).
    Simplification: inside the sampling loop the code re-reads [r_max] and the
    density parameters at every proposal; nothing assigns them in between and
    they were read just before, so the values read at 341-344 are used. *)
Definition draw_distance (progress : bool) (fuel size : nat) (normalize : bool) : DM unit :=
  let! c := cls in
  let! oi :=
    (if normalize then
       let! old := norm_to_one None in
       let! rm := rd_rmax in
       let! vals := rd_dens in
       let! i := lift (quad E (sc_dens c vals) zero rm) in
       norm_restore old ;;
       ret (old, Some i)
     else ret (None, None)) in
  let (old, integral) := oi : option (option V) * option V in
  let! rm := rd_rmax in
  let! vals := rd_dens in
  let! ys := lift (rmapM (dens_norm c integral vals) (grid rm)) in
  let! ymax := lift (np_max ys) in
  let! rs := in_rng (accept_many fuel (if progress then dens_norm c integral vals else sc_dens c vals)
                                 ymax rm size) in
  modify (fun st => (with_dist (fst st) rs, snd st)) ;;
  let! old2 := norm_to_one old in
  let! vals2 := rd_dens in
  let! ps := lift (rmapM (dens_norm c integral vals2) rs) in
  modify (fun st => (with_prob (fst st) ps, snd st)) ;;
  norm_restore old2.

(** [sample_theta_phi(size)] (spherical_geometry.py:4-13). *)
Definition sample_theta_phi (size : nat) (g : Rst) : (list V * list V) * Rst :=
  let (us, g1) := rdraws (r_unif E zero one) size g in
  let (ps, g2) := rdraws (r_unif E zero (vtwopi E)) size g1 in
  (map (fun u => vacos E (vsub E one (vmul E (vofnat E 2) u))) us, ps, g2).

(** [draw_sky_positions(size)] (distribution.py:293-302 and the override). *)
Definition draw_sky_positions (size : nat) : DM unit :=
  fun st =>
    match sc_sky (sd_cls (fst st)) with
    | None =>
        let '(t, p, g) := sample_theta_phi size (snd st) in
        (Ok tt, (with_sky (fst st) t p, g))
    | Some f =>
        match sd_dist (fst st) with
        | None => (Err AttributeError, st)
        | Some ds =>
            let (r, g) := f ds size (snd st) in
            match r with
            | Ok s => (Ok tt, (with_sky (with_dist (fst st) (sv_dist s)) (sv_theta s) (sv_phi s), g))
            | Err e => (Err e, (fst st, g))
            end
        end
    end.

(** [spatial_values] (distribution.py:284-291); [AttributeError] before the
    distances exist.  Before the angles are drawn the container would hold
    [None]s, which no caller in the code does. *)
Definition spatial_values (d : sdist) : res (spvals E) :=
  match sd_dist d, sd_theta d, sd_phi d with
  | None, _, _ => Err AttributeError
  | Some r, Some t, Some p => Ok (SpVals E r t p)
  | _, _, _ => Err Unmodelled
  end.

(** A luminosity distribution: parameters read by [draw_luminosity] and by [phi],
    the sampler and the density (elementwise). *)
Record lumcls := LumCls {
  lc_params : pclass V;
  lc_dreads : list string;
  lc_draw : list V -> nat -> Rst -> res (list V) * Rst;
  lc_preads : list string;
  lc_phi : list V -> V -> res V }.
Record ldist := LDist { ld_cls : lumcls; ld_name : string; ld_par : pobj V; ld_prob : option (list V) }.

Definition LM := M (ldist * Rst).
Definition in_lpar {A} (m : M (pobj V) A) : LM A :=
  fun st => let (r, o) := m (ld_par (fst st)) in
            (r, (LDist (ld_cls (fst st)) (ld_name (fst st)) o (ld_prob (fst st)), snd st)).

(** [draw_luminosity(size)] of the class. *)
Definition draw_luminosity (size : nat) : LM (list V) :=
  let! c := gets (fun st => ld_cls (fst st)) in
  let! vals := in_lpar (preads (lc_params c) (lc_dreads c)) in
  fun st => let (r, g) := lc_draw c vals size (snd st) in (r, (fst st, g)).

(** [compute_probability(L)] (distribution.py:436-438). *)
Definition compute_probability (l : list V) : LM unit :=
  let! c := gets (fun st => ld_cls (fst st)) in
  let! vals := in_lpar (preads (lc_params c) (lc_preads c)) in
  let! ps := lift (rmapM (lc_phi c vals) l) in
  modify (fun st => (LDist (ld_cls (fst st)) (ld_name (fst st)) (ld_par (fst st)) (Some ps), snd st)).

End Dist.
