(** Model of [popsynth/selection_probability/*.py]. *)
From Verif Require Import Base Env ParamModel.
Set Implicit Arguments.
Open Scope string_scope.

Section Sel.
Variable E : env.
Notation V := (V E).
Notation Rst := (Rst E).

(** The arrays a selector is given by its setters
    (selection_probability.py:51-54, spatial_selection.py:22).
    Simplification: [set_spatial_distribution] stores a reference to the spatial
    distribution; we store its positions at that moment (draw_survey calls it
    right before selecting). *)
Record seldata := SelData {
  d_oflux : option (list V);
  d_oval : option (list V);
  d_dist : option (list V);
  d_lum : option (list V);
  d_sp : option (spvals E) }.

(** The selector classes.  HardFluxSelection is [KLower] and SoftFluxSelection is
    [KSoft] with [use_flux=True] (flux_selectors.py:8-42).  [KUser] is any class
    written by a user: the flag says whether it derives from SpatialSelection. *)
Inductive selkind :=
| KUnity | KDummy | KBernoulli | KBox | KLower | KUpper | KSoft | KGalactic | KDistance
| KUser (spatial : bool) (draw : seldata -> nat -> Rst -> res (list bool) * Rst).

Definition is_unity (k : selkind) : bool := match k with KUnity => true | _ => false end.
Definition is_spatial (k : selkind) : bool :=
  match k with KGalactic => true | KDistance => true | KUser b _ => b | _ => false end.

(** Instance state (selection_probability.py:47-61). *)
Record selector := Selector {
  s_kind : selkind;
  s_type : string;                 (* registered class name *)
  s_name : string;
  s_par : pobj V;
  s_data : seldata;
  s_mask : option (list bool);     (* _selection *)
  s_sampled : bool;                (* _is_sampled *)
  s_fobs : bool; s_fdist : bool; s_flum : bool; s_fflux : bool }.

Definition no_data : seldata := SelData None None None None None.

Definition new_selector (k : selkind) (ty nm : string) (fobs fdist flum fflux : bool) : selector :=
  Selector k ty nm (pobj_new V) no_data None false fobs fdist flum fflux.

(** [UnitySelection(name)] (generic_selectors.py:17-23) *)
Definition unity (nm : string) : selector :=
  new_selector KUnity "UnitySelection" nm false false false false.
(** [DummySelection()] (selection_probability.py:184-192) *)
Definition dummy : selector :=
  new_selector KDummy "DummySelection" "dummy" false false false false.
(** [HardFluxSelection()] (flux_selectors.py:8-18) *)
Definition hard_flux : selector :=
  new_selector KLower "HardFluxSelection" "Hard selection" false false false true.
(** [SoftFluxSelection()] (flux_selectors.py:25-35) *)
Definition soft_flux : selector :=
  new_selector KSoft "SoftFluxSelection" "Soft Selection" false false false true.

(** Parameters of the library selectors (generic_selectors.py:33, 72-73, 137, 200,
    263-264; spatial_selection.py:42, 77-78). *)
Definition plain : pdecl V := PDecl None None None true false.
Definition nonneg : pdecl V := PDecl None (Some (vofnat E 0)) None true false.
Definition sel_class (k : selkind) : pclass V :=
  match k with
  | KBernoulli => [("probability",
      PDecl (Some (vdiv E (vofnat E 1) (vofnat E 2))) (Some (vofnat E 0)) (Some (vofnat E 1)) true false)]
  | KBox => [("vmin", plain); ("vmax", plain)]
  | KLower | KUpper => [("boundary", plain)]
  | KSoft => [("boundary", plain); ("strength", nonneg)]
  | KGalactic => [("b_limit", PDecl None (Some (vofnat E 0)) (Some (vofnat E 90)) true false)]
  | KDistance => [("min_distance", nonneg); ("max_distance", nonneg)]
  | _ => nil
  end.

Definition with_par (s : selector) (o : pobj V) : selector :=
  Selector (s_kind s) (s_type s) (s_name s) o (s_data s) (s_mask s) (s_sampled s)
           (s_fobs s) (s_fdist s) (s_flum s) (s_fflux s).
Definition with_mask (s : selector) (m : option (list bool)) : selector :=
  Selector (s_kind s) (s_type s) (s_name s) (s_par s) (s_data s) m (s_sampled s)
           (s_fobs s) (s_fdist s) (s_flum s) (s_fflux s).
Definition with_sampled (s : selector) (b : bool) : selector :=
  Selector (s_kind s) (s_type s) (s_name s) (s_par s) (s_data s) (s_mask s) b
           (s_fobs s) (s_fdist s) (s_flum s) (s_fflux s).
Definition with_data (s : selector) (d : seldata) : selector :=
  Selector (s_kind s) (s_type s) (s_name s) (s_par s) d (s_mask s) (s_sampled s)
           (s_fobs s) (s_fdist s) (s_flum s) (s_fflux s).

(** Setters (selection_probability.py:77-103, spatial_selection.py:24-35). *)
Definition set_luminosity (s : selector) (l : list V) : selector :=
  with_data s (SelData (d_oflux (s_data s)) (d_oval (s_data s)) (d_dist (s_data s)) (Some l) (d_sp (s_data s))).
Definition set_distance (s : selector) (l : list V) : selector :=
  with_data s (SelData (d_oflux (s_data s)) (d_oval (s_data s)) (Some l) (d_lum (s_data s)) (d_sp (s_data s))).
Definition set_observed_flux (s : selector) (l : list V) : selector :=
  with_data s (SelData (Some l) (d_oval (s_data s)) (d_dist (s_data s)) (d_lum (s_data s)) (d_sp (s_data s))).
Definition set_observed_value (s : selector) (l : list V) : selector :=
  with_data s (SelData (d_oflux (s_data s)) (Some l) (d_dist (s_data s)) (d_lum (s_data s)) (d_sp (s_data s))).
(** Only SpatialSelection has this method. *)
Definition set_spatial_distribution (s : selector) (p : spvals E) : res selector :=
  if is_spatial (s_kind s) then
    Ok (with_data s (SelData (d_oflux (s_data s)) (d_oval (s_data s)) (d_dist (s_data s)) (d_lum (s_data s)) (Some p)))
  else Err AttributeError.

(** ** draw *)
Definition SM := M (selector * Rst).

(** [self.k]: read a parameter through its descriptor. *)
Definition read_par (k : string) : SM V :=
  fun st =>
    let (s, g) := st in
    match dget (sel_class (s_kind s)) k with
    | None => (Err AttributeError, st)
    | Some d => let (r, o) := param_get d k (s_par s) in (r, (with_par s o, g))
    end.

Definition store_mask (m : list bool) : SM unit :=
  fun st => (Ok tt, (with_mask (fst st) (Some m), snd st)).

(** The local variable [values] (generic_selectors.py:116-129, 179-192, 242-255,
    308-321): the last flag that is set decides; unbound if none is. *)
Definition values_source (s : selector) : res (option (list V)) :=
  if s_fflux s then Ok (d_oflux (s_data s))
  else if s_flum s then Ok (d_lum (s_data s))
  else if s_fobs s then Ok (d_oval (s_data s))
  else if s_fdist s then Ok (d_dist (s_data s))
  else Err NameError.

(** [values >= b], [values <= b]: [TypeError] if values is [None]. *)
Definition np_ge (vs : option (list V)) (b : V) : res (list bool) :=
  match vs with None => Err TypeError | Some l => Ok (map (fun v => vle E b v) l) end.
Definition np_le (vs : option (list V)) (b : V) : res (list bool) :=
  match vs with None => Err TypeError | Some l => Ok (map (fun v => vle E v b) l) end.

Definition here : SM selector := gets fst.

(** [stats.bernoulli.rvs(p)] *)
Definition bern1 (p : V) : SM bool :=
  fun st => if r_bern_ok E p
            then let (b, g) := r_bern E p (snd st) in (Ok b, (fst st, g))
            else (Err ValueError, st).
(** [stats.bernoulli.rvs(ps, size=len(ps))]: the domain check comes first. *)
Definition bern_vec (ps : list V) : SM (list bool) :=
  fun st => if forallb (r_bern_ok E) ps
            then let (bs, g) := rmapdraws (r_bern E) ps (snd st) in (Ok bs, (fst st, g))
            else (Err ValueError, st).
(** [stats.bernoulli.rvs(p, size=n)]: the domain check is made even for [n = 0]. *)
Definition bern_n (p : V) (n : nat) : SM (list bool) :=
  fun st => if r_bern_ok E p
            then let (bs, g) := rdraws (r_bern E p) n (snd st) in (Ok bs, (fst st, g))
            else (Err ValueError, st).

(** The loop of BernoulliSelection.draw (generic_selectors.py:53-58), which reads
    the parameter at every iteration. *)
Definition bern_loop (n : nat) : SM (list bool) :=
  repeatM (let! p := read_par "probability" in bern1 p) n.

(** [draw(size)] of every class. *)
Definition sel_draw (progress : bool) (size : nat) : SM unit :=
  let! s := here in
  match s_kind s with
  | KUnity => store_mask (repeat true size)                       (* generic_selectors.py:25-27 *)
  | KDummy => ret tt                                              (* selection_probability.py:194-195 *)
  | KBernoulli =>                                                 (* generic_selectors.py:45-66 *)
      if progress then
        store_mask (repeat false size) ;;
        let! m := bern_loop size in store_mask m
      else
        let! p := read_par "probability" in
        let! m := bern_n p size in store_mask m
  | KBox =>                                                       (* generic_selectors.py:114-131 *)
      let! vs := lift (values_source s) in
      let! lo := read_par "vmin" in
      let! a := lift (np_ge vs lo) in
      let! hi := read_par "vmax" in
      let! b := lift (np_le vs hi) in
      let! m := lift (bcast2 andb a b) in
      store_mask m
  | KLower =>                                                     (* generic_selectors.py:177-194 *)
      let! vs := lift (values_source s) in
      let! b := read_par "boundary" in
      let! m := lift (np_ge vs b) in store_mask m
  | KUpper =>                                                     (* generic_selectors.py:240-257 *)
      let! vs := lift (values_source s) in
      let! b := read_par "boundary" in
      let! m := lift (np_le vs b) in store_mask m
  | KSoft =>                                                      (* generic_selectors.py:306-336, use_log=True *)
      let! vs := lift (values_source s) in
      let! k := read_par "strength" in
      let! l := lift (of_opt TypeError vs) in
      let! b := read_par "boundary" in
      let! m := bern_vec (map (fun v => vexpit E (vmul E k (vsub E (vlog10 E v) (vlog10 E b)))) l) in
      store_mask m
  | KGalactic =>                                                  (* spatial_selection.py:56-67 *)
      let! p := lift (of_opt AttributeError (d_sp (s_data s))) in
      let bs := map (fun q => gal_b E (fst q) (snd q)) (combine (sv_ra p) (sv_dec p)) in
      let! lim := read_par "b_limit" in
      let m1 := map (fun b => vle E lim b) bs in
      let! lim' := read_par "b_limit" in
      let m2 := map (fun b => vle E b (vsub E (vofnat E 0) lim')) bs in
      let! m := lift (bcast2 orb m1 m2) in store_mask m
  | KDistance =>                                                  (* spatial_selection.py:91-95 *)
      let! p := lift (of_opt AttributeError (d_sp (s_data s))) in
      let! lo := read_par "min_distance" in
      let m1 := map (fun r => vle E lo r) (sv_dist p) in
      let! hi := read_par "max_distance" in
      let m2 := map (fun r => vle E r hi) (sv_dist p) in
      let! m := lift (bcast2 andb m1 m2) in store_mask m
  | KUser _ f =>
      fun st => let (r, g) := f (s_data s) size (snd st) in
                match r with
                | Ok m => (Ok tt, (with_mask (fst st) (Some m), g))
                | Err e => (Err e, (fst st, g))
                end
  end.

(** [select(size)] (selection_probability.py:121-133): summing [None] raises
    [TypeError] before the flag is set. *)
Definition sel_select (progress : bool) (size : nat) : SM unit :=
  let! s := here in
  (if s_sampled s then ret tt else sel_draw progress size) ;;
  let! s' := here in
  match s_mask s' with
  | None => raise TypeError
  | Some _ => fun st => (Ok tt, (with_sampled (fst st) true, snd st))
  end.

(** [reset()] (selection_probability.py:110-119) *)
Definition sel_reset (s : selector) : selector :=
  if s_sampled s then with_mask (with_sampled s false) None else s.

(** [selection] (selection_probability.py:148-157) *)
Definition sel_selection (s : selector) : res (list bool) := of_opt RuntimeError (s_mask s).

(** [s1 + s2] (selection_probability.py:63-71).  With an unsampled left operand
    numpy combines [None] with the mask into an object array; not modelled. *)
Definition sel_add (s1 s2 : selector) : res selector :=
  let? m2 := sel_selection s2 in
  match s_mask s1 with
  | None => Err Unmodelled
  | Some m1 => let? m := np_logical_and m1 m2 in Ok (with_mask dummy (Some m))
  end.

(** Counts and indices (selection_probability.py:159-177).  On an unsampled
    selector: summing or negating [None] raises [TypeError], [None.shape] raises
    [AttributeError], [np.where(None)] is not modelled. *)
Definition sel_mask (s : selector) : res (list bool) := of_opt TypeError (s_mask s).
Definition n_selected (s : selector) : res nat := rmap count (sel_mask s).
Definition n_non_selected (s : selector) : res nat := rmap (fun m => count (mnot m)) (sel_mask s).
Definition n_objects (s : selector) : res nat :=
  rmap (@length bool) (of_opt AttributeError (s_mask s)).
Definition selection_index (s : selector) : res (list nat) :=
  rmap np_where (of_opt Unmodelled (s_mask s)).
Definition non_selection_index (s : selector) : res (list nat) :=
  rmap (fun m => np_where (mnot m)) (sel_mask s).

(** [SelectionProbability.parameters] *)
Definition sel_parameters (s : selector) : dict V := truth (s_par s).

End Sel.
