(** Model of [PopulationSynth.from_dict] and of writing to and reading from a YAML
    file (population_synth.py:186-200, 337-764).  [to_dict] is in SynthModel.v. *)
From Verif Require Import Base Env ParamModel SelModel DistModel AuxModel Tree SynthModel.
Set Implicit Arguments.
Open Scope string_scope.

Section Conf.
Variable E : env.
Notation V := (V E).
Notation world := (world E).
Notation synth := (synth E).
Notation tree := (tree V).

(** ** The class registries (utils/registry.py)

    [registry[name]] and [registry.get(name, ...)] make a new instance; an unknown
    name raises [KeyError], and a class may refuse the arguments.  A distribution is
    spatial or a luminosity distribution.  [sc_own] says which names are in the
    [__dict__] of the selector's own class, [ac_other] which names other than
    parameters are attributes of the sampler's class or of a base class (likewise
    [rg_other] for the other classes).  [ac_new name observed init] calls the sampler
    class with the keyword arguments that are given. *)
Inductive distobj :=
| DSpatial (d : sdist E) (m : meta)
| DLuminosity (d : ldist E) (m : meta).
Record selcls := SelCls { sc_new : selector E; sc_own : string -> bool }.
Record auxcls := AuxCls {
  ac_new : option string -> option bool -> dict tree -> res (astat E);
  ac_other : string -> bool }.
Record registry := Registry {
  rg_dist : string -> res distobj;
  rg_sel : string -> res selcls;
  rg_aux : string -> res auxcls;
  rg_other : string -> string -> bool;      (* class name, attribute name *)
  rg_parse : string -> res V }.             (* [float] of a string *)
Variable rg : registry.

(** [float(v)] *)
Definition float_of (t : tree) : res V :=
  match t with
  | TNum v => Ok v
  | TInt z => Ok (if (z <? 0)%Z then vsub E (vofnat E 0) (vofnat E (Z.to_nat (- z))) else vofnat E (Z.to_nat z))
  | TBool b => Ok (vofnat E (if b then 1 else 0))
  | TStr s => rg_parse rg s
  | TNone | TList _ | TDict _ => Err TypeError
  | _ => Err Unmodelled
  end.

(** [if k in x.__dict__: setattr(obj, k, float(v))] for the classes [x] of the mro.
    Setting a class attribute that is not a parameter is not modelled. *)
Definition set_attr (ps : pclass V) (other : string -> bool) (k : string) (t : tree) (o : pobj V) : res (pobj V) :=
  match dget ps k with
  | Some d =>
      let? v := float_of t in
      match param_set (fun v m => vle E m v) (fun v m => vle E v m) d k (Some v) o with
      | (Ok _, o') => Ok o'
      | (Err e, _) => Err e
      end
  | None => if other k then Err Unmodelled else Ok o
  end.
Fixpoint set_attrs (ps : pclass V) (other : string -> bool) (l : dict tree) (o : pobj V) : res (pobj V) :=
  match l with
  | nil => Ok o
  | (k, t) :: r => let? o' := set_attr ps other k t o in set_attrs ps other r o'
  end.

(** [d.items()] *)
Definition items (t : tree) : res (dict tree) := match t with TDict d => Ok d | _ => Err AttributeError end.
(** [name = list(d.keys())[0]] and [d[name]] *)
Definition first_item (t : tree) : res (string * tree) :=
  match t with
  | TDict (kv :: _) => Ok kv
  | TDict nil => Err IndexError
  | _ => Err AttributeError
  end.
(** [d[name]], and [{}] if that is [None] *)
Definition items_or_none (t : tree) : res (dict tree) := match t with TNone => Ok nil | _ => items t end.

(** ** Distributions (349-413) *)
Definition load_dist (nm : string) (ps : tree) : res distobj :=
  let? o := rg_dist rg nm in
  let? l := items ps in
  match o with
  | DSpatial d m =>
      let? p := set_attrs (sc_params (sd_cls d)) (rg_other rg nm) l (sd_par d) in Ok (DSpatial (with_spar d p) m)
  | DLuminosity d m =>
      let? p := set_attrs (lc_params (ld_cls d)) (rg_other rg nm) l (ld_par d) in
      Ok (DLuminosity (LDist (ld_cls d) (ld_name d) p (ld_prob d)) m)
  end.
(** 349-384 *)
Definition load_lum (inp : dict tree) : res (option distobj) :=
  match dget inp "luminosity distribution" with
  | None => Ok None
  | Some t => let? kv := first_item t in let? o := load_dist (fst kv) (snd kv) in Ok (Some o)
  end.
(** 388-411.  [is_rate] is not checked; only booleans are modelled. *)
Definition load_sp (inp : dict tree) : res distobj :=
  let? t := of_opt KeyError (dget inp "spatial distribution") in
  let? kv := first_item t in
  let? o := load_dist (fst kv) (snd kv) in
  match o with
  | DSpatial d (Meta ty fm (Some _)) =>
      let? l := items t in
      let? b := of_opt KeyError (dget l "is_rate") in
      match b with TBool b => Ok (DSpatial d (Meta ty fm (Some b))) | _ => Err Unmodelled end
  | _ => Ok o
  end.
(** 413-421, and the type checks of the constructor (67-83).  [seed] goes through
    [int]; only integers are modelled. *)
Definition load_base (w : world) (inp : dict tree) : res synth :=
  let? lum := load_lum inp in
  let? sp := load_sp inp in
  let? sd := of_opt KeyError (dget inp "seed") in
  match sd with
  | TInt z =>
      match sp with
      | DLuminosity _ _ => Err RuntimeError
      | DSpatial d m =>
          match lum with
          | None => Ok (synth_new w d m None (Meta "" "" None) z)
          | Some (DLuminosity l lm) => Ok (synth_new w d m (Some l) lm z)
          | Some (DSpatial _ _) => Err RuntimeError
          end
      end
  | _ => Err Unmodelled
  end.

(** ** Selections (426-540) *)
Definition sel_flag (flux dist obs : bool) (s : selector E) : selector E :=
  Selector (s_kind s) (s_type s) (s_name s) (s_par s) (s_data s) (s_mask s) (s_sampled s)
           (s_fobs s || obs) (s_fdist s || dist) (s_flum s) (s_fflux s || flux).
(** A new selector with its parameters set; [all] is false where only attributes of
    the selector's own class are set (678-682). *)
Definition load_sel (all : bool) (t : tree) : res (selector E) :=
  let? kv := first_item t in
  let? c := rg_sel rg (fst kv) in
  let? l := items_or_none (snd kv) in
  let s := sc_new c in
  let l' := if all then l else filter (fun kv => sc_own c (fst kv)) l in
  let? p := set_attrs (sel_class (s_kind s)) (rg_other rg (fst kv)) l' (s_par s) in
  Ok (with_par s p).
(** [if key in input: tmp = input[key]; if tmp is not None: ...] *)
Definition selection_of (inp : dict tree) (key : string) : option tree :=
  match dget inp key with Some TNone => None | x => x end.
Definition load_flux (inp : dict tree) : YM E unit :=
  match selection_of inp "flux selection" with
  | None => ret tt
  | Some t => let! s := lift (load_sel true t) in
              let! i := alloc_sel (sel_flag true false false s) in set_flux (Some i)
  end.
Definition load_distance (inp : dict tree) : YM E unit :=
  match selection_of inp "distance selection" with
  | None => ret tt
  | Some t => let! s := lift (load_sel true t) in
              let! i := alloc_sel (sel_flag false true false s) in set_dist (Some i)
  end.
Definition load_spatial (inp : dict tree) : YM E unit :=
  match selection_of inp "spatial selection" with
  | None => ret tt
  | Some t => let! s := lift (load_sel true t) in
              let! i := alloc_sel s in add_spatial (Some i)
  end.

(** ** Auxiliary samplers (547-707) *)

(** [v.pop(k)], which changes the input. *)
Definition pop (k : string) : M (dict tree) tree := fun d =>
  match dget d k with None => (Err KeyError, d) | Some t => (Ok t, ddel d k) end.
(** [if k in v: v.pop(k)] *)
Definition pop_if (k : string) : M (dict tree) (option tree) := fun d =>
  match dget d k with None => (Ok None, d) | Some t => (Ok (Some t), ddel d k) end.

Record aspec := ASpec {
  as_type : tree; as_observed : tree;
  as_sel : option tree; as_sec : option tree; as_init : option tree;
  as_params : dict tree }.
(** 554-595 *)
Definition split_entry : M (dict tree) aspec :=
  let! ty := pop "type" in
  let! ob := pop "observed" in
  let! sel := pop_if "selection" in
  let! sec := pop_if "secondary" in
  let! ini := pop_if "init variables" in
  let! ps := get in
  ret (ASpec ty ob sel sec ini ps).

(** [list(np.atleast_1d(secondary))] (572-581) of strings and [None]. *)
Fixpoint names_of (l : list tree) : res (list (option string)) :=
  match l with
  | nil => Ok nil
  | TStr s :: r => rmap (cons (Some s)) (names_of r)
  | TNone :: r => rmap (cons None) (names_of r)
  | _ => Err Unmodelled
  end.
Definition secondaries_of (t : tree) : res (list (option string)) :=
  match t with
  | TDict d => Ok (map (fun kv => Some (fst kv)) d)
  | TList l => names_of l
  | TStr s => Ok [Some s]
  | TNone => Ok [None]
  | _ => Err Unmodelled
  end.

(** The four attempts to call the class (603-647); the last one renames the new
    object. *)
Definition or_else {A} (r : res A) (k : res A) : res A := match r with Err TypeError => k | _ => r end.
Definition construct (c : auxcls) (nm : string) (obs : bool) (ini : dict tree) : res (astat E) :=
  or_else (ac_new c (Some nm) (Some obs) ini)
    (or_else (ac_new c None (Some obs) ini)
       (or_else (ac_new c (Some nm) None ini)
          (let? s := ac_new c None None ini in
           Ok (AStat nm (a_type s) (a_kind s) obs (a_usesd s) (a_usesl s) (a_usesp s))))).

Definition alloc_aux (a : sampler E) : YM E nat := fun y =>
  (Ok (length (w_auxs (y_w y))), with_w y (w_set_auxs (w_auxs (y_w y) ++ [a])%list (y_w y))).

(** Build one sampler (603-691).  A new sampler has a new [UnitySelection]
    (auxiliary_sampler.py:203). *)
Definition build_aux (nm : string) (s : aspec) : YM E nat :=
  match as_type s, as_observed s with
  | TStr ty, TBool obs =>
      let! ini := lift (match as_init s with None => Ok nil | Some t => items_or_none t end) in
      let! c := lift (rg_aux rg ty) in
      let! st := lift (construct c nm obs ini) in
      let! u := alloc_sel (unity E "unity") in
      let! p := lift (set_attrs (k_params (a_kind st)) (ac_other c) (as_params s) (pobj_new V)) in
      let! sel := match as_sel s with
                  | None | Some TNone => ret u
                  | Some t => let! x := lift (load_sel false t) in alloc_sel (sel_flag false false true x)
                  end in
      alloc_aux (Sampler st (ALink nil false nil sel) (ADyn p false None None None None None))
  | _, _ => raise Unmodelled
  end.

(** The loop (552-707): the samplers by name, the names of their secondaries, and what
    is left of the input. *)
Definition gathered : Type := (dict nat * dict (list (option string)))%type.
Definition gather1 (nm : string) (s : aspec) (acc : gathered) : YM E gathered :=
  let! secs := lift (match as_sec s with None => Ok None | Some t => rmap Some (secondaries_of t) end) in
  let! i := build_aux nm s in
  ret (dset (fst acc) nm i, match secs with None => snd acc | Some l => dset (snd acc) nm l end).
Fixpoint gather (l : dict tree) (acc : gathered) (y : synth) : res gathered * synth * dict tree :=
  match l with
  | nil => (Ok acc, y, nil)
  | (nm, TDict d) :: r =>
      match split_entry d with
      | (Err e, d') => (Err e, y, (nm, TDict d') :: r)
      | (Ok s, d') =>
          match gather1 nm s acc y with
          | (Err e, y') => (Err e, y', (nm, TDict d') :: r)
          | (Ok acc', y') => let '(x, y'', r') := gather r acc' y' in (x, y'', (nm, TDict d') :: r')
          end
      end
  | _ => (Err AttributeError, y, l)
  end.

(** Link the secondaries (716-727). *)
Fixpoint link1 (auxs : dict nat) (p : nat) (l : list (option string)) : AM E unit :=
  match l with
  | nil => ret tt
  | None :: _ => ret tt
  | Some s :: r =>
      let! i := lift (of_opt KeyError (dget auxs s)) in
      set_secondary p i ;; link1 auxs p r
  end.
Definition link (auxs : dict nat) (secs : dict (list (option string))) : AM E unit :=
  iterM (fun kv => let! p := lift (of_opt KeyError (dget auxs (fst kv))) in link1 auxs p (snd kv)) secs.
(** Drop them from the list (732-738). *)
Definition drop1 (auxs : dict nat) (l : list (option string)) : dict nat :=
  fold_left (fun a x => match x with Some s => ddel a s | None => a end) l auxs.
Definition drop (auxs : dict nat) (secs : dict (list (option string))) : dict nat :=
  fold_left (fun a kv => drop1 a (snd kv)) secs auxs.

(** ** All of it.  [w] holds the objects that exist already.  The result, and the
    input as the call leaves it. *)
Definition load_aux (inp : dict tree) (y : synth) : res synth * dict tree :=
  match dget inp "auxiliary samplers" with
  | None => (Ok y, inp)
  | Some t =>
      match items t with
      | Err e => (Err e, inp)
      | Ok l =>
          let '(x, y1, l') := gather l (nil, nil) y in
          (let? acc := x in
           match (in_w (link (fst acc) (snd acc)) ;;
                  iterM (fun kv => add_quantity (IsSampler (snd kv))) (drop (fst acc) (snd acc))) y1 with
           | (Ok _, y2) => Ok y2
           | (Err e, _) => Err e
           end,
           dset inp "auxiliary samplers" (TDict l'))
      end
  end.
Definition from_dict (w : world) (inp : dict tree) : res synth * dict tree :=
  match load_base w inp with
  | Err e => (Err e, inp)
  | Ok y0 =>
      match (load_flux inp ;; load_distance inp ;; load_spatial inp) y0 with
      | (Err e, _) => (Err e, inp)
      | (Ok _, y1) => load_aux inp y1
      end
  end.

(** ** YAML (186-200, 753-764)

    [yaml.dump] with its default [sort_keys=True] writes the keys of every mapping in
    order; loading gives the mapping in the order of the file.  Values are taken to be
    written and read exactly.  [numpy] values cannot be written ([SafeDumper]). *)
Fixpoint insert_key {A} (kv : string * A) (d : dict A) : dict A :=
  match d with
  | nil => [kv]
  | kv' :: r => if String.leb (fst kv) (fst kv') then kv :: d else kv' :: insert_key kv r
  end.
Fixpoint sort_keys {A} (d : dict A) : dict A :=
  match d with nil => nil | kv :: r => insert_key kv (sort_keys r) end.
Fixpoint yaml (t : tree) : tree :=
  match t with
  | TList l => TList (map yaml l)
  | TDict d => TDict (sort_keys (map (fun kv => (fst kv, yaml (snd kv))) d))
  | _ => t
  end.
(** [from_file] of what [write_to] wrote. *)
Definition through_file (rl : nat) (w : world) (y : synth) : res synth :=
  let? t := to_dict rl y in
  match yaml t with
  | TDict d => fst (from_dict w d)
  | _ => Err AttributeError
  end.
End Conf.
