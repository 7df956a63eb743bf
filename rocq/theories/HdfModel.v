(** Model of [popsynth/utils/hdf5_utils.py] and of writing and reading populations
    ([population.py:548-826]).  An HDF5 group is a list of links sorted by name, the
    order in which h5py iterates over a group. *)
From Coq Require Import Ascii.
From Verif Require Import Base Env SimVarModel AuxModel Tree PopModel.
Set Implicit Arguments.
Open Scope string_scope.

Section Hdf.
Variable V : Type.
Notation tree := (tree V).
(** Whether bytes are valid UTF-8 ([bytes.decode()] succeeds). *)
Variable utf8 : string -> bool.

(** What a dataset or attribute holds: 0-dimensional values and one-dimensional
    arrays of floats, indices and booleans. *)
Inductive hval :=
| HNum (v : V) | HInt (z : Z) | HBool (b : bool) | HStr (s : string) | HBytes (s : string)
| HArr (l : list V) | HIdx (l : list nat) | HMask (l : list bool).

(** A dataset, or a group with attributes and links. *)
Inductive h5 :=
| HData (v : hval)
| HGroup (attrs : list (string * hval)) (links : list (string * h5)).

(** A new link at its place in the order of names. *)
Fixpoint hins (g : dict h5) (k : string) (n : h5) : dict h5 :=
  match g with
  | nil => [(k, n)]
  | (k', n') :: r =>
      match String.compare k k' with
      | Gt => (k', n') :: hins r k n
      | _ => (k, n) :: (k', n') :: r
      end
  end.

(** Components of a path: slashes separate, empty components and ["."] are ignored. *)
Fixpoint split (cur : string) (s : string) : list string :=
  match s with
  | EmptyString => [cur]
  | String c r => if Ascii.eqb c "/" then cur :: split "" r else split (cur ++ String c "") r
  end.
Definition comps (s : string) : list string :=
  filter (fun x => negb (String.eqb x "") && negb (String.eqb x ".")) (split "" s).

(** Change the links of the group at path [p]; missing groups are created. *)
Fixpoint h5_upd (p : list string) (h : dict h5 -> res (dict h5)) (g : dict h5) : res (dict h5) :=
  match p with
  | nil => h g
  | k :: r =>
      match dget g k with
      | None => let? g1 := h5_upd r h nil in Ok (hins g k (HGroup nil g1))
      | Some (HGroup a g0) => let? g1 := h5_upd r h g0 in Ok (dset g k (HGroup a g1))
      | Some (HData _) => Err ValueError
      end
  end.

(** A new link; h5py raises when the name is in use (the exception depends on the
    version: [RuntimeError], [OSError] or [ValueError]). *)
Definition addl (k : string) (n : h5) (g : dict h5) : res (dict h5) :=
  match dget g k with None => Ok (hins g k n) | Some _ => Err ValueError end.

Definition has_nul (s : string) : bool := existsb (Ascii.eqb "000") (list_ascii_of_string s).
Definition int64 (z : Z) : bool := ((- 2 ^ 63 <=? z) && (z <? 2 ^ 63))%Z.

(** [h5file[name] = v], [create_dataset(name, data=v)], [create_group(name)].  A name
    with a NUL is refused.  Paths are taken relative to the group at hand (in HDF5
    one that starts with a slash is relative to the file). *)
Definition hlink (name : string) (n : h5) : M (dict h5) unit := fun f =>
  if has_nul name then (Err ValueError, f) else
  match rev (comps name) with
  | nil => (Err Unmodelled, f)
  | k :: pre =>
      match h5_upd (rev pre) (addl k n) f with
      | Ok f1 => (Ok tt, f1)
      | Err e => (Err e, f)
      end
  end.
Definition hset (name : string) (v : hval) : M (dict h5) unit := hlink name (HData v).

(** ** Dictionaries (hdf5_utils.py:7-99) *)

(** A value the library accepts (45-51), as h5py stores it; [None] for values of
    other types.  Strings with a NUL are refused by h5py.  Integers beyond 64 bits
    and bytes that h5py pads or truncates are not modelled. *)
Definition store (t : tree) : option (res hval) :=
  match t with
  | TNum v => Some (Ok (HNum v))
  | TInt z => Some (if int64 z then Ok (HInt z) else Err Unmodelled)
  | TBool b => Some (Ok (HBool b))
  | TStr s => Some (if has_nul s then Err ValueError else Ok (HStr s))
  | TBytes s => Some (if String.eqb s "" || has_nul s then Err Unmodelled else Ok (HBytes s))
  | TArr l => Some (Ok (HArr l))
  | _ => None
  end.

(** The strings of a list of strings (21-29). *)
Fixpoint strings (l : list tree) : option (list string) :=
  match l with
  | nil => Some nil
  | TStr s :: r => option_map (cons s) (strings r)
  | _ => None
  end.
(** Keys of the dictionary built from it (35-41). *)
Definition distinct (l : list string) : list string := dkeys (fold_left (fun d s => dset d s tt) l nil).

Definition fill_value : string := "FILL_VALUE".

(** One entry of [recursively_save_dict_contents_to_group(h5file, path, dic)] (16-64). *)
Fixpoint save_item (path key : string) (t : tree) : M (dict h5) unit :=
  match t with
  | TList l =>
      match strings l with
      | None => raise ValueError
      | Some ss =>
          (if Nat.eqb (length ss) 0 then hset (path ++ "/" ++ key) (HStr fill_value) else ret tt) ;;
          iterM (fun s => hset ((path ++ "/" ++ key ++ "/") ++ "/" ++ s) (HStr fill_value)) (distinct ss)
      end
  | TDict d =>
      (if Nat.eqb (length d) 0 then hset (path ++ "/" ++ key) (HStr fill_value) else ret tt) ;;
      (fix go (d : list (string * tree)) : M (dict h5) unit :=
         match d with
         | nil => ret tt
         | (k, t') :: r => save_item (path ++ "/" ++ key ++ "/") k t' ;; go r
         end) d
  | _ =>
      match store t with
      | None => raise ValueError
      | Some r => let! v := lift r in hset (path ++ "/" ++ key) v
      end
  end.
Definition save (path : string) (d : dict tree) : M (dict h5) unit :=
  iterM (fun kt => save_item path (fst kt) (snd kt)) d.

(** A dataset read back (83-95): strings and bytes are decoded.  Arrays of indices
    and booleans do not occur in dictionaries. *)
Definition fetch (v : hval) : res tree :=
  match v with
  | HNum x => Ok (TNum x)
  | HInt z => Ok (TInt z)
  | HBool b => Ok (TNpb b)
  | HStr s => Ok (if String.eqb s fill_value then TDict nil else TStr s)
  | HBytes s => Ok (if utf8 s then (if String.eqb s fill_value then TDict nil else TStr s) else TBytes s)
  | HArr l => Ok (TArr l)
  | HIdx _ | HMask _ => Err Unmodelled
  end.
(** [recursively_load_dict_contents_from_group] (67-99) on the object found. *)
Fixpoint dec (n : h5) : res tree :=
  match n with
  | HData v => fetch v
  | HGroup _ l =>
      rmap (@TDict V) ((fix go (l : list (string * h5)) : res (list (string * tree)) :=
        match l with
        | nil => Ok nil
        | (k, n') :: r => let? t := dec n' in let? q := go r in Ok ((k, t) :: q)
        end) l)
  end.
Fixpoint lookup (p : list string) (g : dict h5) : res h5 :=
  match p with
  | nil => Err Unmodelled
  | k :: nil => of_opt KeyError (dget g k)
  | k :: r => match dget g k with
              | Some (HGroup _ g1) => lookup r g1
              | _ => Err KeyError
              end
  end.
Definition load (path : string) (f : dict h5) : res tree :=
  let? n := lookup (comps path) f in
  match n with HGroup _ _ => dec n | HData _ => Err AttributeError end.

(** ** Graph dictionaries (hdf5_utils.py:102-135) *)

(** [fill_graph_dict(d, fill_value)]: inner calls use the default 1.  A value without
    length raises [TypeError]. *)
Fixpoint fill1 (t : tree) : res tree :=
  match t with
  | TDict d => rmap (@TDict V) ((fix go (d : list (string * tree)) : res (list (string * tree)) :=
      match d with
      | nil => Ok nil
      | (k, t') :: r =>
          let? x := match t' with
                    | TDict nil => Ok (TInt 1)
                    | _ => fill1 t'
                    end in
          let? q := go r in Ok ((k, x) :: q)
      end) d)
  | _ => Err TypeError
  end.
Definition fill_graph (fv : tree) (d : dict tree) : res (dict tree) :=
  rmapM (fun kt => let? x := match snd kt with TDict nil => Ok fv | _ => fill1 (snd kt) end in Ok (fst kt, x)) d.

(** [clean_graph_dict]. *)
Fixpoint clean1 (t : tree) : tree :=
  match t with
  | TDict d => TDict (map (fun kt => (fst kt, clean1 (snd kt))) d)
  | _ => TDict nil
  end.
Definition clean_graph (d : dict tree) : dict tree := map (fun kt => (fst kt, clean1 (snd kt))) d.

(** [nx.to_dict_of_dicts] of a directed graph without edge attributes. *)
Definition adjacency (g : graph) : dict tree :=
  map (fun n => (n, TDict (map (fun e => (snd e, TDict nil)) (filter (fun e => String.eqb (fst e) n) (gr_edges g)))))
      (dkeys (gr_nodes g)).
(** [nx.from_dict_of_dicts(d)]: an undirected graph, represented by an edge in each
    direction. *)
Definition entries (t : tree) : list (string * tree) := match t with TDict d => d | _ => nil end.
Definition undirected (d : dict tree) : graph :=
  let es := flat_map (fun kt => map (fun e => (fst kt, fst e)) (entries (snd kt))) d in
  fold_left (fun g e => add_edge (snd e) (fst e) (add_edge (fst e) (snd e) g)) es
            (fold_left (fun g k => add_node k None g) (dkeys d) g_empty).
End Hdf.
Arguments HInt {V} z.
Arguments HBool {V} b.
Arguments HStr {V} s.
Arguments HBytes {V} s.
Arguments HIdx {V} l.
Arguments HMask {V} l.

(** ** Text *)

(** [np.string_(s)]: ASCII only. *)
Definition is_ascii (s : string) : bool := forallb (fun c => Nat.ltb (nat_of_ascii c) 128) (list_ascii_of_string s).
Definition np_string (s : string) : res string := if is_ascii s then Ok s else Err ValueError.

Definition hex1 (n : nat) : ascii := match n with
  | 0 => "0" | 1 => "1" | 2 => "2" | 3 => "3" | 4 => "4" | 5 => "5" | 6 => "6" | 7 => "7"
  | 8 => "8" | 9 => "9" | 10 => "a" | 11 => "b" | 12 => "c" | 13 => "d" | 14 => "e" | _ => "f" end%char.
(** One byte inside [repr(bytes)]. *)
Definition esc (q : ascii) (c : ascii) : string :=
  let n := nat_of_ascii c in
  if Ascii.eqb c q || Ascii.eqb c "\" then String "\" (String c "")
  else if Nat.eqb n 9 then "\t" else if Nat.eqb n 10 then "\n" else if Nat.eqb n 13 then "\r"
  else if Nat.ltb n 32 || Nat.leb 127 n then String "\" (String "x" (String (hex1 (n / 16)) (String (hex1 (n mod 16)) "")))
  else String c "".
Fixpoint esc_all (q : ascii) (s : string) : string :=
  match s with EmptyString => "" | String c r => esc q c ++ esc_all q r end.
Definition squote : ascii := "'".
Definition dquote : ascii := "034".
(** [str(b)] for bytes [b]: double quotes if it contains only single ones. *)
Definition bytes_repr (s : string) : string :=
  let has c := existsb (Ascii.eqb c) (list_ascii_of_string s) in
  let q := if has squote && negb (has dquote) then dquote else squote in
  "b" ++ String q (esc_all q s ++ String q "").

(** ** Populations (population.py:548-826) *)
Section PopFile.
Variable E : env.
Notation V := (V E).
Variable utf8 : string -> bool.

(** The group written to: its attributes and links. *)
Definition grp : Type := dict (hval V) * dict (h5 V).
Definition GM := M grp.
Definition on_links {A} (m : M (dict (h5 V)) A) : GM A := fun g =>
  let (r, l) := m (snd g) in (r, (fst g, l)).
Definition attr (k : string) (v : hval V) : GM unit := modify (fun g => (dset (fst g) k v, snd g)).
(** An integer attribute; integers beyond 64 bits are not modelled. *)
Definition attr_int (k : string) (z : Z) : GM unit :=
  if int64 z then attr k (HInt z) else raise Unmodelled.
Definition create_group (k : string) : GM unit := on_links (hlink k (HGroup nil nil)).
Definition dataset (k : string) (v : hval V) : GM unit := on_links (hset k v).

(** A dictionary of parameters: [np.array([v])] per entry; an array holding [None]
    cannot be stored. *)
Definition write_params (k : string) (d : dict (option V)) : GM unit :=
  create_group k ;;
  iterM (fun kv => let! v := lift (of_opt TypeError (snd kv)) in dataset (k ++ "/" ++ fst kv) (HArr [v])) d.

(** [_writeto] (579-670). *)
Definition write_pop (p : population E) : GM unit :=
  let a := p_args p in
  write_params "spatial_params" (pa_sppar a) ;;
  (match pa_lfpar a with
   | Some d =>
       write_params "lf_params" d ;;
       let! s := lift (np_string (match pa_lfform a with Some s => s | None => "None" end)) in
       attr "lf_form" (HBytes s) ;;
       attr "has_lf" (HBool true)
   | None => attr "has_lf" (HBool false)
   end) ;;
  let! s := lift (match pa_name a with PyStr s => np_string s | PyBytes s => Ok s end) in
  attr "name" (HBytes s) ;;
  let! s := lift (np_string (pa_spform a)) in
  attr "spatial_form" (HBytes s) ;;
  attr "flux_sigma" (HNum (pa_sigma a)) ;;
  attr_int "n_model" (Z.of_nat (pa_nmodel a)) ;;
  attr "r_max" (HNum (pa_rmax a)) ;;
  attr_int "seed" (pa_seed a) ;;
  (match p_prob p with
   | Some q => dataset "probabilty" (HArr (sv_obs q))
   | None => ret tt
   end) ;;
  dataset "luminosities" (HArr (sv_obs (p_lum p))) ;;
  dataset "distances" (HArr (sv_obs (p_dist p))) ;;
  dataset "known_distances" (HArr (pa_known a)) ;;
  dataset "known_distance_idx" (HIdx (pa_kidx a)) ;;
  dataset "unknown_distance_idx" (HIdx (pa_uidx a)) ;;
  dataset "fluxes" (HArr (sv_lat (p_flux p))) ;;
  dataset "flux_obs" (HArr (sv_obs (p_flux p))) ;;
  dataset "selection" (HMask (pa_sel a)) ;;
  dataset "theta" (HArr (sv_obs (p_theta p))) ;;
  dataset "phi" (HArr (sv_obs (p_phi p))) ;;
  create_group "auxiliary_quantities" ;;
  let! aux := lift (of_opt AttributeError (pa_aux a)) in
  iterM (fun kv =>
    create_group ("auxiliary_quantities/" ++ fst kv) ;;
    dataset ("auxiliary_quantities/" ++ fst kv ++ "/true_values") (HArr (fst (snd kv))) ;;
    dataset ("auxiliary_quantities/" ++ fst kv ++ "/obs_values") (HArr (snd (snd kv)))) aux ;;
  create_group "model_spaces" ;;
  let! sp := lift (of_opt AttributeError (pa_spaces a)) in
  iterM (fun kv => dataset ("model_spaces/" ++ fst kv) (HArr (snd kv))) sp ;;
  on_links (save "truth" (map (fun kv => (fst kv, tdict (snd kv))) (pa_truth a))) ;;
  let! gd := lift (fill_graph (TInt 1) (adjacency V (pa_graph a))) in
  on_links (save "graph" gd) ;;
  let! conf := lift (of_opt AttributeError (pa_popsynth a)) in
  match conf with
  | TDict d => on_links (save "popsynth" d)
  | _ => raise AttributeError
  end.

(** [writeto(file)]: a new file.  [addto(file, name)]: a new group of a file [f]. *)
Definition writeto (p : population E) : res unit * grp := write_pop p (nil, nil).
Definition addto (p : population E) (name : string) (f : dict (h5 V)) : res unit * dict (h5 V) :=
  match hlink name (HGroup nil nil) f with
  | (Err e, f1) => (Err e, f1)
  | (Ok _, f1) =>
      let (r, g) := write_pop p (nil, nil) in
      match rev (comps name) with
      | nil => (Err Unmodelled, f1)
      | k :: pre => match h5_upd (rev pre) (fun l => Ok (dset l k (HGroup (fst g) (snd g)))) f1 with
                    | Ok f2 => (r, f2)
                    | Err e => (Err e, f1)
                    end
      end
  end.

(** Reading datasets and attributes of the expected kind. *)
Definition rd (l : dict (h5 V)) (k : string) : res (hval V) :=
  let? n := lookup (comps k) l in
  match n with HData v => Ok v | HGroup _ _ => Err TypeError end.
Definition arr (v : hval V) : res (list V) := match v with HArr l => Ok l | _ => Err Unmodelled end.
Definition idx (v : hval V) : res (list nat) := match v with HIdx l => Ok l | _ => Err Unmodelled end.
Definition msk (v : hval V) : res (list bool) := match v with HMask l => Ok l | _ => Err Unmodelled end.
Definition num (v : hval V) : res V := match v with HNum x => Ok x | _ => Err Unmodelled end.
Definition int_ (v : hval V) : res Z := match v with HInt z => Ok z | _ => Err Unmodelled end.
Definition bytes (v : hval V) : res string := match v with HBytes s => Ok s | _ => Err Unmodelled end.
Definition rd_arr l k := let? v := rd l k in arr v.
Definition rd_attr (a : dict (hval V)) k : res (hval V) := of_opt KeyError (dget a k).
(** The links of a group. *)
Definition links (l : dict (h5 V)) (k : string) : res (dict (h5 V)) :=
  let? n := lookup (comps k) l in
  match n with HGroup _ g => Ok g | HData _ => Err AttributeError end.
(** One array per link of a group. *)
Definition rd_arrays (l : dict (h5 V)) (k : string) : res (dict (list V)) :=
  let? g := links l k in
  rmapM (fun kn => match snd kn with HData (HArr x) => Ok (fst kn, x) | _ => Err Unmodelled end) g.
Definition rd_params (l : dict (h5 V)) (k : string) : res (dict (option V)) :=
  let? g := rd_arrays l k in
  rmapM (fun kx => let? v := of_opt IndexError (hd_error (snd kx)) in Ok (fst kx, Some v)) g.
Definition rd_aux (l : dict (h5 V)) : res (dict (list V * list V)) :=
  let? g := links l "auxiliary_quantities" in
  rmapM (fun kn => match snd kn with
                   | HGroup _ q => let? t := rd_arr q "true_values" in let? o := rd_arr q "obs_values" in Ok (fst kn, (t, o))
                   | HData _ => Err Unmodelled
                   end) g.
(** A dictionary of dictionaries of numbers. *)
Definition truth_of (t : tree V) : res (dict (dict V)) :=
  match t with
  | TDict d => rmapM (fun kt => match snd kt with
                                | TDict e => rmap (pair (fst kt)) (rmapM (fun kv => match snd kv with TNum v => Ok (fst kv, v) | _ => Err Unmodelled end) e)
                                | _ => Err Unmodelled
                                end) d
  | _ => Err Unmodelled
  end.
(** A dataset that may be missing (741-757). *)
Definition rd_opt (l : dict (h5 V)) (k : string) : res (option (list V)) :=
  match rd_arr l k with Err KeyError => Ok None | r => rmap Some r end.

(** [_loadfrom] (701-826).  The [KeyError] handler for files without known distances
    (741-752) leads to [len(None)] in the constructor. *)
Definition load_args (g : grp) : res (popargs E) :=
  let (a, l) := g in
  let? sppar := rd_params l "spatial_params" in
  let? has := rd_attr a "has_lf" in
  let? lf := match has with
             | HBool true => let? d := rd_params l "lf_params" in
                             let? f := rd_attr a "lf_form" in let? s := bytes f in Ok (Some d, Some (bytes_repr s))
             | HBool false => Ok (None, None)
             | _ => Err Unmodelled
             end in
  let? sigma := let? v := rd_attr a "flux_sigma" in num v in
  let? nm := let? v := rd_attr a "n_model" in int_ v in
  let? rm := let? v := rd_attr a "r_max" in num v in
  let? seed := let? v := rd_attr a "seed" in int_ v in
  let? name := let? v := rd_attr a "name" in bytes v in
  let? spf := let? v := rd_attr a "spatial_form" in bytes v in
  let? lum := rd_arr l "luminosities" in
  let? dist := rd_arr l "distances" in
  let? th := rd_arr l "theta" in
  let? ph := rd_arr l "phi" in
  let? known := match rd_arr l "known_distances" with Err KeyError => Err TypeError | r => r end in
  let? ki := match (let? v := rd l "known_distance_idx" in idx v) with Err KeyError => Err TypeError | r => r end in
  let? ui := match (let? v := rd l "unknown_distance_idx" in idx v) with Err KeyError => Err TypeError | r => r end in
  let? prob := rd_opt l "probability" in
  let? fl := rd_arr l "fluxes" in
  let? fo := rd_arr l "flux_obs" in
  let? sel := let? v := rd l "selection" in msk v in
  let? sp := rd_arrays l "model_spaces" in
  let? aux := rd_aux l in
  let? tr := let? t := load utf8 "truth" l in truth_of t in
  let? gt := load utf8 "graph" l in
  let? conf := load utf8 "popsynth" l in
  Ok (PopArgs E lum dist known ki ui fl fo sel sigma rm (Z.to_nat nm) (fst lf) sppar (Some sp) seed (PyBytes name)
        (bytes_repr spf) (snd lf) (Some aux) tr (undirected (clean_graph (entries gt))) th ph (Some conf) prob).
Definition load_pop (g : grp) : res (population E) := let? a := load_args g in pop_new a.

(** [Population.from_file(file)], [Population.from_group(file, name)]. *)
Definition from_group (name : string) (f : dict (h5 V)) : res (population E) :=
  let? n := lookup (comps name) f in
  match n with HGroup a l => load_pop (a, l) | HData _ => Err Unmodelled end.
End PopFile.
