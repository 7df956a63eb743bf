(** Model of [popsynth/population.py]: construction, attribute protection, Stan
    data and sub-populations. *)
From Verif Require Import Base Env ParamModel SelModel SimVarModel DistModel AuxModel Tree.
Set Implicit Arguments.
Open Scope string_scope.

(** A name: a python string, or bytes when it was read from a file. *)
Inductive pystr := PyStr (s : string) | PyBytes (s : string).

Section Pop.
Variable E : env.
Notation V := (V E).

(** Arguments of [Population(...)] (population.py:34-62).  Arrays are
    one-dimensional, [selection] is boolean.  Dictionaries and the graph are kept
    by reference in python; here by value. *)
Record popargs := PopArgs {
  pa_lum : list V;
  pa_dist : list V;
  pa_known : list V;
  pa_kidx : list nat;
  pa_uidx : list nat;
  pa_flux : list V;
  pa_fobs : list V;
  pa_sel : list bool;
  pa_sigma : V;
  pa_rmax : V;
  pa_nmodel : nat;
  pa_lfpar : option (dict (option V));
  pa_sppar : dict (option V);
  pa_spaces : option (dict (list V));
  pa_seed : Z;
  pa_name : pystr;
  pa_spform : string;
  pa_lfform : option string;
  pa_aux : option (dict (list V * list V));   (* name -> (true_values, obs_values) *)
  pa_truth : dict (dict V);
  pa_graph : graph;
  pa_theta : list V;
  pa_phi : list V;
  pa_popsynth : option (tree V);
  pa_prob : option (list V) }.

(** A population: the stored arguments and what the constructor computes. *)
Record population := Pop {
  p_args : popargs;
  p_lum : simvar V;
  p_dist : simvar V;
  p_theta : simvar V;
  p_phi : simvar V;
  p_flux : simvar V;
  p_prob : option (simvar V);
  p_nobj : nat;
  p_ndet : nat;
  p_nnon : nat;
  p_nodet : bool;
  p_aux : dict (simvar V) }.

(** Read-only properties of the class (population.py:224-492): assigning to one
    raises [AttributeError]. *)
Definition readonly : list string :=
  ["graph"; "probability"; "pop_synth"; "truth"; "flux_sigma"; "theta"; "phi"; "dec"; "ra";
   "luminosities"; "luminosities_latent"; "distances"; "known_distances"; "selection"; "fluxes";
   "fluxes_latent"; "fluxes_observed"; "selected_fluxes_observed"; "selected_fluxes_latent";
   "selected_distances"; "hidden_fluxes_observed"; "hidden_distances"; "hidden_fluxes_latent";
   "hard_cut"; "distance_probability"; "luminosity_parameters"; "n_objects"; "n_detections";
   "n_non_detections"; "has_detections"; "spatial_parameters"; "__weakref__"].
(** Attributes of every python object that only take values of their own kind. *)
Definition special : list string := ["__class__"; "__dict__"].
(** Attributes the constructor itself uses (115-203). *)
Definition internal : list string :=
  ["_luminosities"; "_distances"; "_known_distances"; "_known_distance_idx"; "_unknown_distance_idx";
   "_theta"; "_phi"; "_fluxes"; "_selection"; "_flux_sigma"; "_r_max"; "_seed"; "_n_model"; "_name";
   "_spatial_form"; "_lf_form"; "_lf_params"; "_spatial_params"; "_model_spaces"; "_truth"; "_graph";
   "_n_objects"; "_n_detections"; "_n_non_detections"; "_pop_synth"; "_probability"; "_no_detection"].
Definition mem (k : string) (l : list string) : bool := existsb (String.eqb k) l.

(** A variable over floats with a boolean mask. *)
Definition fvar (obs lat : list V) (sel : list bool) : res (simvar V) := sv_new obs lat (MB sel) DFloat.

(** One turn of the loop at 193-201: [setattr] and [_protected_names.append].
    A quantity named after one of the constructor's own attributes would replace
    that attribute: outside the model, except for the two names that raise. *)
Definition aux_attr (sel : list bool) (k : string) (v : list V * list V) : res (simvar V) :=
  let? x := fvar (snd v) (fst v) sel in
  if mem k readonly then Err AttributeError
  else if mem k special then Err TypeError
  else if mem k ["_protected_names"; "_auxiliary_quantities"] then Err AttributeError
  else if mem k internal then Err Unmodelled
  else Ok x.

(** [Population(...)] (population.py:115-209). *)
Definition pop_new (a : popargs) : res population :=
  let sel := pa_sel a in
  let? l := fvar (pa_lum a) (pa_lum a) sel in
  let? d := fvar (pa_dist a) (pa_dist a) sel in
  let? t := fvar (pa_theta a) (pa_theta a) sel in
  let? p := fvar (pa_phi a) (pa_phi a) sel in
  let? _ := rassert (Nat.eqb (length (pa_known a) + length (pa_uidx a)) (count sel)) in
  let? f := fvar (pa_fobs a) (pa_flux a) sel in
  let? pr := match pa_prob a with
             | None => Ok None
             | Some q => rmap Some (fvar q q sel)
             end in
  let? aux := match pa_aux a with
              | None => Ok nil
              | Some x => rmapM (fun kv => rmap (pair (fst kv)) (aux_attr sel (fst kv) (snd kv))) x
              end in
  let? _ := match pa_spaces a with
            | None => Ok nil
            | Some x => rmapM (fun kv => rassert (Nat.eqb (length (snd kv)) (pa_nmodel a))) x
            end in
  Ok (Pop a l d t p f pr (length sel) (count sel) (length sel - count sel) (Nat.eqb (count sel) 0) aux).

(** ** Attributes (population.py:211-222) *)

(** The attribute [_protected_names]: a list of names, deleted, or replaced by
    something that is not a list of names. *)
Inductive protection := Names (l : list string) | Gone | Other.
(** What matters of an instance: the protected names and its other attributes. *)
Record attrs (T : Type) := Attrs { at_prot : protection; at_vals : dict T }.

(** [setattr(p, k, v)] (211-222); [names v] is the list of names [v] is, if it is
    one.  Assignments to the names of [special] are not modelled. *)
Definition setattr {T} (names : T -> option (list string)) (k : string) (v : T) (o : attrs T) : res unit * attrs T :=
  if String.eqb k "_protected_names" then
    (Ok tt, Attrs (match names v with Some l => Names l | None => Other end) (at_vals o))
  else match at_prot o with
       | Gone => (Err AttributeError, o)
       | Other => (Err Unmodelled, o)
       | Names l =>
           if mem k l then (Err AttributeError, o)
           else if mem k readonly then (Err AttributeError, o)
           else if mem k special then (Err Unmodelled, o)
           else (Ok tt, Attrs (Names l) (dset (at_vals o) k v))
       end.

(** [delattr(p, k)]: the class does not restrict it. *)
Definition delattr {T} (k : string) (o : attrs T) : res unit * attrs T :=
  if String.eqb k "_protected_names" then
    match at_prot o with Gone => (Err AttributeError, o) | _ => (Ok tt, Attrs Gone (at_vals o)) end
  else if mem k readonly then (Err AttributeError, o)
  else if mem k special then (Err Unmodelled, o)
  else match dget (at_vals o) k with
       | None => (Err AttributeError, o)
       | Some _ => (Ok tt, Attrs (at_prot o) (ddel (at_vals o) k))
       end.

(** The loop of the constructor (192-201): each quantity is assigned, then
    protected. *)
Fixpoint install {T} (names : T -> option (list string)) (l : list (string * T)) (o : attrs T) : res unit * attrs T :=
  match l with
  | nil => (Ok tt, o)
  | (k, v) :: r =>
      match setattr names k v o with
      | (Ok _, o1) =>
          match at_prot o1 with
          | Names q => install names r (Attrs (Names (q ++ [k])%list) (at_vals o1))
          | _ => (Err AttributeError, o1)
          end
      | (Err e, o1) => (Err e, o1)
      end
  end.
(** The end of the constructor (190-203): quantities, then the dictionary [d] of
    quantities. *)
Definition finish {T} (names : T -> option (list string)) (l : list (string * T)) (d : T) (o : attrs T) : res unit * attrs T :=
  match install names l o with
  | (Ok _, o1) => setattr names "_auxiliary_quantities" d o1
  | (Err e, o1) => (Err e, o1)
  end.

(** ** Stan data (population.py:505-546) *)
Inductive sval :=
| SNat (n : nat) | SNum (v : V) | SIdx (l : list nat) | SArr (l : list V) | SVar (x : simvar V).

Definition stan_data (p : population) : res (dict sval) :=
  let a := p_args p in
  let? zs := sv_selected (p_dist p) in
  let? fs := sv_selected (p_flux p) in
  let? lf := ufunc1 DFloat (vlog10 E) fs in
  let kidx := SIdx (map S (pa_kidx a)) in
  let uidx := SIdx (map S (pa_uidx a)) in
  let base :=
    [("N", SNat (p_ndet p)); ("Nz", SNat (length (pa_known a))); ("Nnz", SNat (length (pa_uidx a)));
     ("z_obs", SVar zs); ("known_z_obs", SArr (pa_known a)); ("z_idx", kidx); ("z_nidx", uidx);
     ("r_obs", SVar zs); ("known_r_obs", SArr (pa_known a)); ("r_idx", kidx); ("r_nidx", uidx);
     ("log_flux_obs", SVar lf); ("flux_obs", SArr (sv_obs fs)); ("flux_sigma", SNum (pa_sigma a));
     ("z_max", SNum (pa_rmax a)); ("r_max", SNum (pa_rmax a)); ("N_model", SNat (pa_nmodel a))] in
  let? ms := of_opt AttributeError (pa_spaces a) in
  let out := fold_left (fun o kv => dset o (fst kv) (SArr (snd kv))) ms base in
  let? aux := of_opt AttributeError (pa_aux a) in
  let? ents := rmapM (fun kv => rmap (pair (fst kv ++ "_obs")) (np_mask (snd (snd kv)) (pa_sel a))) aux in
  Ok (fold_left (fun o kv => dset o (fst kv) (SArr (snd kv))) ents out).

(** ** Sub-populations (population.py:828-923) *)

(** [a == b] on floats. *)
Definition veq (a b : V) : bool := vle E a b && vle E b a.
(** [i in known_distances] (879): the *index* is compared with the distances. *)
Definition idx_in (i : nat) (known : list V) : bool := existsb (veq (vofnat E i)) known.

(** The loop at 875-889: position in the population, position in the result. *)
Fixpoint sub_known (known : list V) (dist : list V) (sel : list bool) (i itr : nat)
  : res (list V * list nat * list nat) :=
  match sel with
  | nil => Ok (nil, nil, nil)
  | b :: r =>
      if b then
        if idx_in i known then
          let? d := of_opt IndexError (nth_error dist i) in
          let? q := sub_known known dist r (S i) (S itr) in
          let '(ks, ki, ui) := q in Ok (d :: ks, itr :: ki, ui)
        else
          let? q := sub_known known dist r (S i) (S itr) in
          let '(ks, ki, ui) := q in Ok (ks, ki, itr :: ui)
      else sub_known known dist r (S i) itr
  end.

Definition sub_population (observed : bool) (p : population) : res population :=
  let a := p_args p in
  let pick := if observed then @sv_selected V else @sv_non_selected V in
  let sel := if observed then pa_sel a else mnot (pa_sel a) in
  let? aux := match pa_aux a with
              | None => Ok None
              | Some x => rmap Some (rmapM (fun kv =>
                  let? t := np_mask (fst (snd kv)) sel in
                  let? o := np_mask (snd (snd kv)) sel in Ok (fst kv, (t, o))) x)
              end in
  let? kd := sub_known (pa_known a) (sv_obs (p_dist p)) sel 0 0 in
  let '(ks, ki, ui) := kd in
  let? pr := match p_prob p with
             | None => Ok None
             | Some q => rmap Some (pick q)
             end in
  let? l := pick (p_lum p) in
  let? d := pick (p_dist p) in
  let? f := pick (p_flux p) in
  let? t := pick (p_theta p) in
  let? h := pick (p_phi p) in
  pop_new (PopArgs (sv_obs l) (sv_obs d) ks ki ui (sv_lat f) (sv_obs f) (repeat true (count sel))
             (pa_sigma a) (pa_rmax a) (pa_nmodel a) (pa_lfpar a) (pa_sppar a) (pa_spaces a) (pa_seed a)
             (pa_name a) (pa_spform a) (pa_lfform a) aux (pa_truth a) (pa_graph a) (sv_obs t) (sv_obs h)
             None (option_map (@sv_obs V) pr)).

End Pop.
