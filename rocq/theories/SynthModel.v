(** Model of [popsynth/population_synth.py]: construction, registration, cleaning,
    the dependency graph, [to_dict] and [draw_survey]. *)
From Verif Require Import Base Env ParamModel SelModel SimVarModel DistModel AuxModel Tree PopModel.
Set Implicit Arguments.
Open Scope string_scope.

Section Synth.
Variable E : env.
Notation V := (V E).
Notation zero := (vofnat E 0).
Notation one := (vofnat E 1).
Notation world := (world E).

(** Class name and latex form of a distribution; [m_rate] is [_is_rate], present
    on cosmological distributions only. *)
Record meta := Meta { m_type : string; m_form : string; m_rate : option bool }.

(** A [PopulationSynth] together with the objects it refers to.  [y_der] stands for
    [_has_derived_luminosity] and [_derived_luminosity_sampler], which are always
    assigned together. *)
Record synth := Synth {
  y_w : world;
  y_sp : sdist E; y_spm : meta;
  y_lum : option (ldist E); y_lumm : meta;
  y_seed : Z;
  y_name : string;
  y_nmodel : nat;
  y_spaces : dict (list V);
  y_aux : dict nat;
  y_der : option nat;
  y_flux : nat; y_fluxset : bool;
  y_dsel : nat; y_dset : bool;
  y_ssel : option nat;
  y_graph : graph }.

Definition with_w (y : synth) (w : world) : synth :=
  Synth w (y_sp y) (y_spm y) (y_lum y) (y_lumm y) (y_seed y) (y_name y) (y_nmodel y) (y_spaces y) (y_aux y) (y_der y)
        (y_flux y) (y_fluxset y) (y_dsel y) (y_dset y) (y_ssel y) (y_graph y).
Definition with_spd (y : synth) (d : sdist E) : synth :=
  Synth (y_w y) d (y_spm y) (y_lum y) (y_lumm y) (y_seed y) (y_name y) (y_nmodel y) (y_spaces y) (y_aux y) (y_der y)
        (y_flux y) (y_fluxset y) (y_dsel y) (y_dset y) (y_ssel y) (y_graph y).
Definition with_lumd (y : synth) (l : ldist E) : synth :=
  Synth (y_w y) (y_sp y) (y_spm y) (Some l) (y_lumm y) (y_seed y) (y_name y) (y_nmodel y) (y_spaces y) (y_aux y) (y_der y)
        (y_flux y) (y_fluxset y) (y_dsel y) (y_dset y) (y_ssel y) (y_graph y).
Definition with_spaces (y : synth) (x : dict (list V)) : synth :=
  Synth (y_w y) (y_sp y) (y_spm y) (y_lum y) (y_lumm y) (y_seed y) (y_name y) (y_nmodel y) x (y_aux y) (y_der y)
        (y_flux y) (y_fluxset y) (y_dsel y) (y_dset y) (y_ssel y) (y_graph y).
Definition with_aux (y : synth) (x : dict nat) : synth :=
  Synth (y_w y) (y_sp y) (y_spm y) (y_lum y) (y_lumm y) (y_seed y) (y_name y) (y_nmodel y) (y_spaces y) x (y_der y)
        (y_flux y) (y_fluxset y) (y_dsel y) (y_dset y) (y_ssel y) (y_graph y).
Definition with_der (y : synth) (x : option nat) : synth :=
  Synth (y_w y) (y_sp y) (y_spm y) (y_lum y) (y_lumm y) (y_seed y) (y_name y) (y_nmodel y) (y_spaces y) (y_aux y) x
        (y_flux y) (y_fluxset y) (y_dsel y) (y_dset y) (y_ssel y) (y_graph y).
Definition with_flux (y : synth) (i : nat) (b : bool) : synth :=
  Synth (y_w y) (y_sp y) (y_spm y) (y_lum y) (y_lumm y) (y_seed y) (y_name y) (y_nmodel y) (y_spaces y) (y_aux y) (y_der y)
        i b (y_dsel y) (y_dset y) (y_ssel y) (y_graph y).
Definition with_dsel (y : synth) (i : nat) (b : bool) : synth :=
  Synth (y_w y) (y_sp y) (y_spm y) (y_lum y) (y_lumm y) (y_seed y) (y_name y) (y_nmodel y) (y_spaces y) (y_aux y) (y_der y)
        (y_flux y) (y_fluxset y) i b (y_ssel y) (y_graph y).
Definition with_ssel (y : synth) (x : option nat) : synth :=
  Synth (y_w y) (y_sp y) (y_spm y) (y_lum y) (y_lumm y) (y_seed y) (y_name y) (y_nmodel y) (y_spaces y) (y_aux y) (y_der y)
        (y_flux y) (y_fluxset y) (y_dsel y) (y_dset y) x (y_graph y).
Definition with_graph (y : synth) (g : graph) : synth :=
  Synth (y_w y) (y_sp y) (y_spm y) (y_lum y) (y_lumm y) (y_seed y) (y_name y) (y_nmodel y) (y_spaces y) (y_aux y) (y_der y)
        (y_flux y) (y_fluxset y) (y_dsel y) (y_dset y) (y_ssel y) g.

Definition YM := M synth.
Definition in_w {A} (m : AM E A) : YM A := fun y => let (r, w) := m (y_w y) in (r, with_w y w).
Definition in_sp {A} (m : DM E A) : YM A := fun y =>
  let '(r, (d, g)) := m (y_sp y, w_g (y_w y)) in
  (r, with_spd (with_w y (w_set_gens (g, w_n (y_w y)) (y_w y))) d).
(** A method call on [None] raises [AttributeError]. *)
Definition in_lum {A} (m : LM E A) : YM A := fun y =>
  match y_lum y with
  | None => (Err AttributeError, y)
  | Some l => let '(r, (l', g)) := m (l, w_g (y_w y)) in
              (r, with_lumd (with_w y (w_set_gens (g, w_n (y_w y)) (y_w y))) l')
  end.
Definition in_g {A} (m : M (Rst E) A) : YM A := fun y =>
  let (r, g) := m (w_g (y_w y)) in (r, with_w y (w_set_gens (g, w_n (y_w y)) (y_w y))).

(** A new object in the heap. *)
Definition alloc_sel (s : selector E) : YM nat := fun y =>
  (Ok (length (w_sels (y_w y))), with_w y (w_set_sels (w_sels (y_w y) ++ [s])%list (y_w y))).

(** ** Construction (population_synth.py:38-123) *)
Definition synth_name (sp : sdist E) (lum : option (ldist E)) : string :=
  match lum with None => sd_name sp | Some l => sd_name sp ++ "_" ++ ld_name l end.

(** With arguments of the right types; a wrong type raises [RuntimeError] (67-83).
    [w] holds the objects that exist already. *)
Definition synth_new (w : world) (sp : sdist E) (spm : meta) (lum : option (ldist E)) (lumm : meta) (seed : Z) : synth :=
  let n := length (w_sels w) in
  Synth (w_set_sels (w_sels w ++ [unity E "unity distance selector"; unity E "unity flux selector"])%list w)
        sp spm lum lumm seed (synth_name sp lum) 500 nil nil None
        (S n) false n false None
        (add_node (sd_name sp) None g_empty).

(** ** Registration *)
Inductive registrable := IsSampler (i : nat) | NotASampler.

(** [add_observed_quantity], also [add_auxiliary_sampler] (population_synth.py:792-855). *)
Definition add_quantity (x : registrable) : YM unit :=
  match x with
  | NotASampler => raise RuntimeError
  | IsSampler i =>
      let! a := in_w (get_aux i) in
      match k_lum (kind_of a) with
      | Some _ => modify (fun y => with_der y (Some i))
      | None =>
          if a_issec (a_ln a) then raise RuntimeError
          else
            let! y := get in
            if dmem (y_aux y) (name_of a) then raise RuntimeError
            else modify (fun y => with_aux y (dset (y_aux y) (name_of a) i))
      end
  end.

(** [set_flux_selection], [set_distance_selection], [add_spatial_selector]
    (857-908); [None]: the argument is not a selector. *)
Definition set_flux (x : option nat) : YM unit :=
  match x with None => raise RuntimeError | Some i => modify (fun y => with_flux y i true) end.
Definition set_dist (x : option nat) : YM unit :=
  match x with None => raise RuntimeError | Some i => modify (fun y => with_dsel y i true) end.
Definition add_spatial (x : option nat) : YM unit :=
  match x with None => raise RuntimeError | Some i => modify (fun y => with_ssel y (Some i)) end.

(** [np.linspace(start, stop, n)] *)
Definition linspace (a b : V) (n : nat) : list V :=
  match n with
  | O => nil
  | S O => [a]
  | S m => (map (fun i => vadd E a (vmul E (vofnat E i) (vdiv E (vsub E b a) (vofnat E m)))) (seq 0 m) ++ [b])%list
  end.
(** [add_model_space] (774-790). *)
Definition add_space (nm : string) (a b : V) (log : bool) : YM unit :=
  modify (fun y => with_spaces y (dset (y_spaces y) nm
    (if log then map (vexp10 E) (linspace (vlog10 E a) (vlog10 E b) (y_nmodel y))
     else linspace a b (y_nmodel y)))).

(** [clean(reset)] (127-184).  [rl] is the recursion limit. *)
Definition clean (rl : nat) (reset : bool) : YM unit :=
  let! y := get in
  (if reset then iterM (fun kv => in_w (aux_reset rl (snd kv))) (y_aux y) else ret tt) ;;
  modify (fun y => with_aux y nil) ;;
  (if reset then match y_der y with None => ret tt | Some i => in_w (aux_reset rl i) end else ret tt) ;;
  modify (fun y => with_der y None) ;;
  (if reset then in_w (upd_sel (y_flux y) (@sel_reset E)) else ret tt) ;;
  let! f := alloc_sel (unity E "unity flux selector") in
  modify (fun y => with_flux y f false) ;;
  (if reset then in_w (upd_sel (y_dsel y) (@sel_reset E)) else ret tt) ;;
  let! d := alloc_sel (unity E "unity distance selector") in
  modify (fun y => with_dsel y d false) ;;
  (if reset then match y_ssel y with None => ret tt | Some i => in_w (upd_sel i (@sel_reset E)) end else ret tt) ;;
  modify (fun y => with_ssel y None).

(** ** Dependency graph (1494-1582) *)
Definition GM := M graph.
Definition gnode (k : string) (b : option bool) : GM unit := modify (add_node k b).
Definition gedge (u v : string) : GM unit := modify (add_edge u v).
(** [v.get_secondary_properties(graph, primary, spatial_distribution)] *)
Definition gprops (rl : nat) (h : list (sampler E)) (i : nat) (primary : string) : GM unit := fun g =>
  match sec_props rl h i primary (Some g) with
  | (r, Some g') => (rmap (fun _ => tt) r, g')
  | (r, None) => (rmap (fun _ => tt) r, g)
  end.
Definition gaux (h : list (sampler E)) (i : nat) : GM (sampler E) := lift (of_opt Unmodelled (nth_error h i)).

Definition graph_derived (rl : nat) (h : list (sampler E)) (spn : string) (i : nat) : GM unit :=
  let! a := gaux h i in
  let nm := name_of a in
  gnode nm None ;;
  gedge nm "obs_flux" ;;
  (if a_usesd (a_st a) then gedge spn nm else ret tt) ;;
  iterM (fun kv => gnode (fst kv) None ;; gedge (fst kv) nm ;; gprops rl h (snd kv) (fst kv)) (a_sec (a_ln a)).

Definition graph_aux (rl : nat) (h : list (sampler E)) (spn : string) (kv : string * nat) : GM unit :=
  let k := fst kv in
  let! a := gaux h (snd kv) in
  lift (rassert (negb (a_issec (a_ln a)))) ;;
  gnode k (Some false) ;;
  (if a_observed (a_st a) then
     gnode (obs_name_of a) (Some false) ;;
     gedge k (obs_name_of a) ;;
     (if a_usesd (a_st a) then gedge spn k else ret tt)
   else ret tt) ;;
  iterM (fun kv2 =>
    let k2 := fst kv2 in
    let! b := gaux h (snd kv2) in
    gedge k2 k ;;
    gnode k2 (Some false) ;;
    (if a_usesd (a_st b) then gedge spn k2 else ret tt) ;;
    (if a_observed (a_st b) then
       gnode (obs_name_of b) (Some true) ;; gedge k2 (obs_name_of b)
     else ret tt) ;;
    gprops rl h (snd kv2) k2) (a_sec (a_ln a)).

Definition build_graph (rl : nat) (h : list (sampler E)) (spn : string) (lumn : option string)
    (der : option nat) (aux : dict nat) : GM unit :=
  gnode "obs_flux" (Some true) ;;
  gedge spn "obs_flux" ;;
  (match der with
   | Some i => graph_derived rl h spn i
   | None => match lumn with None => raise AttributeError | Some l => gedge l "obs_flux" end
   end) ;;
  iterM (graph_aux rl h spn) aux.

(** The property [graph]: the graph object is kept and added to. *)
Definition read_graph (rl : nat) : YM graph := fun y =>
  let (r, g) := build_graph rl (w_auxs (y_w y)) (sd_name (y_sp y))
                  (option_map (fun l => ld_name l) (y_lum y)) (y_der y) (y_aux y) (y_graph y) in
  (rmap (fun _ => g) r, with_graph y g).

(** ** [to_dict] (202-335) *)

(** The entry of one sampler; [ty] is what is written under ["type"]. *)
Definition conf_entry (ty : string) (sels : list (selector E)) (a : sampler E) : res (tree V) :=
  let? s := of_opt Unmodelled (nth_error sels (a_sel (a_ln a))) in
  let d0 := [("type", TStr ty); ("observed", TBool (a_observed (a_st a)))] in
  let d1 := fold_left (fun d kv => dset d (fst kv) (TNum (snd kv))) (truth (a_par (a_dy a))) d0 in
  let d2 := dset d1 "secondary" (TList (map (fun kv => TStr (fst kv)) (a_sec (a_ln a)))) in
  Ok (TDict (dset d2 "selection" (TDict [(s_type s, tdict (sel_parameters s))]))).

(** [get_secondary_objects] (auxiliary_sampler.py:505-550). *)
Fixpoint sec_objects (rl : nat) (w : world) (i : nat) (acc : dict (tree V)) : res (dict (tree V)) :=
  match rl with
  | O => Err RecursionError
  | S n =>
      let? a := of_opt Unmodelled (nth_error (w_auxs w) i) in
      let? acc1 := (fix go l acc := match l with
                                    | nil => Ok acc
                                    | (_, j) :: r => let? acc' := sec_objects n w j acc in go r acc'
                                    end) (a_sec (a_ln a)) acc in
      let? e := conf_entry (a_type (a_st a)) (w_sels w) a in
      Ok (dset acc1 (name_of a) e)
  end.

(** One registered sampler (274-297) or the derived-luminosity sampler (299-331). *)
Definition conf_top (rl : nat) (w : world) (key ty : string) (i : nat) (acc : dict (tree V)) : res (dict (tree V)) :=
  let? a := of_opt Unmodelled (nth_error (w_auxs w) i) in
  let? e := conf_entry ty (w_sels w) a in
  let acc1 := dset acc key e in
  match a_sec (a_ln a) with nil => Ok acc1 | _ => sec_objects rl w i acc1 end.

Definition selection_entry (w : world) (i : nat) : res (tree V) :=
  let? s := of_opt Unmodelled (nth_error (w_sels w) i) in
  Ok (TDict [(s_type s, tdict (sel_parameters s))]).

Definition to_dict (rl : nat) (y : synth) : res (tree V) :=
  let w := y_w y in
  let sp := TDict ((m_type (y_spm y), tdict (truth (sd_par (y_sp y)))) ::
                   match m_rate (y_spm y) with None => nil | Some b => [("is_rate", TBool b)] end) in
  let out0 := [("seed", TInt (y_seed y)); ("spatial distribution", sp)] in
  let out1 := match y_lum y with
              | None => out0
              | Some l => (out0 ++ [("luminosity distribution", TDict [(m_type (y_lumm y), tdict (truth (ld_par l)))])])%list
              end in
  let? out2 := if y_fluxset y then rmap (fun t => out1 ++ [("flux selection", t)])%list (selection_entry w (y_flux y)) else Ok out1 in
  let? out3 := if y_dset y then rmap (fun t => out2 ++ [("distance selection", t)])%list (selection_entry w (y_dsel y)) else Ok out2 in
  let? out4 := match y_ssel y with
               | None => Ok out3
               | Some i => rmap (fun t => out3 ++ [("spatial selection", t)])%list (selection_entry w i)
               end in
  let? a1 := (fix go l acc := match l with
                              | nil => Ok acc
                              | (k, i) :: r =>
                                  let? a := of_opt Unmodelled (nth_error (w_auxs w) i) in
                                  let? acc' := conf_top rl w k (a_type (a_st a)) i acc in go r acc'
                              end) (y_aux y) nil in
  let? a2 := match y_der y with
             | None => Ok a1
             | Some i =>
                 let? a := of_opt Unmodelled (nth_error (w_auxs w) i) in
                 conf_top rl w (name_of a) (name_of a) i a1
             end in
  Ok (TDict (out4 ++ [("auxiliary samplers", TDict a2)])%list).

(** ** [draw_survey] (938-1405) *)

(** The arrays collected so far. *)
Definition truths := dict (dict V).

(** Number of objects (969-1034). *)
Definition survey_size (n_samples : option nat) (normalize : bool) : YM nat :=
  modify (fun y => with_w y (w_set_gens (r_seed E (y_seed y), w_n (y_w y)) (y_w y))) ;;
  match n_samples with
  | Some n => ret n
  | None =>
      let! rate := in_sp (
        let! c := cls (E := E) in
        if normalize then
          let! old := norm_to_one None in
          let! rm := rd_rmax (E := E) in
          let! vals := rd_dens (E := E) in
          let! i := lift (quad E (sc_dens c vals) zero rm) in
          (match old with
           | Some (Some v) => in_par (modify (norm_set (Some v)))
           | _ => ret tt
           end) ;;
          let! rm2 := rd_rmax (E := E) in
          let! vals2 := rd_dens (E := E) in
          lift (quad E (dens_norm c (Some i) vals2) zero rm2)
        else
          let! rm := rd_rmax (E := E) in
          let! vals := rd_dens (E := E) in
          lift (quad E (sc_dens c vals) zero rm)) in
      in_g (r_poisson E rate)
  end.

(** [probability *= q] *)
Definition times (p : list V) (q : option (list V)) : YM (list V) :=
  lift (let? q := of_opt TypeError q in bcast2_inplace (vmul E) p q).

Definition sampler_truth (i : nat) : YM (string * dict V) :=
  let! a := in_w (get_aux i) in ret (name_of a, truth (a_par (a_dy a))).
(** [truth[v.name] = v.truth] *)
Definition add_truth (i : nat) (t : truths) : YM truths :=
  let! x := sampler_truth i in ret (dset t (fst x) (snd x)).
Definition get_sp : YM (spvals E) := let! y := get in lift (spatial_values (y_sp y)).
(** [v.get_secondary_properties()] *)
Definition props (rl i : nat) : YM (storage E) :=
  let! y := get in lift (fst (sec_props rl (w_auxs (y_w y)) i "" None)).
Definition check_len (n i : nat) : YM unit :=
  let! a := in_w (get_aux i) in
  lift (rassert (has_len E n (a_true (a_dy a)))) ;;
  lift (rassert (has_len E n (a_obs (a_dy a)))).

(** Luminosities (1070-1174). *)
Definition survey_lum (prog : bool) (rl n : nat) (prob : list V) (t : truths)
  : YM (list V * list V * truths * storage E) :=
  let! y := get in
  match y_lum y, y_der y with
  | None, None => raise RuntimeError
  | _, Some i =>
      let! sp := get_sp in
      in_w (set_sp i sp) ;;
      in_w (aux_draw prog rl i n) ;;
      check_len n i ;;
      let! a := in_w (get_aux i) in
      let st := dset nil (name_of a) (container_of a) in
      let! vals := in_w (aux_reads i (k_lreads (kind_of a))) in
      let! a' := in_w (get_aux i) in
      let! w := in_w get in
      let! f := lift (of_opt AttributeError (k_lum (kind_of a))) in
      let! lum := lift (f vals (view_of (w_auxs w) a')) in
      let! t1 := add_truth i t in
      let! r := foldM (fun acc kv =>
                  let! s := props rl (snd kv) in
                  let! t2 := add_truth (snd kv) (snd acc) in
                  ret (st_add (fst acc) s, t2)) (st, t1) (a_sec (a_ln a)) in
      ret (lum, prob, snd r, fst r)
  | Some _, None =>
      let! lum := in_lum (draw_luminosity (E := E) n) in
      in_lum (compute_probability lum) ;;
      let! y' := get in
      let! l := lift (of_opt AttributeError (y_lum y')) in
      let! p := times prob (ld_prob l) in
      ret (lum, p, dset t (ld_name l) (truth (ld_par l)), nil)
  end.

(** One registered sampler (1184-1233). *)
Definition survey_aux (prog : bool) (rl n : nat) (lum : list V)
    (acc : truths * storage E) (kv : string * nat) : YM (truths * storage E) :=
  let i := snd kv in
  let! a := in_w (get_aux i) in
  lift (rassert (negb (a_issec (a_ln a)))) ;;
  in_w (set_lum i lum) ;;
  let! sp := get_sp in
  in_w (set_sp i sp) ;;
  iterM (fun kv2 =>
    let! b := in_w (get_aux (snd kv2)) in
    (if a_usesl (a_st b) then in_w (set_lum (snd kv2) lum) else ret tt) ;;
    (if a_usesd (a_st b) then in_w (set_sp (snd kv2) sp) else ret tt)) (a_sec (a_ln a)) ;;
  in_w (aux_draw prog rl i n) ;;
  let! t1 := add_truth i (fst acc) in
  check_len n i ;;
  let! s := props rl i in
  let! t2 := foldM (fun t kv2 => add_truth (snd kv2) t) t1 (a_sec (a_ln a)) in
  ret (t2, st_add (snd acc) s).

(** Observed fluxes and the recorded error (1240-1281).  [np.random.normal] raises
    [ValueError] for a negative scale. *)
Definition survey_flux (flux_sigma : option V) (log10d : bool) (n : nat) (fluxes : list V) : YM (list V * V) :=
  let! y := get in
  let! s := in_w (get_sel (y_flux y)) in
  match is_unity (s_kind s), flux_sigma with
  | false, Some sg =>
      if vlt E sg zero then raise ValueError
      else
        let! es := in_g (fun g => let (l, g') := rdraws (r_norm E zero sg) n g in (Ok l, g')) in
        let! logs := lift (bcast2 (vadd E) (map (if log10d then vlog10 E else vln E) fluxes) es) in
        lift (rassert (forallb (vfinite E) logs)) ;;
        ret (map (if log10d then vexp10 E else vexp E) logs, sg)
  | _, _ => ret (fluxes, vsub E zero one)
  end.

(** The loop over the collected quantities (1295-1317). *)
Definition survey_selection (acc : list V * selector E) (kv : string * container E) : YM (list V * selector E) :=
  let! s := in_w (get_sel (c_sel (snd kv))) in
  if is_unity (s_kind s) then ret acc
  else
    let! p := times (fst acc) (c_prob (snd kv)) in
    let! t := lift (sel_add (snd acc) s) in
    ret (p, t).

(** A UnitySelection on which [select(n)] was called (1057-1066). *)
Definition all_selected (nm : string) (n : nat) : selector E :=
  with_sampled (with_mask (unity E nm) (Some (repeat true n))) true.

(** The arrays handed to the population for a quantity. *)
Definition quantity (kv : string * container E) : res (string * (list V * list V)) :=
  let? t := of_opt TypeError (c_true (snd kv)) in
  let? o := of_opt TypeError (c_obs (snd kv)) in
  Ok (fst kv, (t, o)).

(** [draw_survey].  [prog]: progress bars; [fuel]: proposals per object allowed to
    the rejection sampler; [rl]: recursion limit.  Logging is left out, except for
    the [max] at 1361, which can raise. *)
Definition draw_survey (prog : bool) (fuel rl : nat) (flux_sigma : option V) (log10d : bool)
    (n_samples : option nat) (normalize : bool) : YM (population E) :=
  let! y := get in
  let t0 := [(sd_name (y_sp y), truth (sd_par (y_sp y)))] in
  let! n := survey_size n_samples normalize in
  in_sp (draw_distance prog fuel n normalize) ;;
  let! y := get in
  let! p0 := times (repeat one n) (sd_prob (y_sp y)) in
  in_sp (draw_sky_positions (E := E) n) ;;
  let! sp := get_sp in
  let distances := sv_dist sp in
  let! r := survey_lum prog rl n p0 t0 in
  let '(lum, p1, t1, st1) := r in
  let! c := in_sp (cls (E := E)) in
  let! fluxes := lift (bcast2 (sc_transform c) lum distances) in
  let! y := get in
  let! r := foldM (survey_aux prog rl n lum) (t1, st1) (y_aux y) in
  let (t2, st2) := r : truths * storage E in
  let! r := survey_flux flux_sigma log10d n fluxes in
  let (fobs, sigma) := r : list V * V in
  in_w (upd_sel (y_flux y) (fun s => set_observed_flux s fobs)) ;;
  in_w (on_sel (y_flux y) (sel_select (E := E) prog n)) ;;
  let! r := foldM survey_selection (p1, all_selected "total auxiliary selection" n) st2 in
  let (p2, auxsel) := r : list V * selector E in
  let! s1 := lift (sel_add (all_selected "global" n) auxsel) in
  let! sf := in_w (get_sel (y_flux y)) in
  let! s2 := lift (sel_add s1 sf) in
  let! s3 :=
    match y_ssel y with
    | None => ret s2
    | Some i =>
        let! sp' := get_sp in
        let! s := in_w (get_sel i) in
        let! s' := lift (set_spatial_distribution s sp') in
        in_w (put_sel i s') ;;
        in_w (on_sel i (sel_select (E := E) prog n)) ;;
        let! s'' := in_w (get_sel i) in
        lift (sel_add s2 s'')
    end in
  let! nsel := lift (n_selected s3) in
  in_w (on_sel (y_dsel y) (sel_select (E := E) prog nsel)) ;;
  let! sd := in_w (get_sel (y_dsel y)) in
  let! mask := lift (sel_selection s3) in
  let! dmask := lift (sel_selection sd) in
  let! detected := lift (np_mask distances mask) in
  let! known := lift (np_mask detected dmask) in
  (if Nat.ltb 0 nsel then match known with nil => raise ValueError | _ => ret tt end else ret tt) ;;
  let! rm := in_sp (rd_rmax (E := E)) in
  let! g := read_graph rl in
  let! y := get in
  let! th := lift (of_opt Unmodelled (sd_theta (y_sp y))) in
  let! ph := lift (of_opt Unmodelled (sd_phi (y_sp y))) in
  let! conf := lift (to_dict rl y) in
  let! aux := lift (rmapM quantity st2) in
  lift (pop_new (PopArgs E lum distances known (np_where dmask) (np_where (mnot dmask)) fluxes fobs mask sigma rm
          (y_nmodel y) (option_map (fun l => po_store (ld_par l)) (y_lum y)) (po_store (sd_par (y_sp y)))
          (Some (y_spaces y)) (y_seed y) (PyStr (y_name y)) (m_form (y_spm y))
          (option_map (fun _ => m_form (y_lumm y)) (y_lum y))
          (Some aux) t2 g th ph (Some conf) (Some p2))).

End Synth.
