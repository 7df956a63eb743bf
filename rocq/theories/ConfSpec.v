(** What it means that two population synths are the same (C46, C48), and which
    synths can be saved. *)
From Verif Require Import Base Env ParamModel SelModel DistModel AuxModel SynthModel Tree ConfModel.
Set Implicit Arguments.
Open Scope string_scope.

(** Equality of python dictionaries. *)
Definition same_dict {A} (d d' : dict A) : Prop := forall k, dget d k = dget d' k.

Section Spec.
Variable E : env.
Notation V := (V E).
Notation synth := (synth E).
Notation selector := (selector E).
Notation sampler := (sampler E).

(** ** Sameness

    [Q] compares dictionaries of parameters: [eq] where the order must agree too,
    [same_dict] where it need not. *)
Section Same.
Variable Q : dict V -> dict V -> Prop.

(** Which values a selection looks at. *)
Inductive source := SFlux | SLuminosity | SObserved | SDistance | SNothing.
Definition source_of (s : selector) : source :=
  if s_fflux s then SFlux else if s_flum s then SLuminosity else if s_fobs s then SObserved
  else if s_fdist s then SDistance else SNothing.
(** Classes whose selection depends on that. *)
Definition looks (k : selkind E) : bool :=
  match k with KBox _ | KLower _ | KUpper _ | KSoft _ => true | _ => false end.
Record same_selector (s s' : selector) : Prop := {
  ss_type : s_type s = s_type s';
  ss_kind : s_kind s = s_kind s';
  ss_par : Q (truth (s_par s)) (truth (s_par s'));
  ss_source : looks (s_kind s) = true -> source_of s = source_of s' }.
Definition same_selector_at (y y' : synth) (i i' : nat) : Prop :=
  exists s s', nth_error (w_sels (y_w y)) i = Some s /\ nth_error (w_sels (y_w y')) i' = Some s' /\ same_selector s s'.

(** Sampler [i] of [y] and sampler [i'] of [y'], whose secondaries correspond by
    [R]: name, class, methods and flags, parameters, selection, and secondaries in
    the same order. *)
Definition same_sampler_at (R : nat -> nat -> Prop) (y y' : synth) (i i' : nat) : Prop :=
  exists a a', nth_error (w_auxs (y_w y)) i = Some a /\ nth_error (w_auxs (y_w y')) i' = Some a' /\
    a_st a = a_st a' /\
    Q (truth (a_par (a_dy a))) (truth (a_par (a_dy a'))) /\
    same_selector_at y y' (a_sel (a_ln a)) (a_sel (a_ln a')) /\
    Forall2 (fun kv kv' => fst kv = fst kv' /\ R (snd kv) (snd kv')) (a_sec (a_ln a)) (a_sec (a_ln a')).

Definition same_opt {A B} (P : A -> B -> Prop) (x : option A) (y : option B) : Prop :=
  match x, y with Some a, Some b => P a b | None, None => True | _, _ => False end.

Record same_synth (y y' : synth) : Prop := {
  sy_seed : y_seed y = y_seed y';
  sy_name : y_name y = y_name y';
  sy_sp : sd_cls (y_sp y) = sd_cls (y_sp y') /\ sd_name (y_sp y) = sd_name (y_sp y') /\ y_spm y = y_spm y';
  sy_sppar : Q (truth (sd_par (y_sp y))) (truth (sd_par (y_sp y')));
  sy_lum : same_opt (fun l l' => ld_cls l = ld_cls l' /\ ld_name l = ld_name l' /\ y_lumm y = y_lumm y' /\
                                 Q (truth (ld_par l)) (truth (ld_par l'))) (y_lum y) (y_lum y');
  sy_fluxset : y_fluxset y = y_fluxset y';
  sy_flux : y_fluxset y = true -> same_selector_at y y' (y_flux y) (y_flux y');
  sy_dset : y_dset y = y_dset y';
  sy_dist : y_dset y = true -> same_selector_at y y' (y_dsel y) (y_dsel y');
  sy_ssel : same_opt (same_selector_at y y') (y_ssel y) (y_ssel y');
  (** the same registered samplers and derived-luminosity sampler, with everything
      below them *)
  sy_aux : exists R : nat -> nat -> Prop,
    (forall i i', R i i' -> same_sampler_at R y y' i i') /\
    (forall i i' j', R i i' -> R i j' -> i' = j') /\
    (forall i j i', R i i' -> R j i' -> i = j) /\
    (forall k, same_opt R (dget (y_aux y) k) (dget (y_aux y') k)) /\
    same_opt R (y_der y) (y_der y') }.
End Same.

(** ** Synths that can be saved *)
Variable rg : registry E.

(** The value can be assigned to the parameter. *)
Definition accepts (p : pdecl V) (v : V) : Prop :=
  pd_free p = true /\
  (forall m, pd_vmin p = Some m -> vle E m v = true) /\
  (forall m, pd_vmax p = Some m -> vle E v m = true).
Definition settable (c : pclass V) (d : dict V) : Prop :=
  forall k v, dget d k = Some v -> exists p, dget c k = Some p /\ accepts p v.
(** The keys of a python dictionary are different. *)
Definition stored (c : pclass V) (d : dict V) : Prop := NoDup (dkeys d) /\ settable c d.

(** The registered class of a distribution gives the same one again, without
    parameters.  The rate flag is stored separately. *)
Definition sp_known (d : sdist E) (m : meta) : Prop :=
  exists d0 m0, rg_dist rg (m_type m) = Ok (DSpatial d0 m0) /\
    sd_cls d0 = sd_cls d /\ sd_name d0 = sd_name d /\ sd_par d0 = pobj_new V /\
    m_type m0 = m_type m /\ m_form m0 = m_form m /\
    (m_rate m0 = None <-> m_rate m = None) /\
    stored (sc_params (sd_cls d)) (truth (sd_par d)) /\ m_type m <> "is_rate".
Definition lum_known (d : ldist E) (m : meta) : Prop :=
  exists d0, rg_dist rg (m_type m) = Ok (DLuminosity d0 m) /\
    ld_cls d0 = ld_cls d /\ ld_name d0 = ld_name d /\ ld_par d0 = pobj_new V /\
    stored (lc_params (ld_cls d)) (truth (ld_par d)).

(** A selection whose class is registered and whose parameters can be set.  [use]
    says what a selection of this role looks at.  [own]: the parameters must be
    declared in the class itself. *)
Definition sel_known (use : source) (own : bool) (s : selector) : Prop :=
  exists c, rg_sel rg (s_type s) = Ok c /\
    s_kind (sc_new c) = s_kind s /\ s_type (sc_new c) = s_type s /\ s_par (sc_new c) = pobj_new V /\
    stored (sel_class (s_kind s)) (truth (s_par s)) /\
    (own = true -> forall k v, dget (truth (s_par s)) k = Some v -> sc_own c k = true) /\
    (looks (s_kind s) = true -> source_of s = use /\
       (source_of (sc_new c) = use \/
        (source_of (sc_new c) = SNothing /\ use <> SNothing /\ use <> SLuminosity))).

Definition reserved : list string := ["type"; "observed"; "selection"; "secondary"; "init variables"].
(** A sampler whose class is registered, takes a name and the observed flag, one of
    them or none (then both are assigned afterwards), and gives the same object
    again. *)
Definition makes (c : auxcls E) (st : astat E) : Prop :=
  let try n o := ac_new c (if n : bool then Some (a_name st) else None) (if o : bool then Some (a_observed st) else None) [] in
  try true true = Ok st \/
  (try true true = Err TypeError /\ try false true = Ok st) \/
  (try true true = Err TypeError /\ try false true = Err TypeError /\ try true false = Ok st) \/
  (try true true = Err TypeError /\ try false true = Err TypeError /\ try true false = Err TypeError /\
     exists st0, try false false = Ok st0 /\ a_type st0 = a_type st /\ a_kind st0 = a_kind st /\
       a_usesd st0 = a_usesd st /\ a_usesl st0 = a_usesl st /\ a_usesp st0 = a_usesp st).
Definition aux_known (y : synth) (a : sampler) : Prop :=
  (exists c, rg_aux rg (a_type (a_st a)) = Ok c /\ makes c (a_st a)) /\
  stored (k_params (kind_of a)) (truth (a_par (a_dy a))) /\
  (forall k v, dget (truth (a_par (a_dy a))) k = Some v -> ~ In k reserved) /\
  exists s, nth_error (w_sels (y_w y)) (a_sel (a_ln a)) = Some s /\ sel_known SObserved true s.

(** The samplers a survey uses. *)
Inductive reach (y : synth) : nat -> Prop :=
| reach_top k i : In (k, i) (y_aux y) -> reach y i
| reach_der i : y_der y = Some i -> reach y i
| reach_sec i a k j : reach y i -> nth_error (w_auxs (y_w y)) i = Some a -> In (k, j) (a_sec (a_ln a)) -> reach y j.
Definition secondary_of (y : synth) (j : nat) : Prop :=
  exists i a k, reach y i /\ nth_error (w_auxs (y_w y)) i = Some a /\ In (k, j) (a_sec (a_ln a)).

Record savable (y : synth) : Prop := {
  sv_sp : sp_known (y_sp y) (y_spm y);
  sv_lum : forall l, y_lum y = Some l -> lum_known l (y_lumm y);
  sv_name : y_name y = synth_name (y_sp y) (y_lum y);
  sv_flux : y_fluxset y = true -> exists s, nth_error (w_sels (y_w y)) (y_flux y) = Some s /\ sel_known SFlux false s;
  sv_dist : y_dset y = true -> exists s, nth_error (w_sels (y_w y)) (y_dsel y) = Some s /\ sel_known SDistance false s;
  sv_ssel : forall i, y_ssel y = Some i -> exists s, nth_error (w_sels (y_w y)) i = Some s /\ sel_known SNothing false s;
  (** samplers: known, with different names *)
  sv_aux : forall i, reach y i -> exists a, nth_error (w_auxs (y_w y)) i = Some a /\ aux_known y a;
  sv_names : forall i j a b, reach y i -> reach y j -> nth_error (w_auxs (y_w y)) i = Some a ->
    nth_error (w_auxs (y_w y)) j = Some b -> name_of a = name_of b -> i = j;
  (** samplers and secondaries are kept under their names *)
  sv_keys : forall k i, In (k, i) (y_aux y) -> exists a, nth_error (w_auxs (y_w y)) i = Some a /\ name_of a = k /\ k_lum (kind_of a) = None;
  sv_nodup : NoDup (dkeys (y_aux y));
  sv_secs : forall i a, reach y i -> nth_error (w_auxs (y_w y)) i = Some a ->
    NoDup (dkeys (a_sec (a_ln a))) /\
    forall k j, In (k, j) (a_sec (a_ln a)) -> exists b, nth_error (w_auxs (y_w y)) j = Some b /\ name_of b = k;
  (** what is registered is not a secondary *)
  sv_tops : (forall k i, In (k, i) (y_aux y) -> ~ secondary_of y i) /\ (forall i, y_der y = Some i -> ~ secondary_of y i);
  (** the derived-luminosity sampler is written with its name as its class, unless it
      has secondaries *)
  sv_der : forall i a, y_der y = Some i -> nth_error (w_auxs (y_w y)) i = Some a ->
    k_lum (kind_of a) <> None /\ (a_sec (a_ln a) = [] -> a_type (a_st a) = name_of a) }.

(** ** What loading does to the entries of the samplers (C47) *)
Definition emptied (kv kv' : string * tree V) : Prop :=
  fst kv = fst kv' /\ exists e e', snd kv = TDict e /\ snd kv' = TDict e' /\
    forall k, dget e' k = if existsb (String.eqb k) reserved then None else dget e k.
End Spec.
