(** Specification vocabulary for populations (C39-C41, C43). *)
From Verif Require Import Base Env SimVarModel SimVarSpec PopModel SynthSpec.
Set Implicit Arguments.
Open Scope string_scope.
Open Scope list_scope.

Section PopSpec.
Variable E : env.
Notation V := (V E).

(** Every array has one entry per object. *)
Definition aligned (a : popargs E) : Prop :=
  length (pa_lum a) = length (pa_sel a) /\ length (pa_dist a) = length (pa_sel a) /\
  length (pa_theta a) = length (pa_sel a) /\ length (pa_phi a) = length (pa_sel a) /\
  length (pa_fobs a) = length (pa_sel a) /\ length (pa_flux a) = length (pa_sel a) /\
  (forall q, pa_prob a = Some q -> length q = length (pa_sel a)) /\
  (forall x k t o, pa_aux a = Some x -> In (k, (t, o)) x -> length t = length (pa_sel a) /\ length o = length (pa_sel a)).
(** Known and unknown distances add up to the number of detections. *)
Definition distances_add_up (a : popargs E) : Prop := length (pa_known a) + length (pa_uidx a) = count (pa_sel a).
(** Every model space has the number of points of the population. *)
Definition spaces_fit (a : popargs E) : Prop :=
  forall x k l, pa_spaces a = Some x -> In (k, l) x -> length l = pa_nmodel a.
Definition consistent (a : popargs E) : Prop := aligned a /\ distances_add_up a /\ spaces_fit a.

(** Names an auxiliary quantity must not have. *)
Definition taken : list string :=
  readonly ++ special ++ ["_protected_names"; "_auxiliary_quantities"] ++ internal.
Definition free_names (a : popargs E) : Prop := forall x k v, pa_aux a = Some x -> In (k, v) x -> ~ In k taken.

(** [x] holds the observed values [o] and the latent values [l] of all objects and
    the mask [m]. *)
Definition shows (x : simvar V) (o l : list V) (m : list bool) : Prop :=
  sv_obs x = o /\ sv_lat x = l /\ sv_sel x = MB m.

(** The population shows the arguments it was built from. *)
Definition faithful (a : popargs E) (p : population E) : Prop :=
  p_args p = a /\ shows (p_lum p) (pa_lum a) (pa_lum a) (pa_sel a) /\ shows (p_dist p) (pa_dist a) (pa_dist a) (pa_sel a) /\
  shows (p_theta p) (pa_theta a) (pa_theta a) (pa_sel a) /\ shows (p_phi p) (pa_phi a) (pa_phi a) (pa_sel a) /\
  shows (p_flux p) (pa_fobs a) (pa_flux a) (pa_sel a) /\
  match pa_prob a, p_prob p with Some q, Some v => shows v q q (pa_sel a) | None, None => True | _, _ => False end /\
  Forall2 (fun kv kx => fst kx = fst kv /\ shows (snd kx) (snd (snd kv)) (fst (snd kv)) (pa_sel a))
          (match pa_aux a with Some x => x | None => [] end) (p_aux p).

(** ** Stan data *)
(** The keys [to_stan_data] always writes. *)
Definition stan_keys : list string :=
  ["N"; "Nz"; "Nnz"; "z_obs"; "known_z_obs"; "z_idx"; "z_nidx"; "r_obs"; "known_r_obs"; "r_idx"; "r_nidx";
   "log_flux_obs"; "flux_obs"; "flux_sigma"; "z_max"; "r_max"; "N_model"].
(** No two entries of the Stan data have the same key. *)
Definition stan_keys_apart (sp : dict (list V)) (ax : dict (list V * list V)) : Prop :=
  NoDup (stan_keys ++ map fst sp ++ map (fun kv => fst kv ++ "_obs")%string ax).
(** The entry [k] of the Stan data is an array (or variable) of observed values [l]. *)
Definition entry_is (d : dict (sval E)) (k : string) (l : list V) : Prop :=
  dget d k = Some (SArr E l) \/ exists x, dget d k = Some (SVar E x) /\ sv_obs x = l.
(** [l1] and [l2] are increasing, disjoint, and together are [1..n]. *)
Definition splits_one_to (n : nat) (l1 l2 : list nat) : Prop :=
  StronglySorted lt l1 /\ StronglySorted lt l2 /\ (forall i, In i l1 -> ~ In i l2) /\
  forall i, 1 <= i <= n <-> In i l1 \/ In i l2.

(** ** Sub-populations *)
(** [q] shows exactly the objects of [p] whose mask entry is [b], in order, all
    marked as detected. *)
Definition restricted (b : bool) (x y : simvar V) (m : list bool) : Prop :=
  shows y (keep b (sv_obs x) m) (keep b (sv_lat x) m) (repeat true (length (keep b m m))).
Definition sub_of (b : bool) (p q : population E) : Prop :=
  let m := pa_sel (p_args p) in
  p_nobj q = length (keep b m m) /\ p_ndet q = p_nobj q /\ p_nnon q = 0 /\
  pa_sel (p_args q) = repeat true (p_nobj q) /\
  restricted b (p_lum p) (p_lum q) m /\ restricted b (p_dist p) (p_dist q) m /\ restricted b (p_flux p) (p_flux q) m /\
  restricted b (p_theta p) (p_theta q) m /\ restricted b (p_phi p) (p_phi q) m /\
  match p_prob p, p_prob q with Some x, Some y => restricted b x y m | None, None => True | _, _ => False end /\
  Forall2 (fun kx ky => fst ky = fst kx /\ restricted b (snd kx) (snd ky) m) (p_aux p) (p_aux q) /\
  pa_sigma (p_args q) = pa_sigma (p_args p) /\ pa_rmax (p_args q) = pa_rmax (p_args p) /\
  pa_nmodel (p_args q) = pa_nmodel (p_args p) /\ pa_lfpar (p_args q) = pa_lfpar (p_args p) /\
  pa_sppar (p_args q) = pa_sppar (p_args p) /\ pa_spaces (p_args q) = pa_spaces (p_args p) /\
  pa_seed (p_args q) = pa_seed (p_args p) /\ pa_name (p_args q) = pa_name (p_args p) /\
  pa_spform (p_args q) = pa_spform (p_args p) /\ pa_lfform (p_args q) = pa_lfform (p_args p) /\
  pa_truth (p_args q) = pa_truth (p_args p) /\ pa_graph (p_args q) = pa_graph (p_args p).

(** The [i]-th object of [p] is a detection whose distance is known. *)
Definition distance_known (p : population E) (k : nat) : Prop :=
  exists i, In i (pa_kidx (p_args p)) /\ ith_selected (pa_sel (p_args p)) i k.
(** Object [k] of [p] is object [j] of the sub-population. *)
Definition becomes (b : bool) (p : population E) (k j : nat) : Prop :=
  nth_error (pa_sel (p_args p)) k = Some b /\ count (map (Bool.eqb b) (firstn k (pa_sel (p_args p)))) = j.

End PopSpec.

(** ** Attributes *)
Inductive attr_op (T : Type) := Assign (k : string) (v : T) | Delete (k : string).
Arguments Delete {T} k.
Definition op_name T (op : attr_op T) : string := match op with Assign k _ => k | Delete k => k end.
(** A history of assignments and deletions; a failing one raises and changes
    nothing, and the program carries on. *)
Definition attr_step {T} (names : T -> option (list string)) (op : attr_op T) (o : attrs T) : attrs T :=
  snd (match op with Assign k v => setattr names k v o | Delete k => delattr k o end).
Definition attr_run {T} (names : T -> option (list string)) (h : list (attr_op T)) (o : attrs T) : attrs T :=
  fold_left (fun o op => attr_step names op o) h o.
