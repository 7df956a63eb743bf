(** Reading the attributes of a population (C91). *)
From Coq Require Import List String Ascii DecimalString.
From Verif Require Import Base Env SimVarModel AuxModel PopModel Tree.
Import ListNotations.
Open Scope string_scope.

Section R.
Variable E : env.
Notation V := (V E).

(** What an attribute is. *)
Inductive value :=
| AVar (x : simvar V) | AArr (l : list V) | AMask (l : list bool) | ANum (v : V) | ANat (n : nat) | ABool (b : bool) | ANone
| APars (d : dict (option V)) | ATruth (d : dict (dict V)) | AGraph (g : graph) | ASynth (t : tree V).

Definition or_none {A} (f : A -> value) (o : option A) : value := match o with Some x => f x | None => ANone end.
(** [x.latent] (simulated_variable.py:63-69) of what an expression gives. *)
Definition latent_of (x : res (simvar V)) : res value := rmap (fun s => AArr (sv_lat s)) x.

(** The properties of the class (population.py:224-492).  [_hard_cut] and
    [_distance_probability] are never assigned, so that reading them raises.  The warnings
    of the deprecated ones are not modelled. *)
Definition properties (p : population E) : dict (res value) :=
  let a := p_args p in
  [("graph", Ok (AGraph (pa_graph a)));
   ("probability", Ok (or_none AVar (p_prob p)));
   ("pop_synth", Ok (or_none ASynth (pa_popsynth a)));
   ("truth", Ok (ATruth (pa_truth a)));
   ("flux_sigma", Ok (ANum (pa_sigma a)));
   ("theta", Ok (AVar (p_theta p)));
   ("phi", Ok (AVar (p_phi p)));
   ("dec", let? t := ufunc1 DFloat (vrad2deg E) (p_theta p) in rmap AVar (ufunc2 DFloat (vsub E) (OScal (vofnat E 90)) (OVar t)));
   ("ra", rmap AVar (ufunc1 DFloat (vrad2deg E) (p_phi p)));
   ("luminosities", Ok (AVar (p_lum p)));
   ("luminosities_latent", latent_of (Ok (p_lum p)));
   ("distances", Ok (AVar (p_dist p)));
   ("known_distances", Ok (AArr (pa_known a)));
   ("selection", Ok (AMask (pa_sel a)));
   ("fluxes", Ok (AVar (p_flux p)));
   ("fluxes_latent", latent_of (Ok (p_flux p)));
   ("fluxes_observed", Ok (AVar (p_flux p)));
   ("selected_fluxes_observed", rmap AVar (sv_selected (p_flux p)));
   ("selected_fluxes_latent", latent_of (sv_selected (p_flux p)));
   ("selected_distances", rmap AVar (sv_selected (p_dist p)));
   ("hidden_fluxes_observed", rmap AVar (sv_non_selected (p_flux p)));
   ("hidden_distances", rmap AVar (sv_non_selected (p_dist p)));
   ("hidden_fluxes_latent", latent_of (sv_non_selected (p_flux p)));
   ("hard_cut", Err AttributeError);
   ("distance_probability", Err AttributeError);
   ("luminosity_parameters", Ok (or_none APars (pa_lfpar a)));
   ("n_objects", Ok (ANat (p_nobj p)));
   ("n_detections", Ok (ANat (p_ndet p)));
   ("n_non_detections", Ok (ANat (p_nnon p)));
   ("has_detections", Ok (ABool (negb (p_nodet p))));
   ("spatial_parameters", Ok (APars (pa_sppar a)))].

(** [getattr(p, k)] for a property or an auxiliary quantity; properties come first.
    Methods, private attributes and those every python object has are not modelled. *)
Definition getattr (k : string) (p : population E) : res value :=
  match dget (properties p) k with
  | Some r => r
  | None => match dget (p_aux p) k with
            | Some x => Ok (AVar x)
            | None => if mem k (internal ++ special ++ ["__weakref__"; "_protected_names"; "_auxiliary_quantities"])%list then Err Unmodelled else Err AttributeError
            end
  end.

(** [str(n)] of a number of objects. *)
Definition str_of_nat (n : nat) : string := DecimalString.NilZero.string_of_uint (Nat.to_uint n).
Definition newline : string := String (Ascii.ascii_of_nat 10) "".
(** [repr(p)] (population.py:494-501). *)
Definition repr (p : population E) : string :=
  "total number of objects: " ++ str_of_nat (p_ndet p + p_nnon p) ++ newline ++ " number of detections: " ++ str_of_nat (p_ndet p) ++
  newline ++ " number of non-detections: " ++ str_of_nat (p_nnon p).
End R.
Arguments AVar {E}. Arguments AArr {E}. Arguments AMask {E}. Arguments ANum {E}. Arguments ANat {E}. Arguments ABool {E}. Arguments ANone {E}.
Arguments APars {E}. Arguments ATruth {E}. Arguments AGraph {E}. Arguments ASynth {E}. Arguments getattr {E}. Arguments properties {E}. Arguments latent_of {E}. Arguments or_none {E A}. Arguments repr {E}.
