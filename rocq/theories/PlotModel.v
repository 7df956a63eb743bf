(** Model of the methods of [popsynth/population.py] that show a population: text,
    scatter plots, histograms and spheres (496-503, 925-1356). *)
From Verif Require Import Base Env SimVarModel PopModel.
Set Implicit Arguments.
Open Scope string_scope.

Section Plot.
Variable E : env.
Notation V := (V E).

(** What the methods ask matplotlib, ipyvolume and IPython to show, in order.  Colours,
    sizes and axis labels are left out.  An array that is drawn shows the values it
    holds; those of a [SimulatedVariable] are the observed ones
    (simulated_variable.py:34-36). *)
Inductive mark :=
| Scatter (label : string) (x y : list V)        (* ax.scatter(x, y, label=label) *)
| Arrow (x y dx dy : V)                          (* ax.arrow(x, y, dx, dy) *)
| YBottom (y : V)                                (* ax.set_ylim(bottom=y) *)
| XRight (x : V)                                 (* ax.set_xlim(right=x) *)
| Hist (x : list V) (top : V) (edges : nat)      (* ax.hist(x, bins=np.linspace(0, top, edges)) *)
| Points (cmap : string) (x y z : list V) (value : list V)   (* ipv.scatter(x, y, z, color=...) *)
| Head (name : pystr) (detected all : nat)       (* "Detected %d out of %d objects" *)
| Table (form : option string) (rows : list (string * option V)).  (* Math(form), DataFrame *)

(** Drawing on one figure: exceptions leave what was drawn before. *)
Notation DM := (M (list mark)).
Definition put (m : mark) : DM unit := fun s => (Ok tt, (s ++ [m])%list).
(** [scatter] refuses arrays of different lengths. *)
Definition scatter (label : string) (x y : simvar V) : DM unit :=
  if Nat.eqb (length (sv_obs x)) (length (sv_obs y)) then put (Scatter label (sv_obs x) (sv_obs y)) else lift (Err ValueError).
(** [a.min()]: a reduction, of the observed values; an empty array raises. *)
Definition np_min (x : simvar V) : res V :=
  match sv_obs x with
  | nil => Err ValueError
  | a :: r => Ok (fold_left (fun m b => if vle E m b then m else b) r a)
  end.
(** [min([a, b])]. *)
Definition min2 (a b : V) : V := if vlt E b a then b else a.

(** [min([self._fluxes.min(), self._fluxes.selected.min()])] (995, 1050). *)
Definition lowest (p : population E) : res V :=
  let? a := np_min (p_flux p) in let? s := sv_selected (p_flux p) in let? b := np_min s in Ok (min2 a b).

(** [display_true_fluxes] (962-1004). *)
Definition display_true_fluxes (p : population E) : DM unit :=
  scatter "True flux" (p_dist p) (p_flux p) ;;
  let! b := lift (match lowest p with Err ValueError => np_min (p_flux p) | r => r end) in
  put (YBottom b).

(** [display_obs_fluxes] (1006-1056): only a warning when nothing was detected. *)
Definition display_obs_fluxes (p : population E) : DM unit :=
  if p_nodet p then ret tt else
  let! d := lift (sv_selected (p_dist p)) in
  let! f := lift (sv_selected (p_flux p)) in
  scatter "Detected flux" d f ;;
  let! b := lift (lowest p) in
  put (YBottom b) ;; put (XRight (pa_rmax (p_args p))).

(** The loop over [zip(self._fluxes[self._selection], self._fluxes.selected,
    self._distances.selected)] (1089-1110). *)
Fixpoint arrows (start stop z : list V) : DM unit :=
  match start, stop, z with
  | a :: ra, b :: rb, x :: rx => put (Arrow x a (vofnat E 0) (vsub E b a)) ;; arrows ra rb rx
  | _, _, _ => ret tt
  end.
(** [x[self._selection]]. *)
Definition by_mask (x : simvar V) (m : list bool) : res (simvar V) :=
  let? y := sv_getitem x (IMask (MB m)) in match y with inr z => Ok z | inl _ => Err Unmodelled end.

(** [display_fluxes] (1058-1112). *)
Definition display_fluxes (with_arrows : bool) (p : population E) : DM unit :=
  display_true_fluxes p ;;
  (if p_nodet p then ret tt else display_obs_fluxes p) ;;
  if (with_arrows && negb (p_nodet p))%bool then
    let! a := lift (by_mask (p_flux p) (pa_sel (p_args p))) in
    let! b := lift (sv_selected (p_flux p)) in
    let! x := lift (sv_selected (p_dist p)) in
    arrows (sv_obs a) (sv_obs b) (sv_obs x)
  else ret tt.

(** [display_luminosities] (1114-1149). *)
Definition display_luminosities (p : population E) : DM unit :=
  let! d := lift (sv_selected (p_dist p)) in
  let! l := lift (sv_selected (p_lum p)) in
  scatter "" d l ;;
  let! d := lift (sv_non_selected (p_dist p)) in
  let! l := lift (sv_non_selected (p_lum p)) in
  scatter "" d l.

(** [display_distances] (1304-1338). *)
Definition display_distances (p : population E) : DM unit :=
  put (Hist (sv_obs (p_dist p)) (pa_rmax (p_args p)) 40) ;;
  let! d := lift (sv_selected (p_dist p)) in
  put (Hist (sv_obs d) (pa_rmax (p_args p)) 40).

(** ** Spheres *)
Variables vsin vcos : V -> V.
(** [xyz] (utils/spherical_geometry.py:16-24) on variables. *)
Definition mul2 (a b : simvar V) : res (simvar V) := ufunc2 DFloat (vmul E) (OVar a) (OVar b).
Definition xyz (r t f : simvar V) : res (simvar V * simvar V * simvar V) :=
  let? st := ufunc1 DFloat vsin t in let? ct := ufunc1 DFloat vcos t in
  let? sf := ufunc1 DFloat vsin f in let? cf := ufunc1 DFloat vcos f in
  let? rs := mul2 r st in
  let? x := mul2 rs cf in let? y := mul2 rs sf in let? z := mul2 r ct in
  Ok (x, y, z).
(** [_display_sphere] (1151-1209): [true] when it returns a figure.
    [distance_transform] is taken to be a ufunc.  [array_to_cmap] gives each flux a
    colour by its logarithm, whatever [use_log]; the values are kept here. *)
Definition display_sphere (cmap : string) (tr : option (V -> V)) (flux dist t f : simvar V) : DM bool :=
  match sv_obs flux with
  | nil => ret false
  | _ =>
      let! d := lift (match tr with Some g => ufunc1 DFloat g dist | None => Ok dist end) in
      let! q := lift (xyz d t f) in
      put (Points cmap (sv_obs (fst (fst q))) (sv_obs (snd (fst q))) (sv_obs (snd q)) (sv_obs flux)) ;;
      ret true
  end.
(** [display_obs_fluxes_sphere] (1211-1240). *)
Definition display_obs_fluxes_sphere (cmap : string) (tr : option (V -> V)) (p : population E) : DM bool :=
  let! t := lift (by_mask (p_theta p) (pa_sel (p_args p))) in
  let! f := lift (by_mask (p_phi p) (pa_sel (p_args p))) in
  let! fl := lift (sv_selected (p_flux p)) in
  let! d := lift (sv_selected (p_dist p)) in
  display_sphere cmap tr fl d t f.
(** [display_hidden_fluxes_sphere] (1242-1271). *)
Definition display_hidden_fluxes_sphere (cmap : string) (tr : option (V -> V)) (p : population E) : DM bool :=
  let! t := lift (sv_non_selected (p_theta p)) in
  let! f := lift (sv_non_selected (p_phi p)) in
  let! fl := lift (sv_non_selected (p_flux p)) in
  let! d := lift (sv_non_selected (p_dist p)) in
  display_sphere cmap tr fl d t f.
(** [display_flux_sphere] (1273-1302): the second call draws on the figure of the first
    one, or on a new one if that is [None]; its result is returned. *)
Definition display_flux_sphere (tr : option (V -> V)) (p : population E) : DM bool :=
  display_obs_fluxes_sphere "Reds" tr p ;; display_hidden_fluxes_sphere "Blues" tr p.

(** ** Text *)
(** [display] (925-960). *)
Definition display (p : population E) : DM unit :=
  let a := p_args p in
  put (Head (pa_name a) (count (pa_sel a)) (length (sv_obs (p_flux p)))) ;;
  match pa_lfpar a with Some d => put (Table (pa_lfform a) d) | None => ret tt end ;;
  put (Table (Some (pa_spform a)) (pa_sppar a)).
(** The three numbers of [__repr__] (496-503). *)
Definition repr_numbers (p : population E) : nat * nat * nat := (p_ndet p + p_nnon p, p_ndet p, p_nnon p).
End Plot.
Arguments Scatter {E}. Arguments Arrow {E}. Arguments YBottom {E}. Arguments XRight {E}. Arguments Hist {E}.
Arguments Points {E}. Arguments Head {E}. Arguments Table {E}.
Arguments scatter {E}. Arguments np_min {E}. Arguments min2 {E}. Arguments arrows {E}. Arguments by_mask {E}.
Arguments mul2 {E}. Arguments xyz {E}. Arguments display_sphere {E}.
