(** Model of [display] and [__repr__] of [popsynth/population_synth.py] (1407-1488), of
    distributions (distribution.py:112-139) and of samplers
    (auxiliary_sampler.py:215-244). *)
From Verif Require Import Base Env ParamModel SelModel DistModel AuxModel PopModel SynthModel.
Set Implicit Arguments.
Open Scope string_scope.

Section Desc.
Variable E : env.
Notation V := (V E).

(** A heading, a formula and a table of the stored parameters. *)
Record sect := Sect { se_title : string; se_form : option string; se_rows : dict (option V) }.

(** The sampler object [i] (auxiliary_sampler.py:215-224). *)
Definition sampler_sect (y : synth E) (title : string) (i : nat) : res sect :=
  let? a := of_opt Unmodelled (nth_error (w_auxs (y_w y)) i) in Ok (Sect title None (po_store (a_par (a_dy a)))).
(** [self._derived_luminosity_sampler.secondary_samplers]. *)
Definition der_secs (y : synth E) : res (dict nat) :=
  match y_der y with
  | None => Ok nil
  | Some i => let? a := of_opt Unmodelled (nth_error (w_auxs (y_w y)) i) in Ok (a_sec (a_ln a))
  end.
(** Registered samplers that are not named like one of those (1441-1449). *)
Definition others (y : synth E) (secs : dict nat) : dict nat :=
  filter (fun ki => negb (mem (fst ki) (dkeys secs))) (y_aux y).

(** [PopulationSynth.display] (1407-1449).  The synth is not changed. *)
Definition display_synth (y : synth E) : res (list sect) :=
  let? lum := match y_der y with
              | Some i => rmap (fun s => [s]) (sampler_sect y "Luminosity Function" i)
              | None => Ok (match y_lum y with
                            | Some l => [Sect "Luminosity Function" (Some (m_form (y_lumm y))) (po_store (ld_par l))]
                            | None => nil
                            end)
              end in
  let? secs := der_secs y in
  let? a := rmapM (fun ki => sampler_sect y (fst ki) (snd ki)) secs in
  let? b := rmapM (fun ki => sampler_sect y (fst ki) (snd ki)) (others y secs) in
  Ok (lum ++ [Sect "Spatial Function" (Some (m_form (y_spm y))) (po_store (sd_par (y_sp y)))] ++ a ++ b)%list.

(** Lines of [__repr__]. *)
Inductive piece :=
| Line (s : string)                    (* headings, names, forms *)
| Observed (b : bool)                  (* "observed: ..." *)
| Row (k : string) (v : option V)      (* "k: v" *)
| Parents (l : list string)            (* "parents: ..." *)
| Child (k : string).                  (* name of a secondary *)
Definition rows (o : pobj V) : list piece := map (fun kv => Row (fst kv) (snd kv)) (po_store o).
(** distribution.py:131-139 *)
Definition dist_repr (name form : string) (o : pobj V) : list piece := (Line name :: Line form :: rows o)%list.
(** auxiliary_sampler.py:226-244 *)
Definition sampler_repr (y : synth E) (i : nat) : res (list piece) :=
  let? a := of_opt Unmodelled (nth_error (w_auxs (y_w y)) i) in
  Ok (Line (name_of a) :: Observed (a_observed (a_st a)) :: rows (a_par (a_dy a)) ++
      (if a_issec (a_ln a) then [Parents (a_parents (a_ln a))] else nil) ++ map (fun kj => Child (fst kj)) (a_sec (a_ln a)))%list.
(** [PopulationSynth.__repr__] (1451-1488): without a luminosity, [out] is not assigned
    when it is first used ([UnboundLocalError], a [NameError]). *)
Definition repr_synth (y : synth E) : res (list piece) :=
  let? lum := match y_der y with
              | Some i => sampler_repr y i
              | None => match y_lum y with
                        | Some l => Ok (dist_repr (ld_name l) (m_form (y_lumm y)) (ld_par l))
                        | None => Err NameError
                        end
              end in
  let? secs := der_secs y in
  let? a := rmapM (fun ki => sampler_repr y (snd ki)) secs in
  let? b := rmapM (fun ki => sampler_repr y (snd ki)) (others y secs) in
  Ok ((Line "Luminosity Function" :: lum) ++ (Line "Spatial Function" :: dist_repr (sd_name (y_sp y)) (m_form (y_spm y)) (sd_par (y_sp y))) ++
      List.concat a ++ List.concat b)%list.
End Desc.
Arguments Line {E}. Arguments Observed {E}. Arguments Row {E}. Arguments Parents {E}. Arguments Child {E}. Arguments Sect {E}.
