(** Surveys whose population is looked at again later (C75). *)
From Verif Require Import Base BaseFacts Env ParamModel SelModel SelSpec SimVarModel DistModel DistSpec AuxModel AuxSpec PopModel
  SynthModel SynthSpec Toy AuxExamples SynthExamples ShareModel ShareSpec.
Open Scope string_scope.
Open Scope list_scope.

(** A survey of a synth with samplers and secondaries, then another one of the same
    objects' samplers without errors, then a look at the graph. *)
Lemma drawn_again : exists p y1 q y2 g z, survey (Some 2%Z) (Some 6) false (rich false) = (Ok p, y1) /\
  survey None (Some 6) true y1 = (Ok q, y2) /\ read_graph 10 y2 = (Ok g, z) /\ sv_lat (p_dist q) <> sv_lat (p_dist p) /\ later 10 y1 z.
Proof.
  destruct (survey_run (survey (Some 2%Z) (Some 6) false (rich false)) _ (fun p y1 => (sv_lat (p_dist p),
     match survey None (Some 6) true y1 with (Ok q, y2) => match read_graph 10 y2 with (Ok g, z) => Some (sv_lat (p_dist q)) | _ => None end | _ => None end))
     ltac:(let v := eval vm_compute in (match survey (Some 2%Z) (Some 6) false (rich false) with (Ok p, y1) => (sv_lat (p_dist p),
     match survey None (Some 6) true y1 with (Ok q, y2) => match read_graph 10 y2 with (Ok g, z) => Some (sv_lat (p_dist q)) | _ => None end | _ => None end) | _ => (nil, None) end) in exact v))
    as (p & y1 & H & Q); [vm_compute; reflexivity|].
  assert (Q1 := f_equal fst Q). assert (Q2 := f_equal snd Q). cbn [fst snd] in Q1, Q2. clear Q.
  destruct (survey None (Some 6) true y1) as [[q|e] y2] eqn:H2; [|discriminate]. destruct (read_graph 10 y2) as [[g|e] z] eqn:H3; [|discriminate].
  exists p, y1, q, y2, g, z. split; [exact H|]. split; [exact H2|]. split; [exact H3|]. split.
  - intros X. rewrite X, Q1 in Q2. discriminate Q2.
  - unfold survey in H2. eapply later_survey; [exact H2|discriminate|]. eapply later_graph; [exact H3|]. apply later_same.
Qed.

(** What a population shows of the shared objects, and the truths next to them. *)
Definition watched (p : population toy) :=
  (dget (pa_sppar (p_args p)) "Lambda", option_map (fun d => dget d "mu") (pa_lfpar (p_args p)), pa_truth (p_args p),
   option_map dkeys (pa_spaces (p_args p)), gr_edges (pa_graph (p_args p)),
   match stan_data p with Ok d => match dget d "z" with Some _ => true | None => false end | Err _ => false end).
Definition changes : YM toy unit :=
  @set_spatial toy "Lambda" 7%Z ;; @set_luminosity toy "mu" 4%Z ;; @add_space toy "z" 0%Z 3%Z false ;;
  add_quantity (IsSampler 0) ;; bind (read_graph 10) (fun _ => ret tt).
Definition tr1 : dict (dict Z) := [("space", [("Lambda", 5%Z); ("r_max", 10%Z)]); ("lf", [("mu", 2%Z)])].
Lemma some_inj {A} (a b : A) : Some a = Some b -> a = b. Proof. congruence. Qed.
Lemma changed_afterwards : exists p y1 y2, survey None (Some 3) false before = (Ok p, y1) /\ changes y1 = (Ok tt, y2) /\
  watched p = (Some (Some 5%Z), Some (Some (Some 2%Z)), tr1, Some [], [("space", "obs_flux"); ("lf", "obs_flux")], false) /\
  watched (shows y2 p) = (Some (Some 7%Z), Some (Some (Some 4%Z)), tr1, Some ["z"], [("space", "obs_flux"); ("lf", "obs_flux"); ("x", "x_obs")], true).
Proof.
  destruct (survey_run (survey None (Some 3) false before) _ (fun p y1 => (watched p, match changes y1 with (Ok _, y2) => Some (watched (shows y2 p)) | _ => None end))
    ((Some (Some 5%Z), Some (Some (Some 2%Z)), tr1, Some [], [("space", "obs_flux"); ("lf", "obs_flux")], false),
     Some (Some (Some 7%Z), Some (Some (Some 4%Z)), tr1, Some ["z"], [("space", "obs_flux"); ("lf", "obs_flux"); ("x", "x_obs")], true)))
    as (p & y1 & H & Q); [vm_compute; reflexivity|].
  assert (Q1 := f_equal fst Q). assert (Q2 := f_equal snd Q). cbn [fst snd] in Q1, Q2. clear Q.
  destruct (changes y1) as [[[]|e] y2] eqn:C; [|discriminate]. exists p, y1, y2. split; [exact H|]. split; [exact C|]. split; [exact Q1|]. exact (some_inj _ _ Q2).
Qed.
