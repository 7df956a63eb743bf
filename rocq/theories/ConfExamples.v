(** A concrete registry and concrete synths over the integers. *)
From Verif Require Import Base BaseFacts Env ParamModel SelModel DistModel AuxModel SynthModel Tree ConfModel ConfSpec Toy AuxExamples SynthExamples.
Open Scope string_scope.
Open Scope list_scope.

(** ** Classes *)
Definition radius : spcls toy := @SpCls toy
  [("Lambda", PDecl (Some 5%Z) (Some 0%Z) None true true); ("r_max", PDecl (Some 10%Z) (Some 0%Z) None true false)]
  ["Lambda"] (fun vals r => match vals with [l] => Ok (l * r)%Z | _ => Err ValueError end)
  (fun l r => (10 * l - r)%Z) None.
(** Constructors taking a name and the flag, a name, and nothing. *)
Definition both (ty : string) (k : akind toy) : auxcls toy := @AuxCls toy
  (fun n o _ => match n, o with Some n, Some o => Ok (@AStat toy n ty k o false false false) | _, _ => Err TypeError end) (fun _ => false).
Definition named_only (ty : string) (k : akind toy) : auxcls toy := @AuxCls toy
  (fun n o _ => match n, o with Some n, None => Ok (@AStat toy n ty k true false false false) | _, _ => Err TypeError end) (fun _ => false).
Definition bare (ty : string) (k : akind toy) : auxcls toy := @AuxCls toy
  (fun n o _ => match n, o with None, None => Ok (@AStat toy "x" ty k false true false false) | _, _ => Err TypeError end) (fun _ => false).
Definition lower0 : selector toy := new_selector (KLower toy) "LowerBound" "lower" false false false false.
Definition far0 : selector toy := new_selector (KDistance toy) "DistanceSelection" "far" false false false false.
Definition coin0 : selector toy := new_selector (KBernoulli toy) "BernoulliSelection" "coin" false false false false.
Definition toy_rg : registry toy := @Registry toy
  (fun n => if n =? "Radius" then Ok (@DSpatial toy (sd_new radius "space") (Meta "Radius" "form" (Some true)))
            else if n =? "Lum" then Ok (@DLuminosity toy lumd (Meta "Lum" "form" None)) else Err KeyError)
  (fun n => if n =? "UnitySelection" then Ok (@SelCls toy (unity toy "unity") (fun _ => false))
            else if n =? "LowerBound" then Ok (@SelCls toy lower0 (fun k => k =? "boundary"))
            else if n =? "HardFluxSelection" then Ok (@SelCls toy (hard_flux toy) (fun _ => false))
            else if n =? "DistanceSelection" then Ok (@SelCls toy far0 (fun k => (k =? "min_distance") || (k =? "max_distance")))
            else if n =? "BernoulliSelection" then Ok (@SelCls toy coin0 (fun k => k =? "probability"))
            else Err KeyError)
  (fun n => if n =? "D" then Ok (both "D" doublek)
            else if n =? "U" then Ok (named_only "U" shiftk)
            else if n =? "N" then Ok (both "N" densk)
            else if n =? "B" then Ok (bare "B" densk)
            else if n =? "X" then Ok (both "X" derk)
            else Err KeyError)
  (fun _ _ => false) (fun _ => Err ValueError).

(** ** A synth: "root" depends on "a" and "b", both on "c"; "solo" has a parameter and
    a selection; "L" derives luminosities and depends on "d". *)
Definition mu (v : Z) (a : sampler toy) : sampler toy :=
  upd_dy (fun d : adyn toy => @ADyn toy (PObj [("mu", Some v)] None) (a_sampled d) (a_true d) (a_obs d) (a_prob d) (a_lum d) (a_sp d)) a.
Definition stock : world toy := @World toy 5%Z 0%Z
  [unity toy "s0"; unity toy "s1"; unity toy "s2"; above 2; above 5; unity toy "s5"; hard 20; far 2 9; coin 1; unity toy "s9"]
  [@new_sampler toy "root" "D" doublek false false false false 0;
   @new_sampler toy "a" "D" doublek false false false false 1;
   @new_sampler toy "b" "B" densk false true false false 2;
   @new_sampler toy "c" "U" shiftk true false false false 3;
   mu 7 (@new_sampler toy "solo" "N" densk true false false false 4);
   mu 8 (@new_sampler toy "L" "X" derk false false false false 5);
   @new_sampler toy "d" "U" shiftk true false false false 9] [].
Definition linked_stock : world toy :=
  snd ((set_secondary 0 1 ;; set_secondary 0 2 ;; set_secondary 1 3 ;; set_secondary 2 3 ;; set_secondary 5 6) stock).
Definition radius_at (lam : Z) : sdist toy := with_spar (sd_new radius "space") (PObj [("Lambda", Some lam); ("r_max", Some 10%Z)] (Some "Lambda")).
Definition assemble : YM toy unit :=
  add_quantity (IsSampler 4) ;; add_quantity (IsSampler 0) ;; add_quantity (IsSampler 5) ;;
  set_flux (Some 6) ;; add_spatial (Some 7) ;; set_dist (Some 8).
Definition start : synth toy := @synth_new toy linked_stock (radius_at 3) (Meta "Radius" "form" (Some false)) (Some lumd) (Meta "Lum" "form" None) 1234%Z.
Definition kept : synth toy := snd (assemble start).
Example kept_made : fst (assemble start) = Ok tt. Proof. reflexivity. Qed.

Definition kept_auxs : list (sampler toy) :=
  [Sampler (@AStat toy "root" "D" doublek false false false false) (ALink [("a", 1); ("b", 2)] false [] 0) (@ADyn toy (pobj_new Z) false None None None None None);
   Sampler (@AStat toy "a" "D" doublek false false false false) (ALink [("c", 3)] true ["root"] 1) (@ADyn toy (pobj_new Z) false None None None None None);
   Sampler (@AStat toy "b" "B" densk false true false false) (ALink [("c", 3)] true ["root"] 2) (@ADyn toy (pobj_new Z) false None None None None None);
   Sampler (@AStat toy "c" "U" shiftk true false false false) (ALink [] true ["a"; "b"] 3) (@ADyn toy (pobj_new Z) false None None None None None);
   Sampler (@AStat toy "solo" "N" densk true false false false) (ALink [] false [] 4) (@ADyn toy (PObj [("mu", Some 7%Z)] None) false None None None None None);
   Sampler (@AStat toy "L" "X" derk false false false false) (ALink [("d", 6)] false [] 5) (@ADyn toy (PObj [("mu", Some 8%Z)] None) false None None None None None);
   Sampler (@AStat toy "d" "U" shiftk true false false false) (ALink [] true ["L"] 9) (@ADyn toy (pobj_new Z) false None None None None None)].
Lemma kept_samplers : w_auxs (y_w kept) = kept_auxs. Proof. reflexivity. Qed.
Lemma kept_aux : y_aux kept = [("solo", 4); ("root", 0)]. Proof. reflexivity. Qed.
Lemma kept_der : y_der kept = Some 5. Proof. reflexivity. Qed.
Lemma kept_reach i : reach kept i -> i < 7.
Proof.
  induction 1 as [k i H|i H|i a k j Hr IH Ha Hin].
  - rewrite kept_aux in H. destruct H as [[= <- <-]|[[= <- <-]|[]]]; lia.
  - rewrite kept_der in H. injection H as <-. lia.
  - rewrite kept_samplers in Ha. do 7 (destruct i as [|i]; [cbn in Ha; injection Ha as <-; cbn in Hin; intuition; match goal with X : (_, _) = _ |- _ => injection X as <- <-; lia end|]). lia.
Qed.
Ltac seven i H := destruct i as [|[|[|[|[|[|[|i]]]]]]]; cbn in H; [injection H as <-..|destruct i; discriminate].

Lemma settable_nil c : stored toy c [].
Proof. split; [constructor|]. intros k v H. discriminate. Qed.
Lemma settable_one c k v p : dget c k = Some p -> accepts toy p v -> stored toy c [(k, v)].
Proof.
  intros Hp Ha. split; [repeat constructor; easy|]. intros k' v' H. cbn [dget] in H. destruct (String.eqb_spec k' k); [|discriminate].
  subst. injection H as <-. eauto.
Qed.
Lemma settable_two c k v p k2 v2 p2 : k <> k2 -> dget c k = Some p -> accepts toy p v -> dget c k2 = Some p2 -> accepts toy p2 v2 -> stored toy c [(k, v); (k2, v2)].
Proof.
  intros N Hp Ha Hp2 Ha2. split; [cbn; apply NoDup_cons; [intros [H|[]]; cbn in H; now apply N|repeat constructor; easy]|].
  intros k' v' H. cbn [dget] in H. destruct (String.eqb_spec k' k); [subst; injection H as <-; eauto|].
  destruct (String.eqb_spec k' k2); [subst; injection H as <-; eauto|discriminate].
Qed.
Ltac acc := split; [reflexivity|split; intros m Hm; cbn in Hm; try discriminate; injection Hm as <-; reflexivity].
Lemma unity_known use own nm : sel_known toy_rg use own (unity toy nm).
Proof. eexists. split; [reflexivity|]. do 3 (split; [reflexivity|]). split; [apply settable_nil|]. split; [intros _ k v H|intros H]; discriminate. Qed.
Lemma above_known b : sel_known toy_rg SObserved true (above b).
Proof.
  eexists. split; [reflexivity|]. do 3 (split; [reflexivity|]). split; [eapply settable_one; [reflexivity|acc]|].
  split; [intros _ k v H; cbn [truth above with_par s_par po_store truth_of dget] in H; destruct (String.eqb_spec k "boundary"); [now subst|discriminate]|].
  intros _. split; [reflexivity|]. right. split; [reflexivity|split; discriminate].
Qed.

Example kept_savable : savable toy_rg kept.
Proof.
  split.
  - do 2 eexists. split; [reflexivity|]. do 5 (split; [reflexivity|]). split; [split; discriminate|]. split; [|discriminate].
    eapply settable_two; [discriminate|reflexivity|acc|reflexivity|acc].
  - intros l [= <-]. eexists. split; [reflexivity|]. do 3 (split; [reflexivity|]). apply settable_nil.
  - reflexivity.
  - intros _. eexists. split; [reflexivity|]. eexists. split; [reflexivity|]. do 3 (split; [reflexivity|]).
    split; [eapply settable_one; [reflexivity|acc]|]. split; [discriminate|]. intros _. split; [reflexivity|]. left. reflexivity.
  - intros _. eexists. split; [reflexivity|]. eexists. split; [reflexivity|]. do 3 (split; [reflexivity|]).
    split; [eapply settable_one; [reflexivity|acc]|]. split; [discriminate|]. intros H; discriminate.
  - intros i [= <-]. eexists. split; [reflexivity|]. eexists. split; [reflexivity|]. do 3 (split; [reflexivity|]).
    split; [eapply settable_two; [discriminate|reflexivity|acc|reflexivity|acc]|]. split; [discriminate|]. intros H; discriminate.
  - intros i Hr. apply kept_reach in Hr. rewrite kept_samplers.
    assert (Hres : forall k v z, dget [("mu", z : Z)] k = Some v -> ~ In k reserved).
    { intros k v z H. cbn [dget] in H. destruct (String.eqb_spec k "mu"); [subst|discriminate]. cbn. intuition discriminate. }
    destruct i as [|[|[|[|[|[|[|i]]]]]]]; [..|lia]; (eexists; split; [reflexivity|]; split; [|split; [|split; [|eexists; split; [reflexivity|]]]]);
      try (apply unity_known); try (apply above_known); try (apply settable_nil); try (eapply settable_one; [reflexivity|acc]);
      try (intros k v H; discriminate);
      try (intros k v H; exact (Hres k v _ H)).
    all: eexists; split; [reflexivity|].
    + left. reflexivity. + left. reflexivity.
    + right. right. right. split; [reflexivity|]. split; [reflexivity|]. split; [reflexivity|]. eexists. split; [reflexivity|]. repeat split; reflexivity.
    + right. right. left. repeat split; reflexivity.
    + left. reflexivity. + left. reflexivity.
    + right. right. left. repeat split; reflexivity.
  - intros i j a b _ _ Ha Hb. rewrite kept_samplers in Ha, Hb. seven i Ha; seven j Hb; cbn; intros N; try reflexivity; discriminate.
  - intros k i H. rewrite kept_aux in H. destruct H as [[= <- <-]|[[= <- <-]|[]]]; eexists; (split; [reflexivity|]; split; reflexivity).
  - rewrite kept_aux. cbn. apply NoDup_cons; [intros [H|[]]; discriminate|]. apply NoDup_cons; [easy|constructor].
  - intros i a _ Ha. rewrite kept_samplers in Ha. rewrite kept_samplers. seven i Ha; (split; [cbn; repeat first [apply NoDup_cons; [cbn; intuition discriminate|]|constructor]|]);
      intros k j H; cbn in H; intuition; match goal with X : (_, _) = _ |- _ => injection X as <- <- end; eexists; split; reflexivity.
  - split.
    + intros k i H (p & a & k' & _ & Ha & Hin). rewrite kept_aux in H. rewrite kept_samplers in Ha.
      destruct H as [[= <- <-]|[[= <- <-]|[]]]; seven p Ha; cbn in Hin; intuition discriminate.
    + intros i H (p & a & k' & _ & Ha & Hin). rewrite kept_der in H. injection H as <-. rewrite kept_samplers in Ha.
      seven p Ha; cbn in Hin; intuition discriminate.
  - intros i a H Ha. rewrite kept_der in H. injection H as <-. rewrite kept_samplers in Ha. cbn in Ha. injection Ha as <-. split; discriminate.
Qed.
(** Witnesses by running the model. *)
Lemma by_saving {E} n (y : synth E) : match to_dict n y with Ok _ => true | Err _ => false end = true -> exists t, to_dict n y = Ok t.
Proof. destruct (to_dict n y); [eauto|discriminate]. Qed.
Definition errs {A} (x : res A) (e : exn) : bool := match x, e with Err KeyError, KeyError => true | _, _ => false end.
Lemma errs_eq {A} (x : res A) : errs x KeyError = true -> x = Err KeyError.
Proof. destruct x as [|[]]; cbn; congruence. Qed.
Lemma by_loading {E} (rg : registry E) w n (y : synth E) (P : synth E -> Prop) :
  match to_dict n y with Ok (TDict inp) => match fst (from_dict rg w inp) with Ok y' => P y' | Err _ => False end | _ => False end ->
  exists inp y', to_dict n y = Ok (TDict inp) /\ fst (from_dict rg w inp) = Ok y' /\ P y'.
Proof.
  destruct (to_dict n y) as [[| | | | | | | | |inp]|]; try contradiction. destruct (fst (from_dict rg w inp)) as [y'|] eqn:H; [|contradiction].
  intros HP. exists inp, y'. auto.
Qed.
Lemma by_failing {E} (rg : registry E) w n (y : synth E) :
  match to_dict n y with Ok (TDict inp) => errs (fst (from_dict rg w inp)) KeyError | _ => false end = true ->
  exists inp, to_dict n y = Ok (TDict inp) /\ fst (from_dict rg w inp) = Err KeyError.
Proof. destruct (to_dict n y) as [[| | | | | | | | |inp]|]; try discriminate. intros H. exists inp. split; [reflexivity|now apply errs_eq]. Qed.
Lemma by_file {E} (rg : registry E) w n (y : synth E) (P : synth E -> Prop) :
  match through_file rg n w y with Ok y' => P y' | Err _ => False end -> exists y', through_file rg n w y = Ok y' /\ P y'.
Proof. destruct (through_file rg n w y); [eauto|contradiction]. Qed.
Lemma by_loading_twice {E} (rg : registry E) w n (y : synth E) :
  match to_dict n y with Ok (TDict inp) => match from_dict rg w inp with (Ok _, inp') => errs (fst (from_dict rg w inp')) KeyError | _ => false end | _ => false end = true ->
  exists inp y' inp', to_dict n y = Ok (TDict inp) /\ from_dict rg w inp = (Ok y', inp') /\ fst (from_dict rg w inp') = Err KeyError.
Proof.
  destruct (to_dict n y) as [[| | | | | | | | |inp]|]; try discriminate. destruct (from_dict rg w inp) as [[y'|] inp'] eqn:H; [|discriminate].
  intros He. exists inp, y', inp'. split; [reflexivity|]. split; [exact H|now apply errs_eq].
Qed.
Example kept_saves : exists t, to_dict 10 kept = Ok t.
Proof. apply by_saving. vm_compute. reflexivity. Qed.

(** ** Synths that do not come back *)
Definition base_synth (w : world toy) : synth toy := @synth_new toy w (radius_at 3) (Meta "Radius" "form" (Some false)) (Some lumd) (Meta "Lum" "form" None) 1234%Z.
Definition empty : world toy := @World toy 0%Z 0%Z [] [] [].
(** The parameters of the selection of the registered sampler [k]. *)
Definition sel_params {E} (y : synth E) (k : string) : option (dict (V E)) :=
  match dget (y_aux y) k with
  | Some i => match nth_error (w_auxs (y_w y)) i with
              | Some a => option_map (fun s => truth (s_par s)) (nth_error (w_sels (y_w y)) (a_sel (a_ln a)))
              | None => None
              end
  | None => None
  end.
(** A sampler whose selection is a [HardFluxSelection], whose [boundary] is declared in
    the base class. *)
Definition lossy : synth toy :=
  snd (add_quantity (IsSampler 0) (base_synth (@World toy 5%Z 0%Z [hard 20] [@new_sampler toy "solo" "N" densk true false false false 0] []))).
Example lossy_loses : exists inp y', to_dict 10 lossy = Ok (TDict inp) /\ fst (from_dict toy_rg empty inp) = Ok y' /\
  sel_params lossy "solo" = Some [("boundary", 20%Z)] /\ sel_params y' "solo" = Some [].
Proof. apply (by_loading toy_rg empty 10 lossy (fun y' => _ /\ sel_params y' _ = _)). vm_compute. split; reflexivity. Qed.
(** A flux selection that looks at the luminosity. *)
Definition on_lum : selector toy := with_par (new_selector (KLower toy) "LowerBound" "lower" false false true false) (PObj [("boundary", Some 3%Z)] None).
Definition lum_cut : synth toy := snd (set_flux (Some 0) (base_synth (@World toy 5%Z 0%Z [on_lum] [] []))).
Example lum_cut_changes : exists inp y', to_dict 10 lum_cut = Ok (TDict inp) /\ fst (from_dict toy_rg empty inp) = Ok y' /\
  option_map (@source_of toy) (nth_error (w_sels (y_w lum_cut)) (y_flux lum_cut)) = Some SLuminosity /\
  option_map (@source_of toy) (nth_error (w_sels (y_w y')) (y_flux y')) = Some SFlux.
Proof. apply (by_loading toy_rg empty 10 lum_cut (fun y' => _ /\ option_map _ (nth_error (w_sels (y_w y')) (y_flux y')) = _)). vm_compute. split; reflexivity. Qed.
(** A derived-luminosity sampler without secondaries, whose name is not its class. *)
Definition derived : synth toy :=
  snd (add_quantity (IsSampler 0) (base_synth (@World toy 5%Z 0%Z [unity toy "u"] [@new_sampler toy "L" "X" derk false false false false 0] []))).
Example derived_fails : exists inp, to_dict 10 derived = Ok (TDict inp) /\ fst (from_dict toy_rg empty inp) = Err KeyError /\
  exists a, y_der derived = Some 0 /\ nth_error (w_auxs (y_w derived)) 0 = Some a /\ a_type (a_st a) = "X" /\ (exists c, rg_aux toy_rg "X" = Ok c).
Proof.
  destruct (by_failing toy_rg empty 10 derived) as (inp & H1 & H2); [vm_compute; reflexivity|]. exists inp. split; [exact H1|]. split; [exact H2|].
  eexists. split; [reflexivity|]. split; [reflexivity|]. split; [reflexivity|]. eexists. reflexivity.
Qed.
(** A spatial class whose name comes after "is_rate". *)
Definition lower_rg : registry toy := @Registry toy
  (fun n => if n =? "radius" then Ok (@DSpatial toy (sd_new radius "space") (Meta "radius" "form" (Some true))) else Err KeyError)
  (fun _ => Err KeyError) (fun _ => Err KeyError) (fun _ _ => false) (fun _ => Err ValueError).
Definition lower_synth : synth toy := @synth_new toy empty (radius_at 3) (Meta "radius" "form" (Some false)) None (Meta "" "" None) 1234%Z.
Example lower_fails : (exists inp y', to_dict 10 lower_synth = Ok (TDict inp) /\ fst (from_dict lower_rg empty inp) = Ok y') /\
  through_file lower_rg 10 empty lower_synth = Err KeyError.
Proof.
  split; [|apply errs_eq; vm_compute; reflexivity]. destruct (by_loading lower_rg empty 10 lower_synth (fun _ => True)) as (inp & y' & H1 & H2 & _); [vm_compute; exact I|eauto].
Qed.
(** The order changes. *)
Example kept_reordered : exists y', through_file toy_rg 10 empty kept = Ok y' /\
  dkeys (y_aux kept) = ["solo"; "root"] /\ dkeys (y_aux y') = ["root"; "solo"].
Proof. apply (by_file toy_rg empty 10 kept (fun y' => _ /\ dkeys (y_aux y') = _)). vm_compute. split; reflexivity. Qed.
(** Loading twice. *)
Example kept_twice : exists inp y' inp', to_dict 10 kept = Ok (TDict inp) /\ from_dict toy_rg empty inp = (Ok y', inp') /\
  fst (from_dict toy_rg empty inp') = Err KeyError.
Proof. apply by_loading_twice. vm_compute. reflexivity. Qed.
