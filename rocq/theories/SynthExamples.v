(** Concrete synths and surveys over the integers. *)
From Verif Require Import Base BaseFacts Env ParamModel SelModel SelSpec SimVarModel DistModel DistSpec AuxModel AuxSpec PopModel
  SynthModel SynthSpec Toy AuxExamples.
Open Scope string_scope.
Open Scope list_scope.

Lemma survey_run {A S} (x : res A * S) (B : Type) (f : A -> S -> B) b :
  (match x with (Ok p, y) => Some (f p y) | _ => None end) = Some b -> exists p y, x = (Ok p, y) /\ f p y = b.
Proof. destruct x as [[p|e] y]; [|discriminate]. intros H. injection H as H. eauto. Qed.
Lemma survey_then {A S A2 S2} (x : res A * S) (k : S -> res A2 * S2) (B : Type) (f : A2 -> S2 -> B) b :
  (match x with (Ok p, y) => match k y with (Ok q, z) => Some (f q z) | _ => None end | _ => None end) = Some b ->
  exists p y q z, x = (Ok p, y) /\ k y = (Ok q, z) /\ f q z = b.
Proof.
  destruct x as [[p|e] y]; [|discriminate]. destruct (k y) as [[q|e] z] eqn:Q; [|discriminate]. intros H. injection H as H.
  exists p, y, q, z. auto.
Qed.
Lemma survey_err {A S} (x : res A * S) e : fst x = Err e -> exists y, x = (Err e, y).
Proof. destruct x as [r y]. cbn. intros ->. eauto. Qed.

(** ** Ingredients *)
(** Density [Lambda * r]; the flux is [10 L - r]. *)
Definition radial : spcls toy := @SpCls toy
  [("Lambda", PDecl (Some 5%Z) (Some 0%Z) None true true); ("r_max", PDecl None (Some 0%Z) None false false)]
  ["Lambda"] (fun vals r => match vals with [l] => Ok (l * r)%Z | _ => Err ValueError end)
  (fun l r => (10 * l - r)%Z) None.
Definition space (lam : option Z) : sdist toy :=
  with_spar (sd_new radial "space")
    (PObj (match lam with Some _ => [("Lambda", lam); ("r_max", Some 10%Z)] | None => [("r_max", Some 10%Z)] end)
          (match lam with Some _ => Some "Lambda" | None => None end)).
(** Luminosities uniform in [mu, mu + 5), density 2. *)
Definition lumc : lumcls toy := @LumCls toy [("mu", PDecl (Some 2%Z) None None true false)] ["mu"]
  (fun vals n g => let (l, g') := rdraws (r_unif toy (hd 0%Z vals) (hd 0%Z vals + 5)%Z) n g in (Ok l, g'))
  ["mu"] (fun _ _ => Ok 2%Z).
Definition lumd : ldist toy := @LDist toy lumc "lf" (PObj nil None) None.
Definition m0 : meta := Meta "T" "form" None.

(** A sampler with a density. *)
Definition densk : akind toy := @AKind toy [("mu", PDecl (Some 3%Z) None None true false)] ["mu"] unif_true nil
  (fun _ v _ g => (Ok (option_map (map (fun x => (x + 1)%Z)) (vw_true v)), g)) nil
  (fun _ v => Ok (option_map (map (fun _ => 3%Z)) (vw_true v))) nil None.
(** A derived-luminosity sampler: its true values plus one. *)
Definition derk : akind toy := @AKind toy [("mu", PDecl (Some 3%Z) None None true false)] ["mu"] unif_true nil
  no_obs nil (fun _ _ => Ok None) ["mu"]
  (Some (fun (vals : list Z) (v : view toy) => match vw_true v with Some t => Ok (map (fun x => (x + hd 0%Z vals)%Z) t) | None => Err TypeError end)).

Definition hard (b : Z) : selector toy := with_par (hard_flux toy) (PObj [("boundary", Some b)] None).
Definition far (lo hi : Z) : selector toy :=
  with_par (new_selector (KDistance toy) "DistanceSelection" "far" false false false false)
    (PObj [("min_distance", Some lo); ("max_distance", Some hi)] None).
Definition coin (p : Z) : selector toy :=
  with_par (new_selector (KBernoulli toy) "BernoulliSelection" "coin" false true false false) (PObj [("probability", Some p)] None).

(** "root" depends on "a" and "b" (which uses the distance), both on "c"; "solo" is
    observed, has a density and a selection; "L" derives luminosities. *)
Definition objects : world toy := @World toy 5%Z 0%Z
  [unity toy "s0"; unity toy "s1"; unity toy "s2"; above 2; above 5; unity toy "s5"; hard 20; far 2 9; coin 1]
  [@new_sampler toy "root" "D" doublek false false false false 0;
   @new_sampler toy "a" "D" doublek false false false false 1;
   @new_sampler toy "b" "D" doublek false true false false 2;
   @new_sampler toy "c" "U" shiftk true false false false 3;
   @new_sampler toy "solo" "N" densk true true false false 4;
   @new_sampler toy "L" "X" derk false false false false 5] [].
Definition wired : world toy :=
  snd ((set_secondary 0 1 ;; set_secondary 0 2 ;; set_secondary 1 3 ;; set_secondary 2 3) objects).
Definition setup (der : bool) : YM toy unit :=
  add_quantity (IsSampler 0) ;; add_quantity (IsSampler 4) ;;
  (if der then add_quantity (IsSampler 5) else ret tt) ;;
  set_flux (Some 6) ;; add_spatial (Some 7) ;; set_dist (Some 8).
Definition rich (der : bool) : synth toy :=
  snd (setup der (@synth_new toy wired (space (Some 5%Z)) m0 (Some lumd) m0 1234%Z)).

Example rich_setup der : fst (setup der (@synth_new toy wired (space (Some 5%Z)) m0 (Some lumd) m0 1234%Z)) = Ok tt.
Proof. destruct der; reflexivity. Qed.

(** The samplers of [rich]: name, selector, secondaries, drawn. *)
Definition row (a : sampler toy) := (name_of a, a_sel (a_ln a), a_sec (a_ln a), a_sampled (a_dy a), a_usesd (a_st a)).
Lemma rich_table der : map row (w_auxs (y_w (rich der))) =
  [("root", 0, [("a", 1); ("b", 2)], false, false); ("a", 1, [("c", 3)], false, false); ("b", 2, [("c", 3)], false, true);
   ("c", 3, [], false, false); ("solo", 4, [], false, true); ("L", 5, [], false, false)].
Proof. destruct der; reflexivity. Qed.
Lemma rich_at der j b : at_ (y_w (rich der)) j b -> nth_error
  [("root", 0, [("a", 1); ("b", 2)], false, false); ("a", 1, [("c", 3)], false, false); ("b", 2, [("c", 3)], false, true);
   ("c", 3, [], false, false); ("solo", 4, [], false, true); ("L", 5, [], false, false)] j = Some (row b).
Proof. intros H. rewrite <- (rich_table der). unfold at_ in H. now rewrite nth_error_map, H. Qed.
Ltac rows H := apply rich_at in H; unfold row in H; cbn [nth_error] in H.
Ltac six j := destruct j as [|[|[|[|[|[|j]]]]]]; cbn [nth_error] in *; try discriminate; try (destruct j; discriminate).

Example rich_acyclic der : acyclic (y_w (rich der)).
Proof.
  exists (fun i => 5 - i). intros i j (a & k & A & I). rows A. six i; injection A as A1 A2 A3 A4 A5; rewrite <- A3 in I; cbn in I;
    intuition; match goal with X : (_, _) = _ |- _ => injection X as _ <- end; lia.
Qed.
Example rich_names der : distinct_names (rich der).
Proof.
  split.
  - intros j b _ B. rows B. six j; injection B as B1 _ _ _ _; rewrite <- B1; discriminate.
  - intros j j' b b' _ _ B B' N. rows B. rows B'. six j; six j'; injection B as B1 _ _ _ _; injection B' as B1' _ _ _ _; congruence.
Qed.
Example rich_own der : own_selectors (y_w (rich der)).
Proof.
  intros i j a b A B. rows A. rows B. six i; six j; injection A as _ A1 _ _ _; injection B as _ B1 _ _ _; congruence.
Qed.
Example rich_fresh der : never_drawn (y_w (rich der)).
Proof. intros j (a & A & S). rows A. six j; injection A as _ _ _ A _; congruence. Qed.
Example rich_well der : well_drawn (y_w (rich der)).
Proof. intros i j S. now apply rich_fresh in S. Qed.
Example rich_apart der : selectors_apart (rich der) /\ flux_apart (rich der).
Proof.
  assert (Q : y_ssel (rich der) = Some 7 /\ y_dsel (rich der) = 8 /\ y_flux (rich der) = 6) by (destruct der; repeat split; reflexivity).
  destruct Q as (Q1 & Q2 & Q3). unfold selectors_apart, flux_apart. rewrite Q1, Q2, Q3.
  assert (T : forall j b, at_ (y_w (rich der)) j b -> a_sel (a_ln b) < 6).
  { intros j b B. rows B. six j; injection B as _ B _ _ _; lia. }
  split; [split; [|split; [easy|]]|].
  - intros k K. injection K as <-. split; [easy|]. split; [easy|]. intros j b _ B. apply T in B. lia.
  - intros j b _ B. apply T in B. lia.
  - intros j b _ B. apply T in B. lia.
Qed.
Example rich_closed der : closed (y_w (rich der)) /\ keyed (y_w (rich der)).
Proof.
  split.
  - intros i a A. assert (A' := A). rows A'. split.
    + six i; injection A' as _ A' _ _ _; rewrite <- A'; destruct der; eexists; reflexivity.
    + intros k j I. six i; injection A' as _ _ A' _ _; rewrite <- A' in I; cbn in I;
        intuition; match goal with X : (_, _) = _ |- _ => injection X as _ <- end; destruct der; eexists; reflexivity.
  - intros i a k j A I. rows A. six i; injection A as _ _ A _ _; rewrite <- A in I; cbn in I;
      intuition; match goal with X : (_, _) = _ |- _ => injection X as <- <- end; destruct der; eexists; split; reflexivity.
Qed.
Example rich_named der : named (rich der).
Proof.
  intros k i I. assert (Q : y_aux (rich der) = [("root", 0); ("solo", 4)]) by (destruct der; reflexivity). rewrite Q in I. cbn in I.
  intuition; match goal with X : (_, _) = _ |- _ => injection X as <- <- end; destruct der; eexists; split; reflexivity.
Qed.
Example rich_shallow der : shallow (rich der).
Proof.
  intros p c d b _ (a & k & A & I) (a2 & k2 & A2 & I2) D. rows A. rows A2. rows D.
  six p; injection A as _ _ A _ _; rewrite <- A in I; cbn in I; intuition;
    match goal with X : (_, _) = _ |- _ => injection X as _ <- end; cbn in A2; injection A2 as _ _ A2 _ _; rewrite <- A2 in I2; cbn in I2; intuition;
    match goal with X : (_, _) = _ |- _ => injection X as _ <- end; cbn in D; injection D as _ _ _ _ D; congruence.
Qed.
Example rich_source der : has_source (rich der).
Proof. right. destruct der; discriminate. Qed.
Example rich_registered der k i a : In (k, i) (y_aux (rich der)) -> at_ (y_w (rich der)) i a -> a_issec (a_ln a) = false.
Proof.
  assert (Q : y_aux (rich der) = [("root", 0); ("solo", 4)]) by (destruct der; reflexivity). rewrite Q. cbn. intros I A. unfold at_ in A.
  intuition; match goal with X : (_, _) = _ |- _ => injection X as <- <- end; destruct der; injection A as <-; reflexivity.
Qed.
Example rich_wf der : wf_par toy (sc_params (sd_cls (y_sp (rich der)))) (sd_par (y_sp (rich der))) /\ norm_value toy (sd_par (y_sp (rich der))).
Proof.
  assert (Q : y_sp (rich der) = space (Some 5%Z)) by (destruct der; reflexivity). rewrite Q. split.
  - split; [|split].
    + intros k1 k2 d1 d2. cbn.
      repeat match goal with |- context [String.eqb ?a ?b] => destruct (String.eqb_spec a b) end;
        intros; subst; try congruence;
        repeat match goal with H : Some _ = Some _ |- _ => injection H as <- end; discriminate.
    + intros k. cbn. intros H. injection H as <-. eexists. split; reflexivity.
    + intros d. cbn. intros H. now injection H as <-.
  - intros k H. cbn in H. injection H as <-. discriminate.
Qed.
Example rich_flux der : exists s, nth_error (w_sels (y_w (rich der))) (y_flux (rich der)) = Some s /\ s_sampled s = false /\
  s_kind s = KLower toy /\ s_fflux s = true /\ par_is s "boundary" 20%Z /\ is_unity (s_kind s) = false.
Proof. exists (hard 20). split; [destruct der; reflexivity|]. repeat split. eexists. split; reflexivity. Qed.
Example rich_spatial der : exists s, y_ssel (rich der) = Some 7 /\ nth_error (w_sels (y_w (rich der))) 7 = Some s /\ s_sampled s = false.
Proof. exists (far 2 9). destruct der; repeat split; reflexivity. Qed.

(** ** Surveys *)
Definition survey (sg : option Z) (ns : option nat) (norm : bool) (y : synth toy) : res (population toy) * synth toy :=
  @draw_survey toy false 50 10 sg true ns norm y.
Definition shown_pop (p : population toy) (_ : synth toy) :=
  (p_ndet p, pa_sel (p_args p), sv_obs (p_dist p), sv_obs (p_lum p), sv_lat (p_flux p), sv_obs (p_flux p)).

Example rich_survey : exists p y', survey (Some 2%Z) (Some 6) false (rich false) = (Ok p, y') /\
  shown_pop p y' = (4%nat, [true; false; true; false; true; true], [9; 1; 3; 5; 7; 9], [4; 5; 6; 2; 3; 4],
                    [31; 49; 57; 15; 23; 31], [29; 49; 59; 13; 23; 33])%Z.
Proof. apply survey_run. vm_compute. reflexivity. Qed.
Example rich_derived : exists p y', survey (Some 2%Z) (Some 6) false (rich true) = (Ok p, y') /\
  shown_pop p y' = (5%nat, [true; false; true; true; true; true], [9; 1; 3; 5; 7; 9], [8; 9; 10; 11; 12; 13],
                    [71; 89; 97; 105; 113; 121], [69; 89; 99; 103; 113; 123])%Z.
Proof. apply survey_run. vm_compute. reflexivity. Qed.
(** The number of objects drawn, with the normalised density. *)
Example rich_drawn : exists p y', survey None None true (rich false) = (Ok p, y') /\ p_nobj p = 5.
Proof. apply survey_run. vm_compute. reflexivity. Qed.
Example rich_graph : exists g y', read_graph 10 (rich true) = (Ok g, y') /\
  gr_edges g = [("space", "obs_flux"); ("L", "obs_flux"); ("a", "root"); ("c", "a"); ("c", "c_obs"); ("b", "root");
                ("space", "b"); ("c", "b"); ("solo", "solo_obs"); ("space", "solo")].
Proof. apply (survey_run (read_graph 10 (rich true))) with (f := fun g _ => gr_edges g). vm_compute. reflexivity. Qed.
Example rich_numba der : Forall (fun a => numba_free (kind_of a)) (w_auxs (y_w (rich der))).
Proof.
  assert (Q : map (fun a => kind_of a) (w_auxs (y_w (rich der))) = [doublek; doublek; doublek; shiftk; densk; derk]) by (destruct der; reflexivity).
  apply Forall_forall. intros a I. assert (J : In (kind_of a) [doublek; doublek; doublek; shiftk; densk; derk]) by (rewrite <- Q; now apply (in_map (fun a => kind_of a))).
  assert (T : numba_free doublek /\ numba_free shiftk /\ numba_free densk /\ numba_free derk).
  { assert (U : forall vals v n g x, unif_true vals v n (g, x) = (fst (unif_true vals v n (g, x)), (fst (snd (unif_true vals v n (g, x))), x)))
      by (intros; unfold unif_true; cbn [fst snd]; destruct (rdraws _ n g); reflexivity).
    assert (U2 : forall vals v n g x x', fst (unif_true vals v n (g, x)) = fst (unif_true vals v n (g, x')) /\
      fst (snd (unif_true vals v n (g, x))) = fst (snd (unif_true vals v n (g, x'))))
      by (intros; unfold unif_true; cbn [fst snd]; destruct (rdraws _ n g); split; reflexivity).
    repeat split; intros; try apply U; try apply U2; reflexivity. }
  destruct T as (T1 & T2 & T3 & T4). cbn in J. destruct J as [<-|[<-|[<-|[<-|[<-|[<-|[]]]]]]]; assumption.
Qed.
Example rich_clean : exists y', clean 10 true (rich true) = (Ok tt, y') /\
  (exists p y2, survey None (Some 6) false y' = (Ok p, y2) /\ p_ndet p = 6).
Proof.
  destruct (survey_then (clean 10 true (rich true)) (survey None (Some 6) false) _ (fun p _ => p_ndet p) 6)
    as (u & y' & p & y2 & H & H2 & Q); [vm_compute; reflexivity|]. destruct u. exists y'. split; [exact H|]. exists p, y2. split; [exact H2|exact Q].
Qed.
Example rich_bare : y_spaces (rich true) = nil /\ y_nmodel (rich true) = 500 /\ y_name (rich true) = synth_name (y_sp (rich true)) (y_lum (rich true)).
Proof. repeat split. Qed.
(** The samplers listed in [truth]. *)
Example rich_listed : listed (rich false) 0 /\ listed (rich false) 2 /\ part (rich false) 3.
Proof.
  assert (D : depends (y_w (rich false)) 0 2) by (do 2 eexists; split; [reflexivity|cbn; auto]).
  split; [|split].
  - right. exists "root", 0. split; [cbn; auto|now left].
  - right. exists "root", 0. split; [cbn; auto|now right].
  - left. exists "root", 0. split; [cbn; auto|]. apply reaches_step with 2; [exact D|]. apply reaches_step with 3; [|constructor].
    do 2 eexists; split; [reflexivity|cbn; auto].
Qed.

(** ** Where the code falls short *)

(** [sampler] objects with the given secondaries, on their own. *)
Definition plain_synth (w : world toy) (top : list nat) : synth toy :=
  register (map IsSampler top) (@synth_new toy w (space (Some 5%Z)) m0 (Some lumd) m0 1234%Z).

(** C22: a distance-dependent secondary of a secondary makes the graph fail. *)
Definition deep : world toy := snd ((set_secondary 0 1 ;; set_secondary 1 2)
  (@World toy 5%Z 0%Z [unity toy "s0"; unity toy "s1"; unity toy "s2"]
    [@new_sampler toy "x" "D" doublek false false false false 0; @new_sampler toy "y" "D" doublek false false false false 1;
     @new_sampler toy "z" "U" unifk false true false false 2] [])).
Lemma deep_graph : exists y : synth toy, y = plain_synth deep [0] /\ acyclic (y_w y) /\ closed (y_w y) /\ keyed (y_w y) /\ named y /\ has_source y /\
  fst (read_graph 10 y) = Err AttributeError.
Proof.
  exists (plain_synth deep [0]). split; [reflexivity|].
  assert (T : map (fun a => (name_of a, a_sec (a_ln a), a_sel (a_ln a))) (w_auxs (y_w (plain_synth deep [0]))) = [("x", [("y", 1)], 0); ("y", [("z", 2)], 1); ("z", [], 2)]) by reflexivity.
  assert (AT : forall j b, at_ (y_w (plain_synth deep [0])) j b -> nth_error [("x", [("y", 1)], 0); ("y", [("z", 2)], 1); ("z", [], 2)] j = Some (name_of b, a_sec (a_ln b), a_sel (a_ln b))).
  { intros j b B. rewrite <- T. unfold at_ in B. now rewrite nth_error_map, B. }
  assert (C : forall j, (exists b, at_ (y_w (plain_synth deep [0])) j b) -> j < 3).
  { intros j (b & B). apply AT in B. assert (X : nth_error [("x", [("y", 1)], 0); ("y", [("z", 2)], 1); ("z", [], 2)] j <> None) by congruence. now apply nth_error_Some in X. }
  split; [|split; [|split; [|split; [|split]]]].
  - exists (fun i => 3 - i). intros i j (a & k & A & I). apply AT in A. destruct i as [|[|[|i]]]; cbn in A; try (destruct i; discriminate); injection A as _ A _; rewrite <- A in I; cbn in I;
      intuition; match goal with X : (_, _) = _ |- _ => injection X as _ <- end; lia.
  - intros i a A. apply AT in A. destruct i as [|[|[|i]]]; cbn in A; try (destruct i; discriminate); injection A as _ A A2; rewrite <- A, <- A2;
      (split; [eexists; reflexivity|]); intros k j I; cbn in I; intuition; match goal with X : (_, _) = _ |- _ => injection X as _ <- end; eexists; reflexivity.
  - intros i a k j A I. apply AT in A. destruct i as [|[|[|i]]]; cbn in A; try (destruct i; discriminate); injection A as _ A _; rewrite <- A in I; cbn in I;
      intuition; match goal with X : (_, _) = _ |- _ => injection X as <- <- end; eexists; split; reflexivity.
  - intros k i I. cbn in I. intuition. injection H as <- <-. eexists. split; reflexivity.
  - right. discriminate.
  - vm_compute. reflexivity.
Qed.
(** C22: the distance-dependent secondary "z" of a derived-luminosity sampler gets no
    edge from the spatial distribution. *)
Definition derived_far : world toy := snd (set_secondary 0 1
  (@World toy 5%Z 0%Z [unity toy "s0"; unity toy "s1"]
    [@new_sampler toy "L" "X" derk false false false false 0; @new_sampler toy "z" "U" unifk false true false false 1] [])).
Lemma derived_no_edge : exists (y : synth toy) g y', y = plain_synth derived_far [0] /\ y_der y = Some 0 /\ depends (y_w y) 0 1 /\
  (exists b, at_ (y_w y) 1 b /\ a_usesd (a_st b) = true /\ name_of b = "z") /\
  read_graph 10 y = (Ok g, y') /\ ~ In ("space", "z") (gr_edges g).
Proof.
  destruct (survey_run (read_graph 10 (plain_synth derived_far [0])) _ (fun g _ => gr_edges g) [("space", "obs_flux"); ("L", "obs_flux"); ("z", "L")])
    as (g & y' & H & Q); [vm_compute; reflexivity|].
  exists (plain_synth derived_far [0]), g, y'. split; [reflexivity|]. split; [reflexivity|]. split; [do 2 eexists; split; [reflexivity|cbn; auto]|].
  split; [eexists; repeat split; reflexivity|]. split; [exact H|]. rewrite Q. cbn. intuition discriminate.
Qed.

(** C23: a derived-luminosity sampler that is a secondary is accepted. *)
Definition tied : world toy := snd (set_secondary 0 1
  (@World toy 5%Z 0%Z [unity toy "s0"; unity toy "s1"]
    [@new_sampler toy "x" "D" doublek false false false false 0; @new_sampler toy "L" "X" derk false false false false 1] [])).
Lemma secondary_accepted : exists (y y' : synth toy), y_w y = w_set_sels (w_sels (y_w y)) tied /\
  (exists a, at_ (y_w y) 1 a /\ a_issec (a_ln a) = true) /\ add_quantity (IsSampler 1) y = (Ok tt, y') /\ y_der y' = Some 1.
Proof.
  exists (plain_synth tied [0]), (snd (add_quantity (IsSampler 1) (plain_synth tied [0]))). split; [reflexivity|].
  split; [eexists; split; reflexivity|]. split; reflexivity.
Qed.

(** C24: two samplers with the same name: the second replaces the first, whose
    selection is then ignored. *)
Definition twins : world toy := snd (set_secondary 1 2
  (@World toy 5%Z 0%Z [above 12; unity toy "s1"; unity toy "s2"]
    [@new_sampler toy "x" "U" unifk false false false false 0; @new_sampler toy "y" "D" doublek false false false false 1;
     @new_sampler toy "x" "U" unifk false false false false 2] [])).
Lemma twins_ignored : exists (y y' : synth toy) p, y = plain_synth twins [0; 1] /\ survey None (Some 3) false y = (Ok p, y') /\
  pa_sel (p_args p) = [true; true; true] /\ part y 0 /\
  exists b s, at_ (y_w y) 0 b /\ nth_error (w_sels (y_w y')) (a_sel (a_ln b)) = Some s /\ s_mask s = Some [false; false; false].
Proof.
  destruct (survey_run (survey None (Some 3) false (plain_synth twins [0; 1])) _
    (fun p y' => (pa_sel (p_args p), option_map (fun s => s_mask s) (nth_error (w_sels (y_w y')) 0))) ([true; true; true], Some (Some [false; false; false])))
    as (p & y' & H & Q); [vm_compute; reflexivity|].
  assert (Q1 := f_equal fst Q). assert (Q2 := f_equal snd Q). cbn [fst snd] in Q1, Q2.
  exists (plain_synth twins [0; 1]), y', p. split; [reflexivity|]. split; [exact H|]. split; [exact Q1|]. split.
  { left. exists "x", 0. split; [cbn; auto|constructor]. }
  destruct (nth_shown _ _ _ _ Q2) as (s & N & Q3). eexists. exists s. split; [reflexivity|]. split; [exact N|exact Q3].
Qed.

(** C25: a second survey keeps the selection of the first. *)
Definition limited : synth toy := snd (set_flux (Some 0) (@synth_new toy (@World toy 5%Z 0%Z [hard 20] [] []) (space (Some 5%Z)) m0 (Some lumd) m0 1234%Z)).
Lemma stale_flux : exists (p1 p2 : population toy) y1 y2 i f,
  survey None (Some 6) false limited = (Ok p1, y1) /\ survey (Some 20%Z) (Some 6) false y1 = (Ok p2, y2) /\
  nth_error (sv_obs (p_flux p2)) i = Some f /\ nth_error (pa_sel (p_args p2)) i = Some true /\ (f < 20)%Z.
Proof.
  destruct (survey_then (survey None (Some 6) false limited) (survey (Some 20%Z) (Some 6) false) _
    (fun p2 _ => (nth_error (sv_obs (p_flux p2)) 0, nth_error (pa_sel (p_args p2)) 0)) (Some 11%Z, Some true))
    as (p1 & y1 & p2 & y2 & H & H2 & Q); [vm_compute; reflexivity|].
  assert (Q1 := f_equal fst Q). assert (Q2 := f_equal snd Q). cbn [fst snd] in Q1, Q2.
  exists p1, p2, y1, y2, 0, 11%Z. split; [exact H|]. split; [exact H2|]. split; [exact Q1|]. split; [exact Q2|]. reflexivity.
Qed.

(** C26: a sampler that uses numba's generator is not seeded. *)
Definition numk : akind toy := obs_kind no_obs
  (fun _ _ n g => let (l, k) := rdraws (r_unif toy 0%Z 10%Z) n (snd g) in (Ok (Some l), (fst g, k))).
Definition numbed : world toy := @World toy 5%Z 0%Z [unity toy "s0"] [@new_sampler toy "x" "P" numk false false false false 0] [].
Lemma unseeded : exists (y : synth toy) p1 y1 p2 y2, y = plain_synth numbed [0] /\
  survey None (Some 3) false (@set_gens toy 5%Z 0%Z y) = (Ok p1, y1) /\ survey None (Some 3) false (@set_gens toy 5%Z 4%Z y) = (Ok p2, y2) /\
  option_map (fun v => sv_obs v) (dget (p_aux p1) "x") <> option_map (fun v => sv_obs v) (dget (p_aux p2) "x").
Proof.
  destruct (survey_run (survey None (Some 3) false (@set_gens toy 5%Z 0%Z (plain_synth numbed [0]))) _ (fun p _ => option_map (fun v => sv_obs v) (dget (p_aux p) "x")) (Some [0; 1; 2]%Z))
    as (p1 & y1 & H1 & Q1); [vm_compute; reflexivity|].
  destruct (survey_run (survey None (Some 3) false (@set_gens toy 5%Z 4%Z (plain_synth numbed [0]))) _ (fun p _ => option_map (fun v => sv_obs v) (dget (p_aux p) "x")) (Some [4; 5; 6]%Z))
    as (p2 & y2 & H2 & Q2); [vm_compute; reflexivity|].
  exists (plain_synth numbed [0]), p1, y1, p2, y2. split; [reflexivity|]. split; [exact H1|]. split; [exact H2|]. rewrite Q1, Q2. discriminate.
Qed.

(** C29: objects are detected, no distance is known: the survey raises. *)
Definition unlucky (p : Z) : synth toy := snd (set_dist (Some 0) (@synth_new toy (@World toy 5%Z 0%Z [coin p] [] []) (space (Some 5%Z)) m0 (Some lumd) m0 1234%Z)).
Lemma nothing_known : exists y', survey None (Some 4) false (unlucky 0) = (Err ValueError, y') /\
  exists p y2, survey None (Some 4) false (unlucky 1) = (Ok p, y2) /\ p_ndet p = 4.
Proof.
  destruct (survey_err (survey None (Some 4) false (unlucky 0)) ValueError) as (y' & H); [vm_compute; reflexivity|]. exists y'. split; [exact H|].
  apply (survey_run (survey None (Some 4) false (unlucky 1))) with (f := fun p _ => p_ndet p). vm_compute. reflexivity.
Qed.

(** C30: a normalisation parameter that was stored as [None] and has a default reads
    differently after a survey. *)
Definition unset : synth toy := @synth_new toy (@World toy 5%Z 0%Z [] [] [])
  (with_spar (sd_new radial "space") (PObj [("Lambda", None); ("r_max", Some 10%Z)] (Some "Lambda"))) m0 (Some lumd) m0 1234%Z.
Lemma norm_changed : exists p y', survey None None true unset = (Ok p, y') /\
  reading toy (sc_params radial) (sd_par (y_sp unset)) "Lambda" = Ok 5%Z /\
  reading toy (sc_params radial) (sd_par (y_sp y')) "Lambda" = Ok 1%Z.
Proof.
  destruct (survey_run (survey None None true unset) _ (fun _ y' => reading toy (sc_params radial) (sd_par (y_sp y')) "Lambda") (Ok 1%Z)) as (p & y' & H & Q); [vm_compute; reflexivity|].
  exists p, y'. split; [exact H|]. split; [reflexivity|exact Q].
Qed.

(** C32: model spaces and the graph survive [clean]. *)
Definition spaced : YM toy unit :=
  add_quantity (IsSampler 0) ;; bind (read_graph 10) (fun _ => @add_space toy "z" 0%Z 3%Z false ;; clean 10 true).
Definition before : synth toy :=
  @synth_new toy (@World toy 5%Z 0%Z [unity toy "s0"] [@new_sampler toy "x" "U" shiftk true false false false 0] []) (space (Some 5%Z)) m0 (Some lumd) m0 1234%Z.
Lemma clean_leaves : exists (y' : synth toy) p1 y1 p2 y2, spaced before = (Ok tt, y') /\
  survey None (Some 3) false y' = (Ok p1, y1) /\ survey None (Some 3) false before = (Ok p2, y2) /\
  option_map dkeys (pa_spaces (p_args p1)) = Some ["z"] /\ option_map dkeys (pa_spaces (p_args p2)) = Some [] /\
  In ("x", "x_obs") (gr_edges (pa_graph (p_args p1))) /\ ~ In ("x", "x_obs") (gr_edges (pa_graph (p_args p2))).
Proof.
  destruct (survey_then (spaced before) (survey None (Some 3) false) _ (fun p1 _ => (option_map dkeys (pa_spaces (p_args p1)), gr_edges (pa_graph (p_args p1))))
     (Some ["z"], [("space", "obs_flux"); ("lf", "obs_flux"); ("x", "x_obs")])) as (u & y' & p1 & y1 & H & H1 & Q); [vm_compute; reflexivity|]. destruct u.
  assert (Q3 := f_equal fst Q). assert (Q4 := f_equal snd Q). cbn [fst snd] in Q3, Q4.
  destruct (survey_run (survey None (Some 3) false before) _ (fun p _ => (option_map dkeys (pa_spaces (p_args p)), gr_edges (pa_graph (p_args p))))
     (Some [], [("space", "obs_flux"); ("lf", "obs_flux")])) as (p2 & y2 & H2 & Q2); [vm_compute; reflexivity|].
  assert (Q5 := f_equal fst Q2). assert (Q6 := f_equal snd Q2). cbn [fst snd] in Q5, Q6.
  exists y', p1, y1, p2, y2. split; [exact H|]. split; [exact H1|]. split; [exact H2|]. rewrite Q3, Q4, Q5, Q6.
  split; [reflexivity|]. split; [reflexivity|]. split; [right; right; now left|]. intros [X|[X|[]]]; discriminate.
Qed.

(** C34: a secondary of a secondary is missing from [truth]. *)
Lemma truth_lacks : exists p y', survey (Some 2%Z) (Some 6) false (rich false) = (Ok p, y') /\ part (rich false) 3 /\
  (exists b, at_ (y_w (rich false)) 3 b /\ name_of b = "c") /\ dget (pa_truth (p_args p)) "c" = None.
Proof.
  destruct (survey_run (survey (Some 2%Z) (Some 6) false (rich false)) _ (fun p _ => dget (pa_truth (p_args p)) "c") None) as (p & y' & H & Q); [vm_compute; reflexivity|].
  exists p, y'. split; [exact H|]. split; [apply rich_listed|]. split; [eexists; split; reflexivity|exact Q].
Qed.
(** C34: so is a parameter of the spatial distribution that was used with its default. *)
Lemma truth_lacks_default : exists (y : synth toy) p y', y = @synth_new toy (@World toy 5%Z 0%Z [] [] []) (space None) m0 (Some lumd) m0 1234%Z /\
  survey None (Some 4) false y = (Ok p, y') /\ reading toy (sc_params radial) (sd_par (y_sp y)) "Lambda" = Ok 5%Z /\
  dget (pa_truth (p_args p)) "space" = Some [("r_max", 10%Z)].
Proof.
  eexists. destruct (survey_run (survey None (Some 4) false (@synth_new toy (@World toy 5%Z 0%Z [] [] []) (space None) m0 (Some lumd) m0 1234%Z)) _
    (fun p _ => dget (pa_truth (p_args p)) "space") (Some [("r_max", 10%Z)])) as (p & y' & H & Q); [vm_compute; reflexivity|].
  exists p, y'. split; [reflexivity|]. split; [exact H|]. split; [reflexivity|exact Q].
Qed.

(** C60: the density of a sampler without a selection is left out. *)
Definition dense (s : selector toy) : world toy := @World toy 5%Z 0%Z [s] [@new_sampler toy "x" "N" densk true false false false 0] [].
Lemma density_left_out : exists p y' p2 y2 b,
  survey None (Some 3) false (plain_synth (dense (unity toy "s")) [0]) = (Ok p, y') /\ at_ (y_w y') 0 b /\ probability_of b = Some [3; 3; 3]%Z /\
  survey None (Some 3) false (plain_synth (dense (above 0)) [0]) = (Ok p2, y2) /\
  option_map (fun q => sv_lat q) (p_prob p) = Some [18; 2; 6]%Z /\ option_map (fun q => sv_lat q) (p_prob p2) = Some [54; 6; 18]%Z.
Proof.
  destruct (survey_run (survey None (Some 3) false (plain_synth (dense (unity toy "s")) [0])) _
    (fun p y' => (option_map (fun q => sv_lat q) (p_prob p), option_map (@probability_of toy) (nth_error (w_auxs (y_w y')) 0))) (Some [18; 2; 6]%Z, Some (Some [3; 3; 3]%Z)))
    as (p & y' & H & Q); [vm_compute; reflexivity|].
  assert (Q1 := f_equal fst Q). assert (Q2 := f_equal snd Q). cbn [fst snd] in Q1, Q2.
  destruct (survey_run (survey None (Some 3) false (plain_synth (dense (above 0)) [0])) _
    (fun p y' => (option_map (fun q => sv_lat q) (p_prob p))) (Some [54; 6; 18]%Z)) as (p2 & y2 & H2 & Q3); [vm_compute; reflexivity|].
  destruct (nth_shown _ _ _ _ Q2) as (b & B & Q4).
  exists p, y', p2, y2, b. split; [exact H|]. split; [exact B|]. split; [exact Q4|]. split; [exact H2|]. split; [exact Q1|exact Q3].
Qed.

(** C62: surveys without [n_samples]. *)
Definition counted (lam : option Z) : synth toy := @synth_new toy (@World toy 5%Z 0%Z [] [] []) (space lam) m0 (Some lumd) m0 1234%Z.
Example counted_survey lam : In lam [Some 5%Z; None] -> exists p y', survey None None false (counted lam) = (Ok p, y') /\ p_nobj p = 50.
Proof. intros [<-|[<-|[]]]; (apply (survey_run _ _ (fun p _ => p_nobj p)); vm_compute; reflexivity). Qed.
Example counted_normalised : exists p y', survey None None true (counted (Some 5%Z)) = (Ok p, y') /\ p_nobj p = 5.
Proof. apply (survey_run _ _ (fun p _ => p_nobj p)). vm_compute. reflexivity. Qed.
Example counted_untouched : exists p y', survey None None true (counted None) = (Ok p, y') /\ p_nobj p = 1.
Proof. apply (survey_run _ _ (fun p _ => p_nobj p)). vm_compute. reflexivity. Qed.
Lemma radial_wf lam : wf_par toy (sc_params radial) (sd_par (space (Some lam))).
Proof.
  split; [|split].
  - intros k1 k2 d1 d2. cbn [radial sc_params dget]. intros H1 H2 N1 N2.
    destruct (String.eqb_spec k1 "Lambda"); [|destruct (String.eqb_spec k1 "r_max"); [injection H1 as <-; discriminate|discriminate]].
    destruct (String.eqb_spec k2 "Lambda"); [congruence|destruct (String.eqb_spec k2 "r_max"); [injection H2 as <-; discriminate|discriminate]].
  - intros k H. injection H as <-. eexists. split; reflexivity.
  - intros d H. injection H as <-. reflexivity.
Qed.

(** C63: a class whose sky positions scatter the distances by a normal number. *)
Definition jitter : spcls toy := @SpCls toy (sc_params radial) ["Lambda"] (sc_dens radial) (sc_transform radial)
  (Some (fun ds n g => let (l, g') := rdraws (r_norm toy 0%Z 3%Z) n g in
     (Ok (@SpVals toy (map (fun q => (fst q + snd q)%Z) (combine ds l)) (repeat 0%Z n) (repeat 0%Z n)), g'))).
Definition jittered : synth toy :=
  @synth_new toy (@World toy 5%Z 0%Z [] [] []) (with_spar (sd_new jitter "space") (sd_par (space (Some 5%Z)))) m0 (Some lumd) m0 1234%Z.
Example jittered_survey : exists p y', survey None (Some 6) false jittered = (Ok p, y') /\ sv_lat (p_dist p) = [6; 1; 6; 2; 7; 12]%Z.
Proof. apply (survey_run _ _ (fun p _ => sv_lat (p_dist p))). vm_compute. reflexivity. Qed.
