(** Concrete cases for the distance theorems, over the integers. *)
From Verif Require Import Base Env ParamModel DistModel DistSpec DistProofs Toy.
Open Scope string_scope.

(** Density [Lambda * r]: a normalisation parameter with default 5 and an [r_max]
    without default. *)
Definition linear : spcls toy := @SpCls toy
  [("Lambda", PDecl (Some 5%Z) (Some 0%Z) None true true);
   ("r_max", PDecl None (Some 0%Z) None false false)]
  ["Lambda"]
  (fun vals r => match vals with [l] => Ok (l * r)%Z | _ => Err ValueError end)
  (fun l r => l) None.
Definition line (lam : option Z) : sdist toy :=
  with_spar (sd_new linear "line")
    (PObj (match lam with Some _ => [("Lambda", lam); ("r_max", Some 10%Z)] | None => [("r_max", Some 10%Z)] end)
          (match lam with Some _ => Some "Lambda" | None => None end)).

(** Constant density [Lambda]. *)
Definition flat : spcls toy := @SpCls toy (sc_params linear) ["Lambda"]
  (fun vals r => match vals with l :: _ => Ok l | _ => Ok 0%Z end) (fun l r => l) None.
Definition flatd (lam : Z) : sdist toy :=
  with_spar (sd_new flat "flat") (PObj [("Lambda", Some lam); ("r_max", Some 10%Z)] (Some "Lambda")).

Example toy_laws : le_lt_trans toy /\ unif_range toy /\ unif_nonneg toy /\ max_nonneg toy /\
  div_nonneg toy /\ div_pos toy.
Proof.
  unfold le_lt_trans, unif_range, unif_nonneg, max_nonneg, div_nonneg, div_pos. cbn [vle vlt r_unif vdiv vmax2 vofnat V Rst toy].
  repeat split; try (intros; unfold toy_unif in *; cbn [fst] in *; cbn in *).
  - lia.
  - destruct (0 <? hi)%Z eqn:L; [|lia]. cbn. pose proof (Z.mod_pos_bound g (hi - 0)). lia.
  - destruct (0 <? hi)%Z eqn:L; [|lia]. cbn. pose proof (Z.mod_pos_bound g (hi - 0)). lia.
  - destruct (0 <? hi)%Z eqn:L; cbn; [|lia]. pose proof (Z.mod_pos_bound g (hi - 0)). lia.
  - lia.
  - apply Z.leb_le. apply Z.div_pos; lia.
  - apply Z.leb_le in H. destruct (Z.eq_dec a 0) as [->|]; [|lia]. cbn in H0. destruct b; discriminate.
Qed.

Example line_wf lam : wf_par toy (sc_params linear) (sd_par (line lam)).
Proof.
  split; [|split].
  - intros k1 k2 d1 d2. cbn.
    repeat match goal with |- context [String.eqb ?a ?b] => destruct (String.eqb_spec a b) end;
      intros; subst; try congruence;
      repeat match goal with H : Some _ = Some _ |- _ => injection H as <- end; discriminate.
  - intros k. destruct lam; cbn; [|discriminate]. intros H. injection H as <-.
    eexists. split; reflexivity.
  - intros d. cbn. intros H. now injection H as <-.
Qed.

(** The visible outcome of a run, and how a run is recovered from it. *)
Definition shown (x : res unit * (sdist toy * Rst toy)) : res unit * option (list Z) * option (list Z) :=
  (fst x, sd_dist (fst (snd x)), sd_prob (fst (snd x))).
Lemma shown_run x r a b : shown x = (r, a, b) ->
  exists d' g', x = (r, (d', g')) /\ sd_dist d' = a /\ sd_prob d' = b.
Proof. destruct x as [r' [d' g']]. unfold shown. cbn. intros H. injection H as -> <- <-. eauto. Qed.

(** A draw that accepts some proposals and rejects others. *)
Example line_draw :
  exists d' g', draw_distance false 20 3 true (line (Some 5%Z), 3%Z) = (Ok tt, (d', g')) /\
  sd_dist d' = Some [4; 6; 8]%Z /\ sd_prob d' = Some [0; 0; 0]%Z.
Proof. apply shown_run. vm_compute. reflexivity. Qed.

Example line_hyps :
  reading toy (sc_params linear) (sd_par (line (Some 5%Z))) "r_max" = Ok 10%Z /\
  values toy (sc_params linear) (sd_par (line (Some 5%Z))) (sc_reads linear) [5%Z] /\
  unit_values toy (sc_params linear) (sd_par (line (Some 5%Z))) (sc_reads linear) [1%Z] /\
  quad toy (sc_dens linear [1%Z]) 0%Z 10%Z = Ok 10%Z.
Proof. repeat split; repeat constructor. Qed.

(** With normalisation the two code paths give different distances. *)
Lemma progress_matters :
  exists (d d1 d2 : sdist toy) g g1 g2 fuel,
    wf_par toy (sc_params (sd_cls d)) (sd_par d) /\
    draw_distance true fuel 3 true (d, g) = (Ok tt, (d1, g1)) /\
    draw_distance false fuel 3 true (d, g) = (Ok tt, (d2, g2)) /\
    sd_dist d1 <> sd_dist d2.
Proof.
  destruct (shown_run (draw_distance true 40 3 true (line (Some 5%Z), 9%Z)) (Ok tt) (Some [6;8;6]%Z) (Some [0;0;0]%Z)) as (d1 & g1 & H1 & D1 & _).
  { vm_compute. reflexivity. }
  destruct (shown_run (draw_distance false 40 3 true (line (Some 5%Z), 9%Z)) (Ok tt) (Some [2;4;6]%Z) (Some [0;0;0]%Z)) as (d2 & g2 & H2 & D2 & _).
  { vm_compute. reflexivity. }
  exists (line (Some 5%Z)), d1, d2, 9%Z, g1, g2, 40.
  split; [apply line_wf|]. split; [exact H1|]. split; [exact H2|]. rewrite D1, D2. discriminate.
Qed.

(** An exception while normalising leaves the parameter at one. *)
Lemma exception_changes_norm :
  exists (d d' : sdist toy) g g',
    wf_par toy (sc_params (sd_cls d)) (sd_par d) /\
    draw_distance false 5 1 true (d, g) = (Err AssertionError, (d', g')) /\
    reading toy (sc_params (sd_cls d)) (sd_par d) "Lambda" = Ok 7%Z /\
    reading toy (sc_params (sd_cls d')) (sd_par d') "Lambda" = Ok 1%Z.
Proof.
  set (d := with_spar (line None) (PObj [("Lambda", Some 7%Z)] (Some "Lambda"))).
  destruct (draw_distance false 5 1 true (d, 0%Z : Rst toy)) as [r [d' g']] eqn:H.
  exists d, d', 0%Z, g'.
  split; [exact (conj (proj1 (line_wf None)) (conj (proj1 (proj2 (line_wf (Some 5%Z)))) (proj2 (proj2 (line_wf None)))))|].
  assert (K : (fst (draw_distance false 5 1 true (d, 0%Z : Rst toy)),
               reading toy (sc_params linear) (sd_par (fst (snd (draw_distance false 5 1 true (d, 0%Z : Rst toy))))) "Lambda")
              = (Err AssertionError, Ok 1%Z)) by (vm_compute; reflexivity).
  assert (C : sd_cls (fst (snd (draw_distance false 5 1 true (d, 0%Z : Rst toy)))) = linear) by reflexivity.
  rewrite H in *. cbn [fst snd] in *. injection K as -> K. rewrite C.
  split; [reflexivity|]. split; [reflexivity|exact K].
Qed.

(** Normalising with a normalisation parameter that still has its default and was
    never read raises. *)
Lemma unread_default_raises :
  exists (d d' : sdist toy) g g',
    wf_par toy (sc_params (sd_cls d)) (sd_par d) /\
    reading toy (sc_params (sd_cls d)) (sd_par d) "Lambda" = Ok 5%Z /\
    draw_distance false 20 1 false (d, g) = (Ok tt, (d', g')) /\
    fst (draw_distance false 20 1 true (d, g)) = Err NameError.
Proof.
  destruct (shown_run (draw_distance false 20 1 false (line None, 3%Z)) (Ok tt) (Some [4]%Z) (Some [4]%Z)) as (d1 & g1 & H1 & _).
  { vm_compute. reflexivity. }
  exists (line None), d1, 3%Z, g1.
  split; [apply line_wf|]. split; [reflexivity|]. split; [exact H1|]. vm_compute. reflexivity.
Qed.

Lemma toy_evaluated r : evaluated toy 10%Z r -> (0 <= r <= 10)%Z.
Proof.
  assert (G : forallb (fun r => (0 <=? r)%Z && (r <=? 10)%Z) (grid toy 10%Z) = true) by (vm_compute; reflexivity).
  rewrite forallb_forall in G. intros [I|[H1 H2]].
  - specialize (G r I). lia.
  - cbn in H1, H2. lia.
Qed.
Example line_nonneg : nonneg_fun toy 10%Z (sc_dens linear [5%Z]).
Proof. intros r d H Q. apply toy_evaluated in H. cbn in Q. injection Q as <-. apply Z.leb_le. change (0 <= 5 * r)%Z. lia. Qed.
Example flat_zero : nonneg_fun toy 10%Z (sc_dens flat [0%Z]) /\ nowhere_pos toy (sc_dens flat [0%Z]) /\ zero_upto toy 10%Z (sc_dens flat [0%Z]) /\
  reading toy (sc_params flat) (sd_par (flatd 0)) "r_max" = Ok 10%Z /\
  values toy (sc_params flat) (sd_par (flatd 0)) (sc_reads flat) [0%Z].
Proof.
  split; [intros r d _ H; cbn in H; injection H as <-; reflexivity|]. split; [intros r d H; cbn in H; injection H as <-; reflexivity|].
  split; [intros r d _ _ H; cbn in H; injection H as <-; reflexivity|]. repeat split; repeat constructor.
Qed.

(** The hypotheses of the termination theorem: flat positive density, every
    proposal is accepted. *)
Example flat_returns : exists ys ymax,
  rmapM (dens_norm flat None [5%Z]) (grid toy 10%Z) = Ok ys /\ np_max toy ys = Ok ymax /\
  norm_used flat /\ norm_stored toy (sc_params flat) (sd_par (flatd 5)) /\
  (forall vs r, exists x, sc_dens flat vs r = Ok x) /\
  forall g, exists k, accepts_within toy k (sc_dens flat [5%Z]) ymax 10%Z g.
Proof.
  eexists. exists 5%Z. split; [vm_compute; reflexivity|]. split; [vm_compute; reflexivity|].
  split.
  { intros k d. cbn [sc_params flat linear dget]. cbn.
    destruct (String.eqb k "Lambda") eqn:K; [apply String.eqb_eq in K; subst; now left|].
    destruct (String.eqb k "r_max"); [|discriminate]. intros H. injection H as <-. discriminate. }
  split; [left; do 2 eexists; split; reflexivity|].
  split; [intros [|v vs] r; eexists; reflexivity|].
  intros g. exists 1. cbn. exists 5%Z. split; [reflexivity|]. left.
  pose proof (Z.mod_pos_bound g 5). unfold toy_unif. cbn. apply Z.ltb_lt. lia.
Qed.
