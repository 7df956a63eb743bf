(** Concrete samplers over the integers. *)
From Verif Require Import Base BaseFacts Env ParamModel SelModel DistModel AuxModel AuxSpec AuxProofs AuxCycle AuxProps AuxMore Toy.
Open Scope string_scope.
Open Scope list_scope.

Definition obs_kind (obs : list Z -> view toy -> nat -> gens toy -> res (option (list Z)) * gens toy)
  (tr : list Z -> view toy -> nat -> gens toy -> res (option (list Z)) * gens toy) : akind toy :=
  @AKind toy [("mu", PDecl (Some 3%Z) None None true false)] ["mu"] tr nil obs nil (fun _ _ => Ok None) nil None.

(** Uniform integers below ten plus [mu]. *)
Definition unif_true : list Z -> view toy -> nat -> gens toy -> res (option (list Z)) * gens toy :=
  fun vals _ n g => let (l, g') := rdraws (r_unif toy 0%Z 10%Z) n (fst g) in
                    (Ok (Some (map (fun x => (x + hd 0%Z vals)%Z) l)), (g', snd g)).
Definition no_obs : list Z -> view toy -> nat -> gens toy -> res (option (list Z)) * gens toy := fun _ _ _ g => (Ok None, g).
Definition unifk : akind toy := obs_kind no_obs unif_true.
(** Observed value: the true value plus one. *)
Definition shiftk : akind toy := obs_kind
  (fun _ v _ g => (Ok (option_map (map (fun x => (x + 1)%Z)) (vw_true v)), g)) unif_true.
(** The first secondary's true values doubled. *)
Definition doublek : akind toy := obs_kind no_obs
  (fun _ v _ g => (match vw_sec v with
                   | (_, (Some t, _)) :: _ => Ok (Some (map (fun x => (2 * x)%Z) t))
                   | _ => Err TypeError end, g)).

Definition sp3 : spvals toy := @SpVals toy [1; 2; 3]%Z [0; 0; 0]%Z [0; 0; 0]%Z.
Definition above (b : Z) : selector toy :=
  with_par (new_selector (KLower toy) "LowerBound" "above" true false false false) (PObj [("boundary", Some b)] None).

(** Four samplers: "root" depends on "a" and "b", which both depend on "c"; "c" is
    observed and has a selection. *)
Definition four : world toy := @World toy 5%Z 0%Z
  [unity toy "s0"; unity toy "s1"; unity toy "s2"; above 7]
  [upd_dy (@dy_sp toy sp3) (@new_sampler toy "root" "D" doublek false false false false 0);
   @new_sampler toy "a" "D" doublek false false false false 1;
   @new_sampler toy "b" "D" doublek false true false false 2;
   @new_sampler toy "c" "U" shiftk true false false false 3] [].
Definition diamond : world toy :=
  snd ((set_secondary 0 1 ;; set_secondary 0 2 ;; set_secondary 1 3 ;; set_secondary 2 3) four).

Lemma run_ok {S} (x : res unit * S) : fst x = Ok tt -> x = (Ok tt, snd x).
Proof. destruct x. cbn. now intros ->. Qed.

Lemma nth_shown {A B} (f : A -> B) l n v : option_map f (nth_error l n) = Some v -> exists a, nth_error l n = Some a /\ f a = v.
Proof. destruct (nth_error l n) as [a|]; [|discriminate]. cbn. intros H. injection H as <-. eauto. Qed.

Lemma diamond_depends i j : depends diamond i j <-> (i = 0 /\ (j = 1 \/ j = 2)) \/ ((i = 1 \/ i = 2) /\ j = 3).
Proof.
  split.
  - intros (a & k & A & I). unfold at_ in A.
    destruct i as [|[|[|[|i]]]]; cbn in A; try discriminate; try (destruct i; discriminate);
      injection A as <-; cbn in I; intuition (try easy; try (injection H as _ <-; auto); try (injection H0 as _ <-; auto)).
  - intros [(-> & [-> | ->])|([-> | ->] & ->)]; (do 2 eexists; split; [reflexivity|cbn; auto]).
Qed.
Example diamond_acyclic : acyclic diamond.
Proof. exists (fun i => 3 - i). intros i j D. apply diamond_depends in D. lia. Qed.
Example diamond_rank : forall i j, depends diamond i j -> 3 - j < 3 - i.
Proof. intros i j D. apply diamond_depends in D. lia. Qed.
Example diamond_own : own_selectors diamond.
Proof.
  intros i j a b A B. unfold at_ in *.
  destruct i as [|[|[|[|i]]]]; cbn in A; try discriminate; try (destruct i; discriminate); injection A as <-;
  destruct j as [|[|[|[|j]]]]; cbn in B; try discriminate; try (destruct j; discriminate); injection B as <-; cbn; intros H; congruence.
Qed.
Example diamond_closed : closed diamond.
Proof.
  intros i a A. unfold at_ in *.
  destruct i as [|[|[|[|i]]]]; cbn in A; try discriminate; try (destruct i; discriminate); injection A as <-;
  (split; [eexists; reflexivity|]); cbn; intros k j I; intuition; try (injection H as _ <-); try (injection H0 as _ <-); eexists; reflexivity.
Qed.
Example diamond_keyed : keyed diamond.
Proof.
  intros i a k j A. unfold at_ in *.
  destruct i as [|[|[|[|i]]]]; cbn in A; try discriminate; try (destruct i; discriminate); injection A as <-;
  cbn; intros I; intuition; try (injection H as <- <-); try (injection H0 as <- <-); eexists; split; reflexivity.
Qed.
Example diamond_unsampled : forall j, ~ sampled diamond j.
Proof.
  intros j (a & A & S). unfold at_ in A.
  destruct j as [|[|[|[|j]]]]; cbn in A; try discriminate; try (destruct j; discriminate); injection A as <-; discriminate.
Qed.

(** The draw succeeds and evaluates c, a, b, root. *)
Example diamond_draw : exists w', aux_draw false 10 0 3 diamond = (Ok tt, w') /\ w_log w' = [3; 1; 2; 0]%nat /\
  map (fun a => a_true (a_dy a)) (w_auxs w') = [Some [32; 36; 40]; Some [16; 18; 20]; Some [16; 18; 20]; Some [8; 9; 10]]%Z.
Proof.
  exists (snd (aux_draw false 10 0 3 diamond)). split; [apply run_ok; vm_compute; reflexivity|].
  split; vm_compute; reflexivity.
Qed.
(** Reset after that draw. *)
Example diamond_reset : fst ((aux_draw false 10 0 3 ;; aux_reset 10 0) diamond) = Ok tt.
Proof. vm_compute. reflexivity. Qed.
(** Collected properties. *)
Example diamond_props : match fst (sec_props 10 (w_auxs diamond) 0 "root" None) with
  | Ok s => dkeys s = ["c"; "a"; "b"; "root"] | Err _ => False end.
Proof. vm_compute. reflexivity. Qed.

(** Circular dependency of two samplers, made through the API. *)
Definition ring : world toy :=
  snd ((set_secondary 0 1 ;; set_secondary 1 0)
    (@World toy 5%Z 0%Z [unity toy "s0"; unity toy "s1"]
      [upd_dy (@dy_sp toy sp3) (@new_sampler toy "x" "D" doublek false false false false 0);
       @new_sampler toy "y" "D" doublek false false false false 1] [])).
Example ring_endless : endless (fun j => j = 0 \/ j = 1) ring.
Proof. intros j [-> | ->]; do 5 eexists; repeat split; try reflexivity; auto. Qed.
Example ring_cycle : pending ring 0 1 /\ depends ring 1 0.
Proof.
  assert (N0 : ~ sampled ring 0) by (intros (a & A & S); cbn in A; injection A as <-; discriminate).
  assert (N1 : ~ sampled ring 1) by (intros (a & A & S); cbn in A; injection A as <-; discriminate).
  split; [apply pending_step with 1; [easy| |now constructor]|]; do 2 eexists; (split; [reflexivity|cbn; auto]).
Qed.

(** Two samplers sharing one selector: the mask left is that of the sampler drawn
    last, and does not belong to the observed values of the first. *)
Definition shared : world toy :=
  snd (set_secondary 0 1 (@World toy 5%Z 0%Z [above 9]
    [upd_dy (@dy_sp toy sp3) (@new_sampler toy "p" "D" doublek false false false false 0);
     @new_sampler toy "q" "U" unifk false false false false 0] [])).
Example shared_mask : exists w', aux_draw false 10 0 3 shared = (Ok tt, w') /\
  acyclic shared /\ (forall j, ~ sampled shared j) /\
  (exists b s, at_ w' 1 b /\ a_obs (a_dy b) = Some [8; 9; 10]%Z /\
     nth_error (w_sels w') (a_sel (a_ln b)) = Some s /\ s_mask s = Some [true; true; true]).
Proof.
  exists (snd (aux_draw false 10 0 3 shared)). split; [apply run_ok; vm_compute; reflexivity|].
  split; [|split].
  - exists (fun i => 1 - i). intros i j (a & k & A & I). unfold at_ in A.
    destruct i as [|[|i]]; cbn in A; try discriminate; try (destruct i; discriminate); injection A as <-; cbn in I;
    intuition. injection H as _ <-. lia.
  - intros j (a & A & S). unfold at_ in A.
    destruct j as [|[|j]]; cbn in A; try discriminate; try (destruct j; discriminate); injection A as <-; discriminate.
  - set (w' := snd (aux_draw false 10 0 3 shared)).
    destruct (nth_shown (fun a => (a_obs (a_dy a), a_sel (a_ln a))) (w_auxs w') 1 (Some [8; 9; 10]%Z, 0)) as (b & B & HB);
      [vm_compute; reflexivity|].
    destruct (nth_shown (@s_mask toy) (w_sels w') 0 (Some [true; true; true])) as (x & X & HX); [vm_compute; reflexivity|].
    injection HB as H1 H2. exists b, x. rewrite H2. auto.
Qed.

(** A secondary whose name is the empty string is lost when properties are collected. *)
Definition nameless : world toy :=
  snd ((set_secondary 0 1 ;; set_secondary 0 2)
    (@World toy 5%Z 0%Z [unity toy "s0"; unity toy "s1"; unity toy "s2"]
      [upd_dy (@dy_sp toy sp3) (@new_sampler toy "x" "D" doublek false false false false 0);
       @new_sampler toy "" "U" unifk false false false false 1;
       @new_sampler toy "z" "U" unifk false false false false 2] [])).
Example nameless_lost : exists s, sec_props 10 (w_auxs nameless) 0 "x" None = (Ok s, None) /\
  reaches nameless 0 1 /\ dkeys s = ["z"; "x"].
Proof.
  assert (HX : match fst (sec_props 10 (w_auxs nameless) 0 "x" None) with Ok s => dkeys s | Err _ => nil end = ["z"; "x"])
    by (vm_compute; reflexivity).
  assert (HY : (is_ok (fst (sec_props 10 (w_auxs nameless) 0 "x" None)), snd (sec_props 10 (w_auxs nameless) 0 "x" None)) = (true, None))
    by (vm_compute; reflexivity).
  destruct (sec_props 10 (w_auxs nameless) 0 "x" None) as [[s|e] g]; [|discriminate].
  cbn in HX, HY. injection HY as ->. exists s. split; [reflexivity|]. split; [|exact HX].
  apply reaches_step with 1; [|constructor]. do 2 eexists. split; [reflexivity|cbn; auto].
Qed.

Lemma shared_selector :
  exists (w w' : world toy), acyclic w /\ (forall j, ~ sampled w j) /\
    aux_draw false 10 0 3 w = (Ok tt, w') /\
    exists b s, at_ w' 1 b /\ reaches w 0 1 /\ a_obs (a_dy b) = Some [8; 9; 10]%Z /\
      nth_error (w_sels w') (a_sel (a_ln b)) = Some s /\
      dget (po_store (s_par s)) "boundary" = Some (Some 9%Z) /\ s_mask s = Some [true; true; true].
Proof.
  destruct shared_mask as (w' & D & AC & NS & b & s & B & O & S & M).
  exists shared, w'. split; [easy|]. split; [easy|]. split; [easy|]. exists b, s. split; [easy|]. split.
  { apply reaches_step with 1; [|constructor]. do 2 eexists. split; [reflexivity|cbn; auto]. }
  split; [easy|]. split; [easy|]. split; [|easy].
  assert (X : w' = snd (aux_draw false 10 0 3 shared)) by now rewrite D.
  assert (L : a_sel (a_ln b) = 0).
  { assert (Y : option_map (fun a => a_sel (a_ln a)) (nth_error (w_auxs w') 1) = Some 0)
      by (rewrite X; vm_compute; reflexivity).
    unfold at_ in B. rewrite B in Y. cbn in Y. congruence. }
  rewrite L in S.
  assert (Y : option_map (fun s => dget (po_store (s_par s)) "boundary") (nth_error (w_sels w') 0) = Some (Some (Some 9%Z)))
    by (rewrite X; vm_compute; reflexivity).
  rewrite S in Y. cbn in Y. injection Y as Y. exact Y.
Qed.

Lemma empty_name_lost : exists (w : world toy) s,
  sec_props 10 (w_auxs w) 0 "x" None = (Ok s, None) /\
  exists b, at_ w 1 b /\ reaches w 0 1 /\ ~ In (name_of b) (dkeys s).
Proof.
  destruct nameless_lost as (s & H & R & K). exists nameless, s. split; [exact H|].
  eexists. split; [reflexivity|]. split; [exact R|]. rewrite K. cbn. intuition discriminate.
Qed.
