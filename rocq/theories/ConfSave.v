(** What [to_dict] returns describes the synth. *)
From Coq Require Import Permutation.
From Verif Require Import Base BaseFacts Env ParamModel SelModel DistModel AuxModel SynthModel Tree ConfModel ConfSpec ConfProofs ConfLink ConfLoad ConfRead.
Open Scope string_scope.

Section S.
Variable E : env.
Notation V := (V E).
Notation synth := (synth E).
Notation sampler := (sampler E).
Notation world := (world E).
Notation tree := (tree V).

(** ** One entry *)
Lemma fold_dset (l : dict V) : forall d : dict tree, NoDup (dkeys l) -> (forall k, In k (dkeys l) -> ~ In k (dkeys d)) ->
  fold_left (fun d kv => dset d (fst kv) (TNum (snd kv))) l d = (d ++ nums E l)%list.
Proof.
  induction l as [|[k v] l IH]; intros d Hn Hf; cbn [fold_left nums map fst snd]; [now rewrite app_nil_r|].
  cbn in Hn. inversion Hn as [|? ? Hni Hn']; subst. rewrite dset_fresh by (apply dget_None, Hf; now left).
  rewrite IH; [now rewrite <- app_assoc|exact Hn'|]. intros k' Hin Hin'. unfold dkeys in Hin'. rewrite map_app in Hin'.
  apply in_app_or in Hin'. destruct Hin' as [H|[<-|[]]]; [now apply (Hf k' (or_intror Hin))|contradiction].
Qed.
Definition full_entry (ty : string) (a : sampler) (s : selector E) : dict tree :=
  ([("type", TStr ty); ("observed", TBool (a_observed (a_st a)))] ++ nums E (truth (a_par (a_dy a))) ++
   [("secondary", TList (map (fun kv => TStr (fst kv)) (a_sec (a_ln a)))); ("selection", TDict [(s_type s, tdict (truth (s_par s)))])])%list.
Definition clear (a : sampler) : Prop :=
  NoDup (dkeys (truth (a_par (a_dy a)))) /\ forall k, In k (dkeys (truth (a_par (a_dy a)))) -> ~ In k reserved.
Lemma conf_entry_full ty sels a e : clear a -> conf_entry ty sels a = Ok e ->
  exists s, nth_error sels (a_sel (a_ln a)) = Some s /\ e = TDict (full_entry ty a s).
Proof.
  intros [Hn Hr] H. unfold conf_entry in H. destruct (nth_error sels (a_sel (a_ln a))) as [s|] eqn:Hs; [|discriminate].
  cbn [of_opt rbind] in H. injection H as <-. exists s. split; [reflexivity|]. f_equal.
  rewrite fold_dset; [|exact Hn|].
  2:{ intros k Hk. apply Hr in Hk. intros [<-|[<-|[]]]; apply Hk; cbn; tauto. }
  unfold full_entry. rewrite (dset_fresh _ "secondary").
  2:{ apply dget_None. unfold dkeys. rewrite map_app, in_app_iff. fold (dkeys (nums E (truth (a_par (a_dy a))))). rewrite keys_nums.
      intros [[H|[H|[]]]|H]; try discriminate. apply (Hr _ H). cbn. tauto. }
  rewrite (dset_fresh _ "selection").
  2:{ apply dget_None. unfold dkeys. rewrite !map_app, !in_app_iff. fold (dkeys (nums E (truth (a_par (a_dy a))))). rewrite keys_nums.
      intros [[[H|[H|[]]]|H]|[H|[]]]; try discriminate. apply (Hr _ H). cbn. tauto. }
  rewrite <- !app_assoc. reflexivity.
Qed.
Lemma full_nodup ty a s : clear a -> NoDup (dkeys (full_entry ty a s)).
Proof.
  intros [Hn Hr]. unfold full_entry, dkeys. rewrite !map_app. fold (dkeys (nums E (truth (a_par (a_dy a))))). rewrite keys_nums. cbn [map fst app].
  apply NoDup_cons; [|apply NoDup_cons].
  - intros [H|H]; [discriminate|]. apply in_app_or in H. destruct H as [H|[H|[H|[]]]]; try discriminate. apply (Hr _ H). cbn. tauto.
  - intros H. apply in_app_or in H. destruct H as [H|[H|[H|[]]]]; try discriminate. apply (Hr _ H). cbn. tauto.
  - apply (Permutation_NoDup (Permutation_app_comm ["secondary"; "selection"] _)). cbn [app].
    apply NoDup_cons; [|apply NoDup_cons; [|exact Hn]].
    + intros [H|H]; [discriminate|]. apply (Hr _ H). cbn. tauto.
    + intros H. apply (Hr _ H). cbn. tauto.
Qed.
Lemma ddel_app (d d' : dict tree) k : ~ In k (dkeys d) -> ddel (d ++ d')%list k = (d ++ ddel d' k)%list.
Proof.
  induction d as [|[k' v] d IH]; intros H; [reflexivity|]. cbn [app ddel]. destruct (String.eqb_spec k k') as [->|N].
  - elim H. now left.
  - f_equal. apply IH. intros H'. apply H. now right.
Qed.
Lemma full_entry_of y a s : clear a -> nth_error (w_sels (y_w y)) (a_sel (a_ln a)) = Some s -> NoDup (dkeys (truth (s_par s))) ->
  entry_of E eq y a (full_entry (a_type (a_st a)) a s).
Proof.
  intros [Hn Hr] Hs Hns. exists s, (truth (a_par (a_dy a))), (truth (s_par s)). split; [exact Hs|].
  assert (Hno : forall k, In k reserved -> ~ In k (dkeys (nums E (truth (a_par (a_dy a)))))).
  { intros k Hk Hin. rewrite keys_nums in Hin. now apply (Hr k). }
  assert (Hno' : forall k, In k reserved -> dget (nums E (truth (a_par (a_dy a)))) k = None).
  { intros k Hk. now apply dget_None, Hno. }
  unfold full_entry. split; [reflexivity|]. split; [reflexivity|].
  split; [rewrite !dget_app, Hno' by (cbn; tauto); reflexivity|].
  split; [rewrite !dget_app, Hno' by (cbn; tauto); reflexivity|].
  split; [rewrite !dget_app, Hno' by (cbn; tauto); reflexivity|].
  split; [|auto].
  set (sec := TList _). set (sel := TDict [(s_type s, _)]). set (rest := (nums E _ ++ _)%list).
  change (ddel (ddel (ddel (ddel ([("type", TStr (a_type (a_st a))); ("observed", TBool (a_observed (a_st a)))] ++ rest)%list "type") "observed") "selection") "secondary")
    with (ddel (ddel rest "selection") "secondary"). unfold rest.
  rewrite ddel_app by (apply Hno; cbn; tauto). change (ddel [("secondary", sec); ("selection", sel)] "selection") with [("secondary", sec)].
  rewrite ddel_app by (apply Hno; cbn; tauto). change (ddel [("secondary", sec)] "secondary") with (@nil (string * tree)). apply app_nil_r.
Qed.

(** ** The traversal *)
Definition objs (n : nat) (w : world) : dict nat -> dict tree -> res (dict tree) := fix go l acc :=
  match l with
  | nil => Ok acc
  | (_, j) :: r => let? acc' := sec_objects n w j acc in go r acc'
  end.
Lemma objs_cons n w k j r acc : objs n w ((k, j) :: r) acc = let? acc' := sec_objects n w j acc in objs n w r acc'.
Proof. reflexivity. Qed.
Lemma sec_objects_S n w i acc : sec_objects (S n) w i acc =
  let? a := of_opt Unmodelled (nth_error (w_auxs w) i) in
  let? acc1 := objs n w (a_sec (a_ln a)) acc in
  let? e := conf_entry (a_type (a_st a)) (w_sels w) a in
  Ok (dset acc1 (name_of a) e).
Proof. reflexivity. Qed.
Definition tops (rl : nat) (w : world) : dict nat -> dict tree -> res (dict tree) := fix go l acc :=
  match l with
  | nil => Ok acc
  | (k, i) :: r =>
      let? a := of_opt Unmodelled (nth_error (w_auxs w) i) in
      let? acc' := conf_top rl w k (a_type (a_st a)) i acc in go r acc'
  end.
Lemma tops_cons rl w k i r acc : tops rl w ((k, i) :: r) acc =
  let? a := of_opt Unmodelled (nth_error (w_auxs w) i) in
  let? acc' := conf_top rl w k (a_type (a_st a)) i acc in tops rl w r acc'.
Proof. reflexivity. Qed.

(** What one can come to from a sampler. *)
Inductive below (w : world) : nat -> nat -> Prop :=
| below_refl i : below w i i
| below_step i a k m j : nth_error (w_auxs w) i = Some a -> In (k, m) (a_sec (a_ln a)) -> below w m j -> below w i j.
Lemma below_snoc w i j a k m : below w i j -> nth_error (w_auxs w) j = Some a -> In (k, m) (a_sec (a_ln a)) -> below w i m.
Proof. induction 1; intros; eapply below_step; eauto; constructor. Qed.

Lemma keys_dset {A} (d : dict A) k v k' : In k' (dkeys (dset d k v)) <-> k' = k \/ In k' (dkeys d).
Proof.
  induction d as [|[k2 v2] d IH]; cbn [dset dkeys map fst].
  - cbn. split; intros [H|[]]; auto.
  - destruct (String.eqb_spec k k2) as [->|N]; cbn [dkeys map fst In].
    + split; [intros [H|H]; auto|intros [H|[H|H]]; auto].
    + rewrite IH. tauto.
Qed.
Lemma keys_dset_eq {A} (d : dict A) k v : dkeys (dset d k v) = if dmem d k then dkeys d else (dkeys d ++ [k])%list.
Proof.
  unfold dmem. induction d as [|[k2 v2] d IH]; cbn [dset dkeys map fst dget]; [reflexivity|].
  destruct (String.eqb_spec k k2) as [->|N]; [reflexivity|]. cbn [dkeys map fst]. unfold dkeys in IH. rewrite IH.
  now destruct (dget d k).
Qed.
Lemma NoDup_dset {A} (d : dict A) k v : NoDup (dkeys d) -> NoDup (dkeys (dset d k v)).
Proof.
  induction d as [|[k2 v2] d IH]; cbn [dset dkeys map fst]; intros H.
  - constructor; [easy|constructor].
  - inversion H as [|? ? Hni Hn]; subst. destruct (String.eqb_spec k k2) as [->|N]; cbn [dkeys map fst].
    + now constructor.
    + constructor; [|now apply IH]. intros Hin. apply (keys_dset d k v k2) in Hin. destruct Hin as [->|Hin]; [now elim N|contradiction].
Qed.

Section Y.
Variable rg : registry E.
Variable y : synth.
Hypothesis Hy : savable rg y.
Notation w := (y_w y).

Lemma known_clear i a : reach y i -> nth_error (w_auxs w) i = Some a -> clear a.
Proof.
  intros Hr Ha. destruct (sv_aux Hy Hr) as (a' & Ha' & _ & (Hn & Hs) & Hres & _). assert (a' = a) by congruence. subst.
  split; [exact Hn|]. intros k Hk. destruct (dget (truth (a_par (a_dy a))) k) as [v|] eqn:Hd; [now apply (Hres k v)|].
  apply dget_None in Hd. contradiction.
Qed.

(** The entry under [k] is that of the sampler named [k]. *)
Definition right (k : string) (e : tree) : Prop :=
  exists i a, reach y i /\ nth_error (w_auxs w) i = Some a /\ name_of a = k /\ conf_entry (a_type (a_st a)) (w_sels w) a = Ok e.
Definition okay (X : string -> Prop) (acc : dict tree) : Prop :=
  NoDup (dkeys acc) /\ forall k e, dget acc k = Some e -> X k \/ right k e.
(** The name of a secondary. *)
Definition is_sec (k : string) : Prop := exists j b, secondary_of y j /\ nth_error (w_auxs w) j = Some b /\ name_of b = k.

Lemma sec_objects_ok X n : forall i a acc acc', reach y i -> nth_error (w_auxs w) i = Some a -> okay X acc ->
  sec_objects n w i acc = Ok acc' ->
  okay X acc' /\
  (exists e, dget acc' (name_of a) = Some e /\ right (name_of a) e) /\
  (forall j, below w i j -> exists b, nth_error (w_auxs w) j = Some b /\ In (name_of b) (dkeys acc')) /\
  (exists more, dkeys acc' = (dkeys acc ++ more)%list /\ forall k, In k more -> k = name_of a \/ is_sec k).
Proof.
  induction n as [|n IH]; intros i a acc acc' Hr Ha Hok H; [discriminate|].
  rewrite sec_objects_S, Ha in H. cbn [of_opt rbind] in H.
  assert (Hgo : forall l acc acc1, (forall k m, In (k, m) l -> In (k, m) (a_sec (a_ln a))) -> okay X acc -> objs n w l acc = Ok acc1 ->
    okay X acc1 /\
    (forall k m j, In (k, m) l -> below w m j -> exists b, nth_error (w_auxs w) j = Some b /\ In (name_of b) (dkeys acc1)) /\
    (exists more, dkeys acc1 = (dkeys acc ++ more)%list /\ forall k, In k more -> is_sec k)).
  { clear H acc acc' Hok. induction l as [|[k m] l IHl]; intros acc acc1 Hsub Hok H.
    - injection H as <-. split; [exact Hok|]. split; [easy|]. exists []. rewrite app_nil_r. split; [reflexivity|easy].
    - rewrite objs_cons in H. destruct (sec_objects n w m acc) as [acc2|] eqn:H2; [|discriminate]. cbn [rbind] in H.
      assert (Hin : In (k, m) (a_sec (a_ln a))) by (apply Hsub; now left).
      assert (Hrm : reach y m) by (eapply reach_sec; eauto). destruct (sv_aux Hy Hrm) as (b & Hb & _).
      destruct (IH m b acc acc2 Hrm Hb Hok H2) as (O2 & _ & B2 & more2 & K2 & N2).
      destruct (IHl acc2 acc1) as (O1 & B1 & more1 & K1 & N1); [intros k' m' H'; apply Hsub; now right|exact O2|exact H|].
      split; [exact O1|]. split.
      + intros k' m' j [[= <- <-]|H'] Hbl; [|now apply (B1 k' m')]. destruct (B2 j Hbl) as (b' & Hb' & Hk'). exists b'. split; [exact Hb'|].
        rewrite K1. apply in_or_app. now left.
      + exists (more2 ++ more1)%list. split; [rewrite K1, K2, app_assoc; reflexivity|]. intros k' H'. apply in_app_or in H'. destruct H' as [H'|H']; [|auto].
        destruct (N2 k' H') as [->|]; [|assumption]. exists m, b. split; [|now split]. exists i, a, k. auto. }
  destruct (objs n w (a_sec (a_ln a)) acc) as [acc1|] eqn:H1; [|discriminate]. cbn [rbind] in H.
  destruct (conf_entry (a_type (a_st a)) (w_sels w) a) as [e|] eqn:He; [|discriminate]. cbn [rbind] in H. injection H as <-.
  destruct (Hgo _ acc acc1 (fun k m H => H) Hok H1) as ((N1 & O1) & B1 & more & K1 & M1).
  assert (Hright : right (name_of a) e) by (exists i, a; auto).
  split; [|split; [|split]].
  - split; [now apply NoDup_dset|]. intros k e' Hk. rewrite dget_dset in Hk. destruct (String.eqb_spec k (name_of a)) as [->|]; [|auto].
    injection Hk as <-. now right.
  - exists e. split; [|exact Hright]. rewrite dget_dset, String.eqb_refl. reflexivity.
  - intros j Hj. inversion Hj; subst.
    + exists a. split; [exact Ha|]. apply keys_dset. now left.
    + assert (a0 = a) by congruence. subst. destruct (B1 k m j H0 H2) as (b & Hb & Hk). exists b. split; [exact Hb|]. apply keys_dset. now right.
  - rewrite keys_dset_eq. destruct (dmem acc1 (name_of a)).
    + exists more. split; [exact K1|]. auto.
    + exists (more ++ [name_of a])%list. split; [now rewrite K1, app_assoc|]. intros k Hk. apply in_app_or in Hk. destruct Hk as [Hk|[<-|[]]]; auto.
Qed.

(** Secondaries are not registered. *)
Lemma is_sec_not_top k : is_sec k -> dmem (y_aux y) k = false.
Proof.
  intros (j & b & Hs & Hb & Hn). unfold dmem. destruct (dget (y_aux y) k) as [i|] eqn:Hd; [|reflexivity]. exfalso.
  apply dget_In in Hd. destruct (sv_keys Hy _ _ Hd) as (a & Ha & Hna & _).
  assert (Hrj : reach y j). { destruct Hs as (i0 & a0 & k0 & H1 & H2 & H3). eapply reach_sec; eauto. }
  assert (i = j). { apply (sv_names Hy (reach_top _ _ _ Hd) Hrj Ha Hb). congruence. } subst j.
  destruct (sv_tops Hy) as [Ht _]. now apply (Ht _ _ Hd).
Qed.

Definition none : string -> Prop := fun _ => False.
(** After the samplers [done]. *)
Definition processed (done : dict nat) (acc : dict tree) : Prop :=
  okay none acc /\
  (forall k i j, In (k, i) done -> below w i j -> exists b, nth_error (w_auxs w) j = Some b /\ In (name_of b) (dkeys acc)) /\
  filter (fun k => dmem (y_aux y) k) (dkeys acc) = dkeys done /\
  (forall k, In k (dkeys acc) -> In k (dkeys done) \/ is_sec k).

Lemma filter_none {A} (f : A -> bool) l : (forall x, In x l -> f x = false) -> filter f l = [].
Proof. induction l as [|x l IH]; intros H; [reflexivity|]. cbn. rewrite (H x (or_introl eq_refl)). apply IH. intros z Hz. apply H. now right. Qed.

Lemma conf_top_ok done acc acc' k i a rl :
  processed done acc -> In (k, i) (y_aux y) -> ~ In k (dkeys done) -> nth_error (w_auxs w) i = Some a ->
  conf_top rl w k (a_type (a_st a)) i acc = Ok acc' -> processed (done ++ [(k, i)])%list acc'.
Proof.
  intros ((Nacc & Oacc) & Bacc & Facc & Kacc) Hin Hnew Ha H. unfold conf_top in H. rewrite Ha in H. cbn [of_opt rbind] in H.
  assert (Hr : reach y i) by (eapply reach_top; eauto).
  destruct (conf_entry (a_type (a_st a)) (w_sels w) a) as [e|] eqn:He; [|discriminate]. cbn [rbind] in H.
  destruct (sv_keys Hy _ _ Hin) as (a' & Ha' & Hn & Hl). assert (a' = a) by congruence. subst a'. subst k.
  assert (Hmem : dmem (y_aux y) (name_of a) = true). { unfold dmem. now rewrite (In_dget _ _ _ (sv_nodup Hy) Hin). }
  assert (Hfresh : ~ In (name_of a) (dkeys acc)).
  { intros Hk. destruct (Kacc _ Hk) as [Hd|Hs]; [contradiction|]. apply is_sec_not_top in Hs. congruence. }
  assert (Hd1 : dset acc (name_of a) e = (acc ++ [(name_of a, e)])%list) by now apply dset_fresh, dget_None.
  assert (Ok1 : okay none (dset acc (name_of a) e)).
  { split; [now apply NoDup_dset|]. intros k e' Hk. rewrite dget_dset in Hk. destruct (String.eqb_spec k (name_of a)) as [->|]; [|auto].
    injection Hk as <-. right. exists i, a. auto. }
  assert (K1 : dkeys (dset acc (name_of a) e) = (dkeys acc ++ [name_of a])%list) by (rewrite Hd1; unfold dkeys; now rewrite map_app).
  assert (Hres : exists more, dkeys acc' = (dkeys acc ++ [name_of a] ++ more)%list /\ (forall k, In k more -> is_sec k) /\ okay none acc' /\
            forall j, below w i j -> exists b, nth_error (w_auxs w) j = Some b /\ In (name_of b) (dkeys acc')).
  { destruct (a_sec (a_ln a)) as [|p r] eqn:Hsec.
    - injection H as <-. exists []. split; [rewrite K1; reflexivity|]. split; [easy|]. split; [exact Ok1|].
      intros j Hj. inversion Hj; subst.
      + exists a. split; [exact Ha|]. rewrite K1. apply in_or_app. right. now left.
      + assert (a0 = a) by congruence. subst. rewrite Hsec in H0. easy.
    - destruct (sec_objects_ok none rl i a _ _ Hr Ha Ok1 H) as (O2 & _ & B2 & more & K2 & M2).
      exists more. split; [rewrite K2, K1, <- app_assoc; reflexivity|]. split; [|auto].
      intros k Hk. destruct (M2 k Hk) as [->|]; [|assumption]. exfalso. destruct O2 as [N2 _]. rewrite K2, K1 in N2.
      rewrite <- app_assoc in N2. apply NoDup_remove_2 in N2. apply N2. rewrite in_app_iff. now right. }
  destruct Hres as (more & K2 & M2 & O2 & B2). split; [exact O2|]. split; [|split].
  - intros k' i' j Hin' Hb. apply in_app_or in Hin'. destruct Hin' as [Hin'|[[= <- <-]|[]]]; [|auto].
    destruct (Bacc _ _ _ Hin' Hb) as (b & Hb1 & Hb2). exists b. split; [exact Hb1|]. rewrite K2. apply in_or_app. now left.
  - rewrite K2, !filter_app, Facc. cbn [filter]. rewrite Hmem, (filter_none _ more).
    + unfold dkeys. rewrite map_app. reflexivity.
    + intros k Hk. now apply is_sec_not_top, M2.
  - intros k Hk. rewrite K2 in Hk. unfold dkeys at 1. rewrite map_app, in_app_iff. apply in_app_or in Hk. destruct Hk as [Hk|[<-|Hk]].
    + destruct (Kacc _ Hk); auto.
    + left. right. now left.
    + right. auto.
Qed.

Lemma tops_ok rl l : forall done acc acc', y_aux y = (done ++ l)%list -> processed done acc -> tops rl w l acc = Ok acc' ->
  processed (y_aux y) acc'.
Proof.
  induction l as [|[k i] l IH]; intros done acc acc' Heq Hp H.
  - rewrite app_nil_r in Heq. injection H as <-. now rewrite Heq.
  - rewrite tops_cons in H. destruct (nth_error (w_auxs w) i) as [a|] eqn:Ha; [|discriminate]. cbn [of_opt rbind] in H.
    destruct (conf_top rl w k (a_type (a_st a)) i acc) as [acc1|] eqn:H1; [|discriminate]. cbn [rbind] in H.
    apply (IH (done ++ [(k, i)])%list acc1); [rewrite Heq, <- app_assoc; reflexivity| |exact H].
    apply (conf_top_ok done acc acc1 k i a rl Hp); auto.
    + rewrite Heq. apply in_or_app. right. now left.
    + assert (N := sv_nodup Hy). rewrite Heq in N. unfold dkeys in N. rewrite map_app in N. cbn in N. apply NoDup_remove_2 in N.
      intros Hin. apply N. apply in_or_app. now left.
Qed.

(** With the derived-luminosity sampler. *)
Lemma der_ok rl i a acc acc' : processed (y_aux y) acc -> y_der y = Some i -> nth_error (w_auxs w) i = Some a ->
  conf_top rl w (name_of a) (name_of a) i acc = Ok acc' ->
  okay none acc' /\ filter (fun k => dmem (y_aux y) k) (dkeys acc') = dkeys (y_aux y) /\
  (forall k, In k (dkeys acc) -> In k (dkeys acc')) /\
  (forall j, below w i j -> exists b, nth_error (w_auxs w) j = Some b /\ In (name_of b) (dkeys acc')).
Proof.
  intros ((Nacc & Oacc) & Bacc & Facc & Kacc) Hd Ha H. unfold conf_top in H. rewrite Ha in H. cbn [of_opt rbind] in H.
  assert (Hr : reach y i) by now apply reach_der. destruct (sv_der Hy Hd Ha) as [Hl Hty].
  destruct (conf_entry (name_of a) (w_sels w) a) as [e|] eqn:He; [|discriminate]. cbn [rbind] in H.
  assert (Hmem : dmem (y_aux y) (name_of a) = false).
  { unfold dmem. destruct (dget (y_aux y) (name_of a)) as [i2|] eqn:Hd2; [|reflexivity]. exfalso. apply dget_In in Hd2.
    destruct (sv_keys Hy _ _ Hd2) as (a2 & Ha2 & Hn2 & Hl2). assert (i2 = i) by (apply (sv_names Hy (reach_top _ _ _ Hd2) Hr Ha2 Ha Hn2)).
    subst. congruence. }
  assert (Hfresh : ~ In (name_of a) (dkeys acc)).
  { intros Hk. destruct (Kacc _ Hk) as [Hd2|(j & b & Hs & Hb & Hn)].
    - unfold dmem in Hmem. destruct (dget (y_aux y) (name_of a)) eqn:Hq; [discriminate|]. apply dget_None in Hq. contradiction.
    - assert (Hrj : reach y j). { destruct Hs as (i0 & a0 & k0 & H1 & H2 & H3). eapply reach_sec; eauto. }
      assert (j = i) by (apply (sv_names Hy Hrj Hr Hb Ha Hn)). subst j. destruct (sv_tops Hy) as [_ Ht]. now apply (Ht i Hd). }
  assert (K1 : dkeys (dset acc (name_of a) e) = (dkeys acc ++ [name_of a])%list).
  { rewrite (dset_fresh acc (name_of a) e) by now apply dget_None. unfold dkeys. now rewrite map_app. }
  destruct (a_sec (a_ln a)) as [|p r] eqn:Hsec.
  - injection H as <-. split; [|split; [|split]].
    + split; [now apply NoDup_dset|]. intros k e' Hk. rewrite dget_dset in Hk. destruct (String.eqb_spec k (name_of a)) as [->|]; [|auto].
      injection Hk as <-. right. exists i, a. rewrite (Hty eq_refl). auto.
    + rewrite K1, filter_app, Facc. cbn [filter]. rewrite Hmem. apply app_nil_r.
    + intros k Hk. rewrite K1. apply in_or_app. now left.
    + intros j Hj. inversion Hj; subst.
      * exists a. split; [exact Ha|]. rewrite K1. apply in_or_app. right. now left.
      * assert (a0 = a) by congruence. subst. rewrite Hsec in H0. easy.
  - destruct (sec_objects_ok (fun k => k = name_of a) rl i a (dset acc (name_of a) e) acc' Hr Ha) as ((N2 & O2) & (e2 & De2 & Re2) & B2 & more & K2 & M2); [|exact H|].
    + split; [now apply NoDup_dset|]. intros k e' Hk. rewrite dget_dset in Hk. destruct (String.eqb_spec k (name_of a)) as [->|N]; [now left|].
      destruct (Oacc _ _ Hk) as [[]|]. now right.
    + split; [|split; [|split]].
      * split; [exact N2|]. intros k e' Hk. right. destruct (O2 k e' Hk) as [->|]; [|assumption]. congruence.
      * rewrite K2, K1, !filter_app, Facc. cbn [filter]. rewrite Hmem, (filter_none _ more), !app_nil_r; [reflexivity|].
        intros k Hk. destruct (M2 k Hk) as [->|]; [exact Hmem|now apply is_sec_not_top].
      * intros k Hk. rewrite K2, K1. apply in_or_app. left. apply in_or_app. now left.
      * exact B2.
Qed.

Lemma reach_root j : reach y j -> (exists k i, In (k, i) (y_aux y) /\ below w i j) \/ (exists i, y_der y = Some i /\ below w i j).
Proof.
  induction 1 as [k i H|i H|i a k j Hr IH Ha Hin].
  - left. exists k, i. split; [exact H|constructor].
  - right. exists i. split; [exact H|constructor].
  - destruct IH as [(k0 & i0 & H1 & H2)|(i0 & H1 & H2)]; [left; exists k0, i0|right; exists i0]; (split; [exact H1|eapply below_snoc; eauto]).
Qed.

Definition aux_dict (rl : nat) : res (dict tree) :=
  let? a1 := tops rl w (y_aux y) nil in
  match y_der y with
  | None => Ok a1
  | Some i => let? a := of_opt Unmodelled (nth_error (w_auxs w) i) in conf_top rl w (name_of a) (name_of a) i a1
  end.
Lemma aux_dict_ok rl a2 : aux_dict rl = Ok a2 ->
  okay none a2 /\ filter (fun k => dmem (y_aux y) k) (dkeys a2) = dkeys (y_aux y) /\
  (forall j a, reach y j -> nth_error (w_auxs w) j = Some a -> In (name_of a) (dkeys a2)).
Proof.
  unfold aux_dict. intros H. destruct (tops rl w (y_aux y) nil) as [a1|] eqn:H1; [|discriminate]. cbn [rbind] in H.
  assert (P : processed (y_aux y) a1).
  { apply (tops_ok rl (y_aux y) nil nil a1 eq_refl); [|exact H1]. split; [split; [constructor|easy]|]. split; [easy|]. split; [reflexivity|easy]. }
  destruct (y_der y) as [i|] eqn:Hd.
  - destruct (nth_error (w_auxs w) i) as [a|] eqn:Ha; [|discriminate]. cbn [of_opt rbind] in H.
    destruct (der_ok rl i a a1 a2 P Hd Ha H) as (O & F & K & B). split; [exact O|]. split; [exact F|]. intros j b Hr Hb.
    destruct (reach_root j Hr) as [(k & i0 & Hin & Hbl)|(i0 & Hin & Hbl)].
    + destruct P as (_ & B1 & _). destruct (B1 _ _ _ Hin Hbl) as (b' & Hb' & Hk). apply K. congruence.
    + assert (i0 = i) by congruence. subst. destruct (B _ Hbl) as (b' & Hb' & Hk). congruence.
  - injection H as <-. destruct P as (O & B1 & F & _). split; [exact O|]. split; [exact F|]. intros j b Hr Hb.
    destruct (reach_root j Hr) as [(k & i0 & Hin & Hbl)|(i0 & Hin & Hbl)]; [|congruence].
    destruct (B1 _ _ _ Hin Hbl) as (b' & Hb' & Hk). congruence.
Qed.

(** Each entry has its sampler. *)
Lemma entries_ok (L : dict tree) : (forall k e, In (k, e) L -> right k e) -> exists ids plan,
  Forall2 (fun i a => nth_error (w_auxs w) i = Some a) ids plan /\
  (forall i, In i ids -> reach y i) /\ map (@name_of E) plan = dkeys L /\
  Forall2 (ready E rg eq y) plan L.
Proof.
  induction L as [|[k e] L IH]; intros H.
  - exists [], []. split; [constructor|]. split; [easy|]. split; [reflexivity|constructor].
  - destruct IH as (ids & plan & H1 & H2 & H3 & H4); [intros k' e' H'; apply H; now right|].
    destruct (H k e (or_introl eq_refl)) as (i & a & Hr & Ha & Hn & He).
    assert (Hc := known_clear i a Hr Ha). destruct (conf_entry_full _ _ _ _ Hc He) as (s & Hs & ->).
    exists (i :: ids), (a :: plan). split; [now constructor|]. split; [intros j [<-|Hj]; auto|].
    split; [cbn; rewrite H3, Hn; reflexivity|]. constructor; [|exact H4].
    destruct (sv_aux Hy Hr) as (a' & Ha' & Hk). assert (a' = a) by congruence. subst a'.
    split; [now rewrite Hn|]. split; [exact Hk|]. exists (full_entry (a_type (a_st a)) a s). split; [reflexivity|].
    apply full_entry_of; [exact Hc|exact Hs|]. destruct Hk as (_ & _ & _ & s' & Hs' & c & _ & _ & _ & _ & (Hnd & _) & _).
    assert (s' = s) by congruence. now subst.
Qed.

(** ** The whole dictionary *)
Definition head : dict tree :=
  [("seed", TInt (y_seed y));
   ("spatial distribution", TDict ((m_type (y_spm y), tdict (truth (sd_par (y_sp y)))) ::
      match m_rate (y_spm y) with None => nil | Some b => [("is_rate", TBool b)] end))].
Definition opt_key (k : string) (t : option tree) : dict tree := match t with None => nil | Some t => [(k, t)] end.
Definition lum_tree : option tree := option_map (fun l => TDict [(m_type (y_lumm y), tdict (truth (ld_par l)))]) (y_lum y).
Definition sel_tree (i : nat) : option tree := option_map (fun s => TDict [(s_type s, tdict (truth (s_par s)))]) (nth_error (w_sels w) i).
Lemma to_dict_shape rl t : to_dict rl y = Ok t -> exists a2, aux_dict rl = Ok a2 /\
  t = TDict (head ++ opt_key "luminosity distribution" lum_tree ++
       (if y_fluxset y then opt_key "flux selection" (sel_tree (y_flux y)) else nil) ++
       (if y_dset y then opt_key "distance selection" (sel_tree (y_dsel y)) else nil) ++
       (match y_ssel y with Some i => opt_key "spatial selection" (sel_tree i) | None => nil end) ++
       [("auxiliary samplers", TDict a2)])%list /\
  (y_fluxset y = true -> sel_tree (y_flux y) <> None) /\ (y_dset y = true -> sel_tree (y_dsel y) <> None) /\
  (forall i, y_ssel y = Some i -> sel_tree i <> None).
Proof.
  intros H. unfold to_dict in H. cbv zeta in H.
  set (o1 := match y_lum y with None => _ | Some l => _ end) in H.
  assert (Ho1 : o1 = (head ++ opt_key "luminosity distribution" lum_tree)%list).
  { unfold o1, lum_tree. destruct (y_lum y); reflexivity. }
  clearbody o1. subst o1.
  set (X := (head ++ opt_key "luminosity distribution" lum_tree)%list) in *.
  match type of H with rbind ?A _ = _ => destruct A as [o2|] eqn:H2; [|discriminate] end. cbn [rbind] in H.
  match type of H with rbind ?A _ = _ => destruct A as [o3|] eqn:H3; [|discriminate] end. cbn [rbind] in H.
  match type of H with rbind ?A _ = _ => destruct A as [o4|] eqn:H4; [|discriminate] end. cbn [rbind] in H.
  match type of H with rbind ?A _ = _ => change A with (tops rl w (y_aux y) nil) in H end.
  destruct (tops rl w (y_aux y) nil) as [a1|] eqn:H5; [|discriminate]. cbn [rbind] in H.
  match type of H with rbind ?A _ = _ => destruct A as [a2|] eqn:H6; [|discriminate] end. cbn [rbind] in H.
  injection H as <-. exists a2. split; [unfold aux_dict; rewrite H5; exact H6|].
  assert (G2 : o2 = (X ++ (if y_fluxset y then opt_key "flux selection" (sel_tree (y_flux y)) else nil))%list /\ (y_fluxset y = true -> sel_tree (y_flux y) <> None)).
  { unfold selection_entry in H2. unfold sel_tree. destruct (y_fluxset y); [|injection H2 as <-; split; [now rewrite app_nil_r|discriminate]].
    destruct (nth_error (w_sels w) (y_flux y)); [|discriminate]. injection H2 as <-. split; [reflexivity|discriminate]. }
  assert (G3 : o3 = (o2 ++ (if y_dset y then opt_key "distance selection" (sel_tree (y_dsel y)) else nil))%list /\ (y_dset y = true -> sel_tree (y_dsel y) <> None)).
  { unfold selection_entry in H3. unfold sel_tree. destruct (y_dset y); [|injection H3 as <-; split; [now rewrite app_nil_r|discriminate]].
    destruct (nth_error (w_sels w) (y_dsel y)); [|discriminate]. injection H3 as <-. split; [reflexivity|discriminate]. }
  assert (G4 : o4 = (o3 ++ (match y_ssel y with Some i => opt_key "spatial selection" (sel_tree i) | None => nil end))%list /\ (forall i, y_ssel y = Some i -> sel_tree i <> None)).
  { unfold selection_entry in H4. unfold sel_tree. destruct (y_ssel y) as [i|]; [|injection H4 as <-; split; [now rewrite app_nil_r|discriminate]].
    destruct (nth_error (w_sels w) i) eqn:Hi; [|discriminate]. injection H4 as <-. split; [reflexivity|]. intros i' [= <-]. now rewrite Hi. }
  destruct G2 as [-> G2]. destruct G3 as [-> G3]. destruct G4 as [-> G4]. split; [|auto]. unfold X. now rewrite <- !app_assoc.
Qed.

Lemma dget_opt_neq k k2 t : k2 <> k -> dget (opt_key k t) k2 = None.
Proof. intros N. destruct t; cbn [opt_key dget]; [|reflexivity]. apply String.eqb_neq in N. now rewrite N. Qed.
Lemma dget_opt_eq k t : dget (opt_key k t) k = t.
Proof. destruct t; cbn [opt_key dget]; [|reflexivity]. now rewrite String.eqb_refl. Qed.
Lemma dget_if (b : bool) (d : dict tree) k : dget d k = None -> dget (if b then d else []) k = None.
Proof. now destruct b. Qed.
Lemma dget_opt_match (o : option nat) f k : (forall i, dget (f i : dict tree) k = None) -> dget (match o with Some i => f i | None => [] end) k = None.
Proof. now destruct o. Qed.

Theorem to_dict_describes rl t : to_dict rl y = Ok t -> exists inp ids plan L, t = TDict inp /\
  describes E rg eq y inp ids plan L /\ filter (fun k => dmem (y_aux y) k) (map (@name_of E) plan) = dkeys (y_aux y) /\
  dget inp "spatial distribution" = Some (TDict ((m_type (y_spm y), tdict (truth (sd_par (y_sp y)))) ::
      match m_rate (y_spm y) with None => nil | Some b => [("is_rate", TBool b)] end)) /\
  (forall k e, In (k, TDict e) L -> NoDup (dkeys e)).
Proof.
  intros H. destruct (to_dict_shape rl t H) as (a2 & Ha2 & -> & G2 & G3 & G4). clear H.
  destruct (aux_dict_ok rl a2 Ha2) as ((Nd & Hok) & Hf & Hreach).
  destruct (entries_ok a2) as (ids & plan & E1 & E2 & E3 & E4).
  { intros k e Hin. destruct (Hok k e (In_dget _ _ _ Nd Hin)) as [[]|]. assumption. }
  eexists _, ids, plan, a2. split; [reflexivity|]. split; [|split; [now rewrite E3|split; [reflexivity|]]].
  2:{ intros k e Hin. destruct (Hok k _ (In_dget _ _ _ Nd Hin)) as [[]|(i & a & Hr & Ha & _ & He)]. assert (Hc := known_clear i a Hr Ha).
      destruct (conf_entry_full _ _ _ _ Hc He) as (s & _ & [= ->]). now apply full_nodup. }
  assert (Hsel : forall i s, nth_error (w_sels w) i = Some s -> sel_tree i = Some (TDict [(s_type s, tdict (truth (s_par s)))])).
  { intros i s Hs. unfold sel_tree. now rewrite Hs. }
  split.
  - reflexivity.
  - eexists _, _. split; [reflexivity|]. split; [now destruct (m_rate (y_spm y))|]. split; [reflexivity|].
    destruct (sv_sp Hy) as (d0 & m0 & _ & _ & _ & _ & _ & _ & _ & (Hn & _) & _). exact Hn.
  - unfold head. cbn [app dget]. rewrite !(proj2 (String.eqb_neq _ _)) by discriminate.
    rewrite dget_app, dget_opt_eq. unfold lum_tree. destruct (y_lum y) as [l|] eqn:Hl; cbn [option_map].
    + eexists. split; [reflexivity|]. split; [reflexivity|]. destruct (sv_lum Hy Hl) as (d0 & _ & _ & _ & _ & (Hn & _)). exact Hn.
    + rewrite !dget_app, !dget_if, dget_opt_match; auto using dget_opt_neq; try (apply dget_opt_neq; discriminate).
      intros i. apply dget_opt_neq. discriminate.
  - assert (Hh : dget (head ++ opt_key "luminosity distribution" lum_tree)%list "flux selection" = None).
    { rewrite dget_app. unfold head. cbn [dget]. rewrite !(proj2 (String.eqb_neq _ _)) by discriminate. apply dget_opt_neq. discriminate. }
    unfold sel_written. rewrite app_assoc, dget_app, Hh, dget_app. destruct (y_fluxset y) eqn:Hf'.
    + destruct (sv_flux Hy Hf') as (s & Hs & c & _ & _ & _ & _ & (Hn & _) & _). exists s, (truth (s_par s)). split; [exact Hs|].
      rewrite (Hsel _ _ Hs), dget_opt_eq. auto.
    + cbn [dget]. rewrite !dget_app, dget_if, dget_opt_match; auto; try (intros; apply dget_opt_neq; discriminate).
  - rewrite !dget_app. assert (Hh : dget head "distance selection" = None) by reflexivity. unfold sel_written. rewrite !dget_app, Hh.
    rewrite dget_opt_neq by discriminate. rewrite (dget_if (y_fluxset y)) by (apply dget_opt_neq; discriminate).
    destruct (y_dset y) eqn:Hf'.
    + destruct (sv_dist Hy Hf') as (s & Hs & c & _ & _ & _ & _ & (Hn & _) & _). exists s, (truth (s_par s)). split; [exact Hs|].
      rewrite (Hsel _ _ Hs), dget_opt_eq. auto.
    + cbn [dget]. rewrite dget_opt_match; auto; try (intros; apply dget_opt_neq; discriminate).
  - rewrite !dget_app. assert (Hh : dget head "spatial selection" = None) by reflexivity. unfold sel_written. rewrite !dget_app, Hh.
    rewrite dget_opt_neq by discriminate. rewrite !dget_if by (apply dget_opt_neq; discriminate).
    destruct (y_ssel y) as [i|] eqn:Hf'.
    + destruct (sv_ssel Hy Hf') as (s & Hs & c & _ & _ & _ & _ & (Hn & _) & _). exists s, (truth (s_par s)). split; [exact Hs|].
      rewrite (Hsel _ _ Hs), dget_opt_eq. auto.
    + reflexivity.
  - rewrite !dget_app. assert (Hh : dget head "auxiliary samplers" = None) by reflexivity. rewrite Hh.
    rewrite dget_opt_neq by discriminate. rewrite !dget_if by (apply dget_opt_neq; discriminate).
    rewrite dget_opt_match by (intros; apply dget_opt_neq; discriminate). reflexivity.
  - exact E1.
  - intros i. split; [apply E2|]. intros Hr. destruct (sv_aux Hy Hr) as (a & Ha & _). assert (Hk := Hreach i a Hr Ha).
    rewrite <- E3 in Hk. apply in_map_iff in Hk. destruct Hk as (b & Hb & Hin). apply In_nth_error in Hin. destruct Hin as (p & Hp).
    destruct (Forall2_nth_r _ _ _ E1 _ _ Hp) as (j & Hj & Hjb). apply nth_error_In in Hj.
    assert (j = i) by (apply (sv_names Hy (E2 j Hj) Hr Hjb Ha Hb)). now subst.
  - now rewrite E3.
  - exact E4.
Qed.
End Y.
End S.
