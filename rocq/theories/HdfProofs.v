(** Proofs about dictionaries in HDF5 files. *)
From Coq Require Import Ascii Permutation Sorted Lia OrderedTypeEx.
From Verif Require Import Base BaseFacts Env SimVarModel AuxModel Tree PopModel HdfModel HdfSpec.
Open Scope string_scope.

(** ** Strings *)
Lemma app_nil_s s : s ++ "" = s.
Proof. induction s; simpl; congruence. Qed.
Lemma app_assoc_s a b c : (a ++ b) ++ c = a ++ b ++ c.
Proof. induction a; simpl; congruence. Qed.
Lemma chars_app a b : list_ascii_of_string (a ++ b) = (list_ascii_of_string a ++ list_ascii_of_string b)%list.
Proof. induction a; simpl; congruence. Qed.
Lemma split_slash a b cur : split cur (a ++ "/" ++ b) = (split cur a ++ split "" b)%list.
Proof.
  revert cur; induction a as [|c a IH]; intros cur; simpl; [reflexivity|].
  destruct (Ascii.eqb c "/"); simpl; [f_equal|]; apply IH.
Qed.
Lemma comps_slash a b : comps (a ++ "/" ++ b) = (comps a ++ comps b)%list.
Proof. unfold comps; rewrite split_slash, filter_app; reflexivity. Qed.
Lemma split_plain k cur : ~ In "/"%char (list_ascii_of_string k) -> split cur k = [cur ++ k].
Proof.
  revert cur; induction k as [|c k IH]; intros cur N; simpl; [now rewrite app_nil_s|].
  destruct (Ascii.eqb_spec c "/") as [->|]; [exfalso; apply N; now left|].
  rewrite IH; [|intro; apply N; now right]. now rewrite app_assoc_s.
Qed.
Lemma comps_plain k : plain_name k -> comps k = [k].
Proof.
  intros (A & B & C & _). unfold comps. rewrite split_plain by assumption. cbn [append filter].
  apply String.eqb_neq in A, B. now rewrite A, B.
Qed.
Lemma comps_item path k : plain_name k -> comps (path ++ "/" ++ k) = (comps path ++ [k])%list.
Proof. intros P; rewrite comps_slash, (comps_plain k) by assumption. reflexivity. Qed.
Lemma comps_dir path k : plain_name k -> comps (path ++ "/" ++ k ++ "/") = (comps path ++ [k])%list.
Proof.
  intros P. rewrite comps_slash. f_equal.
  change (k ++ "/") with (k ++ "/" ++ ""). rewrite comps_slash, (comps_plain k) by assumption. reflexivity.
Qed.
Lemma nul_app a b : has_nul (a ++ b) = has_nul a || has_nul b.
Proof. unfold has_nul; now rewrite chars_app, existsb_app. Qed.
Lemma nul_iff s : has_nul s = false <-> no_nul s.
Proof.
  unfold has_nul, no_nul. split.
  - intros H I. assert (existsb (Ascii.eqb "000") (list_ascii_of_string s) = true) as C; [|congruence].
    apply existsb_exists. exists "000"%char. split; auto.
  - intros H. destruct (existsb _ _) eqn:X; auto. apply existsb_exists in X as (x & I & Q).
    apply Ascii.eqb_eq in Q. subst. contradiction.
Qed.
Lemma nul_plain k : plain_name k -> has_nul k = false.
Proof. intros (_ & _ & _ & N). now apply nul_iff. Qed.
Lemma compare_refl s : String.compare s s = Eq.
Proof. now apply String_as_OT.cmp_eq. Qed.
Lemma before_trans a b c : before a b -> before b c -> before a c.
Proof.
  unfold before. intros X Y. apply String_as_OT.cmp_lt in X, Y. apply String_as_OT.cmp_lt.
  eapply String_as_OT.lt_trans; eauto.
Qed.
Lemma before_neq a b : before a b -> a <> b.
Proof. intros X ->. unfold before in X. rewrite compare_refl in X. discriminate. Qed.
Lemma compare_gt a b : String.compare a b = Gt -> before b a.
Proof. intros H. unfold before. rewrite String.compare_antisym, H. reflexivity. Qed.

(** ** Links *)
Section Links.
Context {V : Type}.
Notation h5 := (h5 V).
Implicit Types (g f : dict h5) (n : h5).

Lemma hins_perm g k n : Permutation ((k, n) :: g) (hins g k n).
Proof.
  induction g as [|[k' n'] g IH]; cbn; [reflexivity|]. destruct (String.compare k k'); [reflexivity|reflexivity|].
  rewrite perm_swap. constructor. apply IH.
Qed.
Lemma dget_hins g k n k' : dget g k = None -> dget (hins g k n) k' = if String.eqb k' k then Some n else dget g k'.
Proof.
  induction g as [|[k1 n1] g IH]; intros H; [reflexivity|]. cbn in H |- *.
  destruct (String.compare k k1); cbn; [reflexivity|reflexivity|].
  destruct (String.eqb k k1) eqn:Q; [discriminate|]. rewrite IH by assumption.
  destruct (String.eqb_spec k' k1) as [->|]; [|reflexivity]. rewrite String.eqb_sym in Q. now rewrite Q.
Qed.
Lemma dget_hins_eq g k n : dget g k = None -> dget (hins g k n) k = Some n.
Proof. intros H. rewrite dget_hins by assumption. now rewrite String.eqb_refl. Qed.
Lemma dset_hins g k n n' : dget g k = None -> dset (hins g k n) k n' = hins g k n'.
Proof.
  induction g as [|[k1 n1] g IH]; intros H; cbn in H |- *; [now rewrite String.eqb_refl|].
  destruct (String.eqb k k1) eqn:Q; [discriminate|].
  destruct (String.compare k k1); cbn; rewrite ?String.eqb_refl, ?Q; try reflexivity. now rewrite IH.
Qed.
Lemma hins_sorted g k n : dget g k = None -> in_order g -> in_order (hins g k n).
Proof.
  unfold in_order, dkeys. induction g as [|[k1 n1] g IH]; intros H S; cbn in *; [repeat constructor|].
  destruct (String.eqb k k1) eqn:Q; [discriminate|]. apply String.eqb_neq in Q. inversion_clear S as [|? ? S1 F].
  destruct (String.compare k k1) eqn:C.
  - apply String.compare_eq_iff in C. contradiction.
  - constructor; [constructor; assumption|]. cbn. constructor; [exact C|].
    eapply Forall_impl; [|exact F]. intros a L. eapply before_trans; eassumption.
  - cbn. constructor; [now apply IH|].
    assert (P := hins_perm g k n). apply (Permutation_map fst) in P. rewrite <- P. cbn.
    constructor; [now apply compare_gt|assumption].
Qed.

Lemma upd_addl_any p k n n' f f' : h5_upd p (addl k n) f = Ok f' -> exists f'', h5_upd p (addl k n') f = Ok f''.
Proof.
  revert f f'; induction p as [|c p IH]; intros f f' H; cbn in *.
  - unfold addl in *. destruct (dget f k); [discriminate|eauto].
  - destruct (dget f c) as [[|a g0]|]; [discriminate| |];
      (match type of H with rbind ?m _ = _ => destruct m eqn:X end; [|discriminate]);
      apply IH in X as (x & ->); cbn; eauto.
Qed.
(** Adding under a path that holds the group [g] so far. *)
Lemma upd_into p k g h f f1 g' f2 : h5_upd p (addl k (HGroup nil g)) f = Ok f1 -> h g = Ok g' ->
  h5_upd p (addl k (HGroup nil g')) f = Ok f2 -> h5_upd (p ++ [k]) h f1 = Ok f2.
Proof.
  revert f f1 f2; induction p as [|c p IH]; intros f f1 f2 H G H2; cbn in *.
  - unfold addl in *. destruct (dget f k) eqn:D; [discriminate|]. injection H as <-. injection H2 as <-.
    rewrite dget_hins_eq by assumption. rewrite G. cbn. now rewrite dset_hins.
  - destruct (dget f c) as [[|a g0]|] eqn:D; [discriminate| |];
      (match type of H with rbind ?m _ = _ => destruct m as [x|] eqn:X end; [|discriminate]);
      (match type of H2 with rbind ?m _ = _ => destruct m as [y|] eqn:Y end; [|discriminate]);
      injection H as <-; injection H2 as <-.
    + rewrite dget_dset_eq. rewrite (IH _ _ _ X G Y). cbn. now rewrite dset_dset.
    + rewrite dget_hins_eq by assumption. rewrite (IH _ _ _ X G Y). cbn. now rewrite dset_hins.
Qed.
(** The first addition under a path creates the group. *)
Lemma upd_first p k h f g' f2 : h nil = Ok g' ->
  h5_upd p (addl k (HGroup nil g')) f = Ok f2 -> h5_upd (p ++ [k]) h f = Ok f2.
Proof.
  revert f f2; induction p as [|c p IH]; intros f f2 G H2; cbn in *.
  - unfold addl in *. destruct (dget f k) eqn:D; [discriminate|]. injection H2 as <-. now rewrite G.
  - destruct (dget f c) as [[|a g0]|] eqn:D; [discriminate| |];
      (match type of H2 with rbind ?m _ = _ => destruct m as [y|] eqn:Y end; [|discriminate]);
      injection H2 as <-; rewrite (IH _ _ G Y); reflexivity.
Qed.
Lemma upd_split p q h f : h5_upd (p ++ q) h f = h5_upd p (h5_upd q h) f.
Proof.
  revert f; induction p as [|c p IH]; intros f; cbn; [reflexivity|].
  destruct (dget f c) as [[|a g0]|]; [reflexivity| |]; now rewrite IH.
Qed.
Lemma lookup_added p k n f f' : h5_upd p (addl k n) f = Ok f' -> lookup (p ++ [k]) f' = Ok n.
Proof.
  revert f f'; induction p as [|c p IH]; intros f f' H; cbn in *.
  - unfold addl in *. destruct (dget f k) eqn:D; [discriminate|]. injection H as <-. now rewrite dget_hins_eq.
  - assert (NE : exists x r, (p ++ [k])%list = x :: r) by (destruct p; cbn; eauto). destruct NE as (x & r & NE).
    destruct (dget f c) as [[|a g0]|] eqn:D; [discriminate| |];
      (match type of H with rbind ?m _ = _ => destruct m as [y|] eqn:Y end; [|discriminate]);
      injection H as <-; apply IH in Y; rewrite ?dget_dset_eq, ?dget_hins_eq by assumption; rewrite NE in *; exact Y.
Qed.
Lemma extends_added p k n f f' : h5_upd p (addl k n) f = Ok f' -> extends f f'.
Proof.
  revert f f'; induction p as [|c p IH]; intros f f' H q v L; cbn in *.
  - unfold addl in *. destruct (dget f k) eqn:D; [discriminate|]. injection H as <-.
    destruct q as [|x [|y r]]; cbn in *; [discriminate| |];
      rewrite dget_hins by assumption; destruct (String.eqb_spec x k) as [->|]; try assumption; rewrite D in L; discriminate.
  - destruct (dget f c) as [[|a g0]|] eqn:D; [discriminate| |];
      (match type of H with rbind ?m _ = _ => destruct m as [z|] eqn:Y end; [|discriminate]);
      injection H as <-; specialize (IH _ _ Y).
    + destruct q as [|x [|y r]]; cbn [lookup] in *; [discriminate| |]; rewrite dget_dset;
        destruct (String.eqb_spec x c) as [->|]; try assumption; rewrite D in L; [discriminate|]. exact (IH (y :: r) v L).
    + destruct q as [|x [|y r]]; cbn [lookup] in *; [discriminate| |]; rewrite dget_hins by assumption;
        destruct (String.eqb_spec x c) as [->|]; try assumption; rewrite D in L; discriminate.
Qed.
Lemma vacant_add p k n f : vacant (p ++ [k]) f -> exists f', h5_upd p (addl k n) f = Ok f'.
Proof.
  assert (Nil : forall p, exists g, h5_upd p (addl k n) nil = Ok g).
  { clear; intros p; induction p as [|c p (g & IH)]; cbn; [eauto|]. rewrite IH. cbn. eauto. }
  revert f; induction p as [|c p IH]; intros f H; cbn in *.
  - unfold addl. destruct (dget f k) as [[|]|]; [contradiction|contradiction|eauto].
  - destruct (dget f c) as [[|a g0]|] eqn:D; [contradiction| |].
    + destruct (IH _ H) as (g & ->). cbn. eauto.
    + destruct (Nil p) as (g & ->). cbn. eauto.
Qed.
Lemma vacant_lookup p f : vacant p f -> lookup p f = Err KeyError.
Proof.
  revert f; induction p as [|k p IH]; intros f H; [contradiction|]. cbn in *.
  destruct p as [|k2 p].
  - destruct (dget f k) as [[|]|]; [contradiction|contradiction|reflexivity].
  - destruct (dget f k) as [[|a g0]|]; [contradiction| |reflexivity]. now apply IH.
Qed.

Lemma hlink_eq name p k n f : comps name = (p ++ [k])%list -> has_nul name = false ->
  hlink name n f = match h5_upd p (addl k n) f with Ok f1 => (Ok tt, f1) | Err e => (Err e, f) end.
Proof. intros C N. unfold hlink. rewrite N, C, rev_app_distr. cbn [rev app]. now rewrite rev_involutive. Qed.

(** Links added one after the other. *)
Definition grow (g : dict h5) (d : list (string * h5)) : dict h5 :=
  fold_left (fun g kn => hins g (fst kn) (snd kn)) d g.
Lemma grow_perm d g : Permutation (g ++ d) (grow g d).
Proof.
  revert g; induction d as [|[k n] d IH]; intros g; [cbn; now rewrite app_nil_r|].
  change (grow g ((k, n) :: d)) with (grow (hins g k n) d). rewrite <- IH. rewrite <- hins_perm. symmetry. apply Permutation_middle.
Qed.
End Links.

(** ** Saving *)
Section Save.
Context {V : Type}.
Variable utf8 : string -> bool.
Notation tree := (tree V).
Notation h5 := (h5 V).

(** Additions under one group, each through a name of the form the library builds. *)
Lemma adds_go A (act : A -> M (dict h5) unit) (key : A -> string) (node : A -> h5) p k F0 l :
  (forall x f f', In x l -> h5_upd (p ++ [k]) (addl (key x) (node x)) f = Ok f' -> act x f = (Ok tt, f')) ->
  forall g F, h5_upd p (addl k (HGroup nil g)) F0 = Ok F ->
  NoDup (map key l) -> (forall x, In x l -> dget g (key x) = None) ->
  exists F', h5_upd p (addl k (HGroup nil (grow g (map (fun x => (key x, node x)) l)))) F0 = Ok F' /\
             iterM act l F = (Ok tt, F').
Proof.
  intros A0. induction l as [|x l IH]; intros g F H ND D; cbn [map iterM]; [exists F; split; [exact H|reflexivity]|].
  inversion_clear ND as [|? ? NI ND'].
  assert (G : addl (key x) (node x) g = Ok (hins g (key x) (node x))) by (unfold addl; rewrite D by (now left); reflexivity).
  destruct (upd_addl_any p k _ (HGroup nil (hins g (key x) (node x))) _ _ H) as (F1 & H1).
  assert (X := upd_into p k g _ _ _ _ _ H G H1).
  rewrite (bind_ok _ _ _ (A0 x F F1 (or_introl eq_refl) X)).
  destruct (IH (fun y f f' I => A0 y f f' (or_intror I)) _ _ H1 ND') as (F' & HF & R).
  { intros y I. rewrite dget_hins by (apply D; now left).
    destruct (String.eqb_spec (key y) (key x)) as [Q|]; [|apply D; now right].
    exfalso. apply NI. rewrite <- Q. now apply in_map. }
  exists F'. split; [exact HF|exact R].
Qed.
(** The same where the first addition creates the group. *)
Lemma adds_new A (act : A -> M (dict h5) unit) (key : A -> string) (node : A -> h5) p k F0 F' l :
  (forall x f f', In x l -> h5_upd (p ++ [k]) (addl (key x) (node x)) f = Ok f' -> act x f = (Ok tt, f')) ->
  l <> nil -> NoDup (map key l) ->
  h5_upd p (addl k (HGroup nil (grow nil (map (fun x => (key x, node x)) l)))) F0 = Ok F' ->
  iterM act l F0 = (Ok tt, F').
Proof.
  intros A0 NE ND H. destruct l as [|x l]; [contradiction|]. inversion_clear ND as [|? ? NI ND']. cbn [iterM].
  destruct (upd_addl_any p k _ (HGroup nil (hins nil (key x) (node x))) _ _ H) as (F1 & H1).
  assert (X := upd_first p k (addl (key x) (node x)) F0 _ _ eq_refl H1).
  rewrite (bind_ok _ _ _ (A0 x F0 F1 (or_introl eq_refl) X)).
  destruct (adds_go A act key node p k F0 l (fun y f f' I => A0 y f f' (or_intror I)) _ _ H1 ND') as (F2 & HF & R).
  { intros y I. cbn. destruct (String.eqb_spec (key y) (key x)) as [Q|]; [|reflexivity].
    exfalso. apply NI. rewrite <- Q. now apply in_map. }
  assert (Q : Ok F2 = Ok F') by (rewrite <- HF; exact H). injection Q as ->. exact R.
Qed.

Definition node_of_list (ss : list string) : h5 :=
  match ss with
  | nil => HData (HStr fill_value)
  | _ => HGroup nil (grow nil (map (fun s => (s, HData (HStr fill_value))) (distinct ss)))
  end.
(** What a storable value becomes in the file. *)
Fixpoint node (t : tree) : h5 :=
  match t with
  | TList l => match strings l with Some ss => node_of_list ss | None => HData (HStr "") end
  | TDict nil => HData (HStr fill_value)
  | TDict d => HGroup nil (grow nil (map (fun kt => (fst kt, node (snd kt))) d))
  | _ => match store t with Some (Ok v) => HData v | _ => HData (HStr "") end
  end.

Lemma bind_ext S A B (m : M S A) (k1 k2 : A -> M S B) s : (forall a s1, k1 a s1 = k2 a s1) -> bind m k1 s = bind m k2 s.
Proof. intros H. unfold bind. destruct (m s) as [[a|] s1]; auto. Qed.
Lemma save_dict path key (d : dict tree) f :
  save_item path key (TDict d) f =
  ((if Nat.eqb (length d) 0 then hset (path ++ "/" ++ key) (HStr fill_value) else ret tt) ;;
   save (path ++ "/" ++ key ++ "/") d) f.
Proof.
  cbn [save_item]. apply bind_ext. intros _ f1.
  generalize (path ++ "/" ++ key ++ "/") as q. intros q. revert f1. unfold save.
  induction d as [|[k t] d IH]; intros f1; cbn [iterM fst snd]; [reflexivity|].
  unfold bind. destruct (save_item q k t f1) as [[[]|] f2]; [|reflexivity]. apply IH.
Qed.
Lemma storable_dict (d : dict tree) : storable (TDict d) <->
  NoDup (dkeys d) /\ (forall k t, In (k, t) d -> plain_name k /\ storable t).
Proof.
  cbn [storable]. split; intros [N H]; (split; [exact N|]); clear N.
  - induction d as [|[k t] d IH]; [intros ? ? []|]. destruct H as (P & S & H).
    intros k0 t0 [I|I]; [injection I as <- <-; auto|]. now apply IH.
  - induction d as [|[k t] d IH]; [exact I|].
    destruct (H k t (or_introl eq_refl)). split; [assumption|]. split; [assumption|]. apply IH. intros k0 t0 I0. apply (H k0 t0). now right.
Qed.
Lemma storable_list (l : list tree) : storable (TList l) ->
  exists ss, strings l = Some ss /\ l = map (@TStr V) ss /\ (forall s, In s ss -> plain_name s).
Proof.
  cbn [storable]. induction l as [|t l IH]; intros H; [exists nil; split; [reflexivity|split; [reflexivity|intros ? []]]|].
  destruct t; try contradiction. destruct H as (P & H). destruct (IH H) as (ss & E & Q & A).
  exists (s :: ss). cbn. rewrite E, Q. split; [reflexivity|]. split; [reflexivity|]. intros x [<-|I]; auto.
Qed.
Lemma distinct_spec ss : NoDup (distinct ss) /\ forall s, In s (distinct ss) <-> In s ss.
Proof.
  unfold distinct.
  assert (G : forall (d : dict unit), NoDup (dkeys d) ->
    NoDup (dkeys (fold_left (fun d s => dset d s tt) ss d)) /\
    forall s, In s (dkeys (fold_left (fun d s => dset d s tt) ss d)) <-> In s (dkeys d) \/ In s ss).
  { induction ss as [|x ss IH]; intros d N; cbn; [split; [assumption|tauto]|].
    destruct (IH (dset d x tt) (NoDup_dset _ _ _ N)) as (A & B). split; [exact A|].
    intros s. rewrite B, In_dkeys_dset. intuition congruence. }
  destruct (G nil) as (A & B); [constructor|]. split; [exact A|]. intros s. rewrite B. cbn. tauto.
Qed.

Lemma store_ok t : storable t -> match t with TList _ | TDict _ => True | _ => exists v, store t = Some (Ok v) /\ node t = HData v end.
Proof.
  destruct t; cbn [storable node store]; try contradiction; intros H; eauto.
  - unfold fits64 in H. assert (int64 z = true) as -> by (unfold int64; apply andb_true_intro; split; lia). eauto.
  - destruct H as (N & _). apply nul_iff in N. rewrite N. eauto.
  - destruct H as (X & N & _). apply nul_iff in N. apply String.eqb_neq in X. rewrite N, X. cbn. eauto.
Qed.

Lemma save_item_ok t : storable t -> forall path key f f', plain_name key -> has_nul path = false ->
  h5_upd (comps path) (addl key (node t)) f = Ok f' -> save_item path key t f = (Ok tt, f').
Proof.
  induction t as [| | | | | | | | l _ | d IH] using tree_rect'; intros S path key f f' P N H;
    assert (NP : has_nul (path ++ "/" ++ key) = false) by (rewrite !nul_app, N, (nul_plain key P); reflexivity);
    assert (C := comps_item path key P);
    try (destruct (store_ok _ S) as (w & W1 & W2); cbn [save_item]; rewrite W1; rewrite W2 in H;
         unfold bind, lift, hset; rewrite (hlink_eq _ _ _ _ _ C NP), H; reflexivity).
  - (* list *)
    apply storable_list in S as (ss & S1 & S2 & A). cbn [save_item node] in *. rewrite S1 in *.
    destruct ss as [|s0 ss].
    { cbn [length Nat.eqb node_of_list] in *. unfold hset. unfold bind at 1. rewrite (hlink_eq _ _ _ _ _ C NP), H.
      reflexivity. }
    remember (s0 :: ss) as ss' eqn:SS. assert (length ss' =? 0 = false)%nat as -> by (subst; reflexivity).
    unfold bind at 1. cbn [ret]. destruct (distinct_spec ss') as (ND & DI).
    assert (CD := comps_dir path key P).
    apply (adds_new string _ (fun s => s) (fun _ => HData (HStr fill_value)) (comps path) key).
    + intros s x x' I U. apply DI, A in I. unfold hset.
      rewrite (hlink_eq _ (comps path ++ [key]) s); [now rewrite U| |].
      * rewrite comps_item, CD by assumption. reflexivity.
      * rewrite !nul_app, N, (nul_plain key P), (nul_plain s I). reflexivity.
    + intros Q. assert (I : In s0 ss') by (subst; now left). apply DI in I. rewrite Q in I. destruct I.
    + now rewrite map_id.
    + unfold node_of_list in H. rewrite SS in H at 1. exact H.
  - (* dict *)
    rewrite save_dict. apply storable_dict in S as (ND & A).
    destruct d as [|kt0 d0].
    { cbn [length Nat.eqb node] in *. unfold bind, hset. rewrite (hlink_eq _ _ _ _ _ C NP), H. reflexivity. }
    remember (kt0 :: d0) as d eqn:SS. assert (length d =? 0 = false)%nat as -> by (subst; reflexivity).
    unfold bind at 1. cbn [ret]. unfold save.
    assert (CD := comps_dir path key P).
    apply (adds_new (string * tree) _ (fun kt => fst kt) (fun kt => node (snd kt)) (comps path) key).
    + intros [s t] x x' I U. destruct (A s t I) as (PS & ST). cbn [fst snd] in *.
      rewrite Forall_forall in IH. apply (IH (s, t) I ST); [exact PS| |].
      * rewrite !nul_app, N, (nul_plain key P). reflexivity.
      * now rewrite CD.
    + subst; discriminate.
    + exact ND.
    + subst d. exact H.
Qed.

Lemma save_ok d path p k f f' : storable (TDict d) -> d <> nil -> comps path = (p ++ [k])%list -> has_nul path = false ->
  h5_upd p (addl k (node (TDict d))) f = Ok f' -> save path d f = (Ok tt, f').
Proof.
  intros S NE C N H. apply storable_dict in S as (ND & A).
  unfold save. apply (adds_new (string * tree) _ (fun kt => fst kt) (fun kt => node (snd kt)) p k).
  - intros [s t] x x' I U. destruct (A s t I) as (PS & ST). cbn [fst snd] in *.
    apply save_item_ok; auto. now rewrite C.
  - exact NE.
  - exact ND.
  - destruct d as [|kt0 d]; [contradiction|]. exact H.
Qed.

(** ** Loading *)
Lemma dec_links a l : dec utf8 (HGroup a l) =
  rmap (@TDict V) (rmapM (fun kn => let? t := dec utf8 (snd kn) in Ok (fst kn, t)) l).
Proof.
  cbn [dec]. f_equal. induction l as [|[k n] l IH]; cbn; [reflexivity|]. rewrite IH.
  destruct (dec utf8 n); reflexivity.
Qed.
Lemma rmapM_perm A B (f : A -> res B) l l' r : Permutation l l' -> rmapM f l = Ok r ->
  exists r', rmapM f l' = Ok r' /\ Permutation r r'.
Proof.
  intros P. revert r. induction P as [|x l l' P IH|x y l|l1 l2 l3 P1 IH1 P2 IH2]; cbn; intros r H.
  - exists r; auto.
  - destruct (f x) as [y|]; [|discriminate]. cbn in *. destruct (rmapM f l) as [q|]; [|discriminate]. injection H as <-.
    destruct (IH q eq_refl) as (q' & -> & Q). cbn. eauto.
  - destruct (f x) as [a|]; cbn in *; [|destruct (f y); discriminate].
    destruct (f y) as [b|]; cbn in *; [|discriminate]. destruct (rmapM f l) as [q|]; [|discriminate].
    injection H as <-. cbn. eexists; split; [reflexivity|apply perm_swap].
  - destruct (IH1 _ H) as (r1 & R1 & Q1). destruct (IH2 _ R1) as (r2 & R2 & Q2). exists r2; split; [assumption|].
    now transitivity r1.
Qed.
Lemma rmapM_Forall2 A B (f : A -> res B) (R : A -> B -> Prop) l :
  (forall x, In x l -> exists y, f x = Ok y /\ R x y) -> exists r, rmapM f l = Ok r /\ Forall2 R l r.
Proof.
  induction l as [|x l IH]; intros H; cbn; [eauto|].
  destruct (H x (or_introl eq_refl)) as (y & -> & RY). destruct IH as (r & -> & F); [intros; apply H; now right|].
  cbn. eauto.
Qed.
Lemma rmapM_inv A B (f : A -> res B) l r : rmapM f l = Ok r -> Forall2 (fun x y => f x = Ok y) l r.
Proof.
  revert r; induction l as [|x l IH]; cbn; intros r H; [injection H as <-; constructor|].
  destruct (f x) eqn:X; [|discriminate]. cbn in H. destruct (rmapM f l); [|discriminate]. injection H as <-. constructor; auto.
Qed.
Lemma grow_sorted (d : list (string * h5)) (g : dict h5) : in_order g -> NoDup (dkeys d) -> (forall k, In k (dkeys d) -> dget g k = None) ->
  in_order (grow g d).
Proof.
  revert g; induction d as [|[k n] d IH]; intros g S N D; cbn; [exact S|]. inversion_clear N as [|? ? NI N'].
  apply IH; auto.
  - apply hins_sorted; [apply D; now left|assumption].
  - intros x I. rewrite dget_hins by (apply D; now left). destruct (String.eqb_spec x k) as [->|]; [contradiction|].
    apply D; now right.
Qed.
Lemma dec_grow (d : list (string * h5)) (R : string * h5 -> string * tree -> Prop) a : NoDup (dkeys d) ->
  (forall kn, In kn d -> exists t, dec utf8 (snd kn) = Ok t /\ R kn (fst kn, t)) ->
  exists d1 d', dec utf8 (HGroup a (grow nil d)) = Ok (TDict d') /\ Forall2 R d d1 /\ Permutation d1 d' /\ in_order d'.
Proof.
  intros N H.
  destruct (rmapM_Forall2 _ _ (fun kn => let? t := dec utf8 (snd kn) in Ok (fst kn, t)) R d) as (d1 & M1 & F).
  { intros kn I. destruct (H kn I) as (t & -> & RT). cbn. eauto. }
  destruct (rmapM_perm _ _ _ _ _ _ (grow_perm d nil) M1) as (d' & M2 & P).
  exists d1, d'. rewrite dec_links, M2. repeat split; auto.
  assert (S : in_order (grow nil d)) by (apply grow_sorted; auto; constructor).
  unfold in_order in *. replace (dkeys d') with (dkeys (grow nil d)); [exact S|].
  apply rmapM_inv in M2. clear - M2. unfold dkeys. induction M2 as [|x y l l' X F IH]; cbn; [reflexivity|].
  f_equal; [|exact IH]. destruct (dec utf8 (snd x)); [|discriminate]. injection X as <-. reflexivity.
Qed.

Lemma back_entries (d q : dict tree) d1 : incl q d ->
  Forall2 (fun (x : string * h5) (y : string * tree) => fst x = fst y /\ forall t, In (fst x, t) d -> comes_back utf8 t (snd y))
          (map (fun kt => (fst kt, node (snd kt))) q) d1 ->
  Forall2 (fun x y => fst x = fst y /\ comes_back utf8 (snd x) (snd y)) q d1.
Proof.
  revert d1; induction q as [|[k t] q IH]; intros d1 SUB F; inversion F as [|? y ? ? (B1 & B2) G]; subst; constructor.
  - split; [exact B1|]. apply B2. apply SUB. now left.
  - apply IH; [intros z I; apply SUB; now right|exact G].
Qed.

Lemma dec_node t : storable t -> exists t', dec utf8 (node t) = Ok t' /\ comes_back utf8 t t'.
Proof.
  induction t as [|v|z|b|b|s|s|l|l _|d IH] using tree_rect'; intros S;
    try (cbn; eexists; split; [reflexivity|constructor]; fail); try contradiction.
  - destruct (store_ok _ S) as (w & W1 & W2). cbn in W1. destruct (int64 z); [|discriminate].
    injection W1 as <-. rewrite W2. eexists; split; [reflexivity|constructor].
  - destruct (store_ok _ S) as (w & W1 & W2). cbn in W1. destruct (has_nul s); [discriminate|].
    injection W1 as <-. rewrite W2. destruct S as (_ & X). apply String.eqb_neq in X. cbn. unfold fill_value. rewrite X.
    eexists; split; [reflexivity|constructor].
  - destruct (store_ok _ S) as (w & W1 & W2). cbn in W1. destruct (_ || _); [discriminate|].
    injection W1 as <-. rewrite W2. destruct S as (_ & _ & X). apply String.eqb_neq in X. cbn. unfold fill_value. rewrite X.
    destruct (utf8 s) eqn:U; eexists; (split; [reflexivity|now constructor]).
  - apply storable_list in S as (ss & S1 & -> & A). cbn [node]. rewrite S1.
    destruct ss as [|s0 ss].
    { cbn. exists (TDict nil). split; [reflexivity|]. constructor; [constructor|cbn; tauto|intros ? ? []]. }
    destruct (distinct_spec (s0 :: ss)) as (ND & DI).
    destruct (dec_grow (map (fun s => (s, HData (HStr fill_value))) (distinct (s0 :: ss))) (fun x y => fst x = fst y /\ snd y = TDict nil) nil)
      as (d1 & d' & X & F & P & O).
    + unfold dkeys. rewrite map_map. cbn. now rewrite map_id.
    + intros kn I. apply in_map_iff in I as (s & <- & I). cbn. eauto.
    + exists (TDict d'). split; [exact X|]. constructor; [exact O| |].
      * intros s. assert (Q : map fst d1 = distinct (s0 :: ss)).
        { clear - F. remember (distinct (s0 :: ss)) as q. clear Heqq. revert d1 F.
          induction q as [|y q IH]; intros d1 F; inversion F as [|? z ? ? (A & _) G]; subst; cbn; [reflexivity|].
          cbn in A. rewrite <- A. f_equal. now apply IH. }
        unfold dkeys. rewrite <- (Permutation_map fst P), Q, DI, in_map_iff. split; [intros I; eauto|intros (x & Y & I); congruence].
      * intros s t I. apply (Permutation_in _ (Permutation_sym P)) in I.
        clear - F I. induction F as [|x y l l' (_ & A) G IH]; [destruct I|]. destruct I as [->|I]; [exact A|now apply IH].
  - apply storable_dict in S as (ND & A). destruct d as [|kt0 d0].
    { cbn. exists (TDict nil). split; [reflexivity|]. econstructor; [constructor|constructor|constructor]. }
    remember (kt0 :: d0) as d eqn:SS.
    assert (NE : node (TDict d) = HGroup nil (grow nil (map (fun kt => (fst kt, node (snd kt))) d))) by (subst; reflexivity).
    rewrite NE. rewrite Forall_forall in IH.
    destruct (dec_grow (map (fun kt => (fst kt, node (snd kt))) d)
       (fun x y => fst x = fst y /\ forall t, In (fst x, t) d -> comes_back utf8 t (snd y)) nil) as (d1 & d' & X & F & P & O).
    + unfold dkeys. rewrite map_map. exact ND.
    + intros kn I. apply in_map_iff in I as ([k t] & <- & I). destruct (A k t I) as (_ & ST).
      destruct (IH (k, t) I ST) as (t' & D & CB). exists t'. cbn [fst snd] in *. split; [exact D|]. split; [reflexivity|].
      intros t2 I2. replace t2 with t; [exact CB|]. clear - ND I I2. unfold dkeys in ND.
      induction d as [|[x y] d IH]; [destruct I|]. inversion_clear ND as [|? ? NI N].
      destruct I as [I|I], I2 as [I2|I2]; [congruence| | |auto].
      * injection I as -> ->. exfalso. apply NI. now apply (in_map fst) in I2.
      * injection I2 as -> ->. exfalso. apply NI. now apply (in_map fst) in I.
    + exists (TDict d'). split; [exact X|]. econstructor; [|exact P|exact O].
      eapply back_entries; [|exact F]. apply incl_refl.
Qed.

Lemma comps_last path (f : dict h5) : vacant (comps path) f -> exists p k, comps path = (p ++ [k])%list.
Proof.
  intros H. destruct (exists_last (l := comps path)) as (p & k & C); [intros N; rewrite N in H; exact H|eauto].
Qed.

Lemma dict_round_trip d path (f : dict h5) : storable (TDict d) -> d <> nil -> no_nul path -> vacant (comps path) f ->
  exists f' d', save path d f = (Ok tt, f') /\ load utf8 path f' = Ok (TDict d') /\
    comes_back utf8 (TDict d) (TDict d') /\ extends f f'.
Proof.
  intros S NE N VA. destruct (comps_last _ _ VA) as (p & k & C). apply nul_iff in N.
  rewrite C in VA. destruct (vacant_add p k (node (TDict d)) f VA) as (f' & U).
  destruct (dec_node _ S) as (t' & D & CB). inversion CB as [| | | | | | | |? d1 d' F P O]; subst.
  exists f', d'. split; [eapply save_ok; eauto|]. split; [|split; [exact CB|eapply extends_added; eauto]].
  unfold load. rewrite C, (lookup_added _ _ _ _ _ U). cbn [rbind].
  destruct d as [|kt0 d]; [contradiction|]. exact D.
Qed.

(** ** Values that cannot be stored *)
Lemma strings_none (l : list tree) : strings l = None <-> exists x, In x l /\ forall s, x <> TStr s.
Proof.
  induction l as [|t l IH]; [split; [discriminate|intros (x & [] & _)]|].
  destruct t; cbn;
    try (split; [intros _; eexists; split; [now left|discriminate]|intros _; reflexivity]).
  destruct (strings l) as [ss|]; cbn; split; try discriminate.
  - intros (x & [<-|I] & H); [now destruct (H s)|]. destruct IH as (_ & IH). discriminate IH; eauto.
  - intros _. destruct IH as (IH & _). destruct (IH eq_refl) as (x & I & H). eauto.
  - reflexivity.
Qed.

Lemma save_app path (d1 d2 : dict tree) (f : dict h5) : save path (d1 ++ d2)%list f = (save path d1 ;; save path d2) f.
Proof.
  unfold save. revert f; induction d1 as [|x d1 IH]; intros f; cbn [app iterM]; [reflexivity|].
  unfold bind. destruct (save_item path (fst x) (snd x) f) as [[[]|] f1]; [|reflexivity]. apply IH.
Qed.

Lemma unsupported_never t : unsupported t -> forall path key (f : dict h5), fst (save_item path key t f) <> Ok tt.
Proof.
  induction t as [| | | | | | | | l _ | d IH] using tree_rect'; intros U path key f; inversion U as [| |? x I N|? k t I U']; subst;
    try (cbn; discriminate).
  - cbn [save_item]. assert (strings l = None) as -> by (apply strings_none; eauto). cbn. discriminate.
  - rewrite save_dict. rewrite Forall_forall in IH. unfold bind.
    destruct ((if Nat.eqb (length d) 0 then hset (path ++ "/" ++ key) (HStr fill_value) else ret tt) f) as [[[]|] f1]; [|discriminate].
    apply in_split in I as (d1 & d2 & ->). rewrite save_app. unfold bind.
    destruct (save _ d1 f1) as [[[]|] f2]; [|discriminate]. unfold save. cbn [iterM fst snd]. unfold bind.
    assert (X := IH (k, t) (in_elt _ _ _) U' (path ++ "/" ++ key ++ "/") k f2). cbn [snd] in X.
    destruct (save_item _ k t f2) as [[[]|] f3]; [now destruct X|discriminate].
Qed.
Lemma unsupported_save d : unsupported (TDict d) -> forall path (f : dict h5), fst (save path d f) <> Ok tt.
Proof.
  intros U path f. inversion U as [| | |? k t I U']; subst.
  apply in_split in I as (d1 & d2 & ->). rewrite save_app. unfold bind.
  destruct (save _ d1 f) as [[[]|] f2]; [|discriminate]. unfold save. cbn [iterM fst snd]. unfold bind.
  assert (X := unsupported_never t U' path k f2).
  destruct (save_item _ k t f2) as [[[]|] f3]; [now destruct X|discriminate].
Qed.

Lemma cbt_dict (d : dict tree) : clean_but_types (TDict d) <->
  NoDup (dkeys d) /\ (forall k t, In (k, t) d -> plain_name k /\ clean_but_types t).
Proof.
  cbn [clean_but_types]. split; intros [N H]; (split; [exact N|]); clear N.
  - induction d as [|[k t] d IH]; [intros ? ? []|]. destruct H as (P & S & H).
    intros k0 t0 [I|I]; [injection I as <- <-; auto|]. now apply IH.
  - induction d as [|[k t] d IH]; [exact I|].
    destruct (H k t (or_introl eq_refl)). split; [assumption|]. split; [assumption|]. apply IH. intros k0 t0 I0. apply (H k0 t0). now right.
Qed.

Lemma NoDup_app_l A (l1 l2 : list A) : NoDup (l1 ++ l2) -> NoDup l1.
Proof.
  induction l1 as [|x l1 IH]; cbn; intros H; [constructor|]. inversion_clear H as [|? ? N H'].
  constructor; [intros I; apply N, in_or_app; now left|now apply IH].
Qed.
(** The first entry that is not storable. *)
Lemma first_bad (d : dict tree) : (forall k t, In (k, t) d -> storable t \/ ~ storable t) ->
  (forall k t, In (k, t) d -> storable t) \/
  exists d1 k t d2, d = (d1 ++ (k, t) :: d2)%list /\ ~ storable t /\ forall k t, In (k, t) d1 -> storable t.
Proof.
  induction d as [|[k t] d IH]; intros H; [left; intros ? ? []|].
  destruct (H k t (or_introl eq_refl)) as [S|S].
  - destruct IH as [A|(d1 & k1 & t1 & d2 & -> & A & B)]; [intros; apply (H k0); now right| |].
    + left. intros k0 t0 [I|I]; [now injection I as <- <-|eauto].
    + right. exists ((k, t) :: d1), k1, t1, d2. split; [reflexivity|]. split; [assumption|]. intros k0 t0 [I|I]; [now injection I as <- <-|eauto].
  - right. exists nil, k, t, d. split; [reflexivity|]. split; [assumption|]. intros ? ? [].
Qed.

(** What is shown of a value that may be of an unsupported type. *)
Definition refused (t : tree) : Prop :=
  (storable t \/ ~ storable t) /\
  (~ storable t -> forall path key f f' n, plain_name key -> has_nul path = false ->
   h5_upd (comps path) (addl key n) f = Ok f' -> exists f2, save_item path key t f = (Err ValueError, f2)).

Lemma bad_entries (d : dict tree) : NoDup (dkeys d) -> (forall k t, In (k, t) d -> plain_name k /\ refused t) ->
  (storable (TDict d) \/ ~ storable (TDict d)) /\
  (~ storable (TDict d) -> forall path p key f f' n, comps path = (p ++ [key])%list -> has_nul path = false ->
   h5_upd p (addl key n) f = Ok f' -> exists f2, save path d f = (Err ValueError, f2)).
Proof.
  intros ND A. destruct (first_bad d) as [G|(d1 & k1 & t1 & d2 & SP & NS & G)].
  - intros k t I. now apply (A k t I).
  - split; [left|intros NS; exfalso; apply NS]; apply storable_dict; (split; [exact ND|]); intros k t I; (split; [now apply (A k t)|eauto]).
  - assert (I1 : In (k1, t1) d) by (subst; apply in_elt).
    split; [right; intros S; apply storable_dict in S as (_ & S); destruct (S k1 t1 I1); auto|].
    intros _ path p key f f' n C N H. rewrite SP. rewrite save_app.
    destruct (A k1 t1 I1) as (P1 & _ & B).
    assert (S1 : storable (TDict d1)).
    { apply storable_dict. rewrite SP in ND. unfold dkeys in ND |- *. rewrite map_app in ND.
      split; [now apply NoDup_app_l in ND|]. intros k t I.
      assert (Id : In (k, t) d) by (subst; apply in_or_app; now left). destruct (A k t Id). split; eauto. }
    destruct d1 as [|kt0 d1].
    + unfold bind at 1. cbn [save iterM ret fst snd]. unfold save. cbn [iterM fst snd]. unfold bind.
      destruct (upd_addl_any _ _ _ (HGroup nil (hins nil k1 n)) _ _ H) as (f3 & H3).
      assert (X := upd_first p key (addl k1 n) f _ _ eq_refl H3).
      rewrite <- C in X.
      destruct (B NS _ k1 f f3 n P1 N X) as (f2 & ->). eauto.
    + destruct (upd_addl_any _ _ _ (node (TDict (kt0 :: d1))) _ _ H) as (f3 & H3).
      assert (X := save_ok _ _ _ _ _ _ S1 ltac:(discriminate) C N H3).
      rewrite (bind_ok _ _ _ X). unfold save. cbn [iterM fst snd]. unfold bind.
      remember (kt0 :: d1) as d1' eqn:SS.
      assert (Q : node (TDict d1') = HGroup nil (grow nil (map (fun kt => (fst kt, node (snd kt))) d1'))) by (subst; reflexivity).
      rewrite Q in H3.
      set (g := grow nil (map (fun kt => (fst kt, node (snd kt))) d1')) in *.
      assert (G1 : addl k1 n g = Ok (hins g k1 n)).
      { unfold addl. destruct (dget g k1) eqn:D; [|reflexivity]. exfalso. apply dget_In in D.
        unfold g in D. apply (Permutation_in _ (Permutation_sym (grow_perm _ nil))) in D. cbn in D.
        apply in_map_iff in D as ([k t] & Q1 & I). cbn in Q1. injection Q1 as -> _.
        rewrite SP in ND. unfold dkeys in ND. rewrite map_app in ND. cbn in ND.
        apply NoDup_remove_2 in ND. apply ND. apply in_or_app. left. now apply (in_map fst) in I. }
      destruct (upd_addl_any _ _ _ (HGroup nil (hins g k1 n)) _ _ H3) as (f4 & H4).
      assert (Y := upd_into p key g _ f f3 _ f4 H3 G1 H4).
      rewrite <- C in Y.
      destruct (B NS _ k1 f3 f4 n P1 N Y) as (f2 & ->). eauto.
Qed.

Lemma bad_item (t : tree) : clean_but_types t -> refused t.
Proof.
  unfold refused. induction t as [|v|z|b|b|s|s|l|l _|d IH] using tree_rect'; intros C;
    try (destruct C as [C|C]; [split; [now left|tauto]|inversion C]; fail).
  - split; [right; auto|]. intros _ path key f f' n _ _ _. cbn. eexists; reflexivity.
  - split; [right; auto|]. intros _ path key f f' n _ _ _. cbn. eexists; reflexivity.
  - destruct C as [C|C]; [split; [now left|tauto]|]. inversion C as [| |? x I N|]; subst.
    assert (Q : strings l = None) by (apply strings_none; eauto).
    split; [right; intros S; apply storable_list in S as (ss & S1 & _); congruence|].
    intros _ path key f f' n _ _ _. cbn [save_item]. rewrite Q. eexists; reflexivity.
  - apply cbt_dict in C as (ND & A). rewrite Forall_forall in IH.
    destruct (bad_entries d ND) as (X & Y).
    { intros k t I. destruct (A k t I) as (P & C). split; [exact P|]. exact (IH (k, t) I C). }
    split; [exact X|]. intros NS path key f f' n P N H. rewrite save_dict.
    assert (length d =? 0 = false)%nat as ->.
    { destruct d; [|reflexivity]. exfalso. apply NS. apply storable_dict. split; [constructor|intros ? ? []]. }
    unfold bind at 1. cbn [ret]. eapply Y; eauto using comps_dir.
    rewrite !nul_app, N, (nul_plain key P). reflexivity.
Qed.

Lemma unsupported_not (t : tree) : unsupported t -> ~ storable t.
Proof.
  induction t as [| | | | | | | | l _ | d IH] using tree_rect'; intros U S; inversion U as [| |? x I N|? k t I U']; subst; try exact S.
  - apply storable_list in S as (ss & S1 & _). assert (strings l = None) by (apply strings_none; eauto). congruence.
  - apply storable_dict in S as (_ & S). rewrite Forall_forall in IH. destruct (S k t I) as (_ & S'). exact (IH (k, t) I U' S').
Qed.

Lemma save_refuses d path (f : dict h5) : clean_but_types (TDict d) -> unsupported (TDict d) -> no_nul path -> vacant (comps path) f ->
  exists f', save path d f = (Err ValueError, f').
Proof.
  intros C U N VA. destruct (comps_last _ _ VA) as (p & k & CP). apply nul_iff in N. rewrite CP in VA.
  destruct (vacant_add p k (HGroup nil nil) f VA) as (f' & H).
  apply cbt_dict in C as (ND & A). destruct (bad_entries d ND) as (_ & Y).
  { intros k0 t I. destruct (A k0 t I) as (P & C). split; [exact P|]. now apply bad_item. }
  eapply Y; eauto. now apply unsupported_not.
Qed.

(** ** What does not come back *)
Lemma save_leaf (v : hval V) (t : tree) path p k name q key (f f' : dict h5) :
  match t with TList _ | TDict _ => False | _ => store t = Some (Ok v) end ->
  comps path = (p ++ [k])%list -> comps name = (q ++ [key])%list -> has_nul path = false -> has_nul name = false ->
  h5_upd ((p ++ [k]) ++ q)%list (addl key (HData v)) f = Ok f' -> save path [(name, t)] f = (Ok tt, f').
Proof.
  intros S C CN N NN H. unfold save. cbn [iterM fst snd].
  assert (X : hset (path ++ "/" ++ name) v f = (Ok tt, f')).
  { unfold hset. rewrite (hlink_eq _ ((p ++ [k]) ++ q)%list key).
    - now rewrite H.
    - now rewrite comps_slash, C, CN, app_assoc.
    - rewrite !nul_app, N, NN. reflexivity. }
  unfold bind. destruct t; try contradiction; cbn [save_item]; rewrite ?S; try discriminate S;
    unfold bind, lift; rewrite ?X; try reflexivity; cbn in S; try (injection S as ->; now rewrite X).
Qed.
Lemma load_at path p k n (f f' : dict h5) : comps path = (p ++ [k])%list -> h5_upd p (addl k n) f = Ok f' ->
  load utf8 path f' = match n with HGroup _ _ => dec utf8 n | HData _ => Err AttributeError end.
Proof. intros C H. unfold load. rewrite C, (lookup_added _ _ _ _ _ H). reflexivity. Qed.

Lemma empty_lost path (f : dict h5) : vacant (comps path) f ->
  save path (nil : dict tree) f = (Ok tt, f) /\ load utf8 path f = Err KeyError.
Proof. intros VA. split; [reflexivity|]. unfold load. now rewrite vacant_lookup. Qed.

Lemma leaf_back (v : hval V) (t : tree) path key (f : dict h5) :
  match t with TList _ | TDict _ => False | _ => store t = Some (Ok v) end ->
  plain_name key -> no_nul path -> vacant (comps path) f ->
  exists f', save path [(key, t)] f = (Ok tt, f') /\
    load utf8 path f' = rmap (@TDict V) (rmap (fun x => [(key, x)]) (fetch utf8 v)).
Proof.
  intros S P N VA. destruct (comps_last _ _ VA) as (p & k & C). apply nul_iff in N. rewrite C in VA.
  destruct (vacant_add p k (HGroup nil [(key, HData v)]) f VA) as (f' & H).
  exists f'. split.
  - apply (save_leaf v t path p k key nil key); auto using nul_plain.
    + now rewrite (comps_plain key P).
    + rewrite app_nil_r. apply (upd_first p k (addl key (HData v)) f _ f' eq_refl H).
  - rewrite (load_at _ _ _ _ _ _ C H). cbn. destruct (fetch utf8 v); reflexivity.
Qed.
Lemma fill_value_lost path key (f : dict h5) : plain_name key -> no_nul path -> vacant (comps path) f ->
  exists f', save path [(key, TStr "FILL_VALUE")] f = (Ok tt, f') /\ load utf8 path f' = Ok (TDict [(key, TDict nil)]).
Proof. intros P N VA. exact (leaf_back (HStr fill_value) (TStr "FILL_VALUE") path key f eq_refl P N VA). Qed.
Lemma bool_back path key b (f : dict h5) : plain_name key -> no_nul path -> vacant (comps path) f ->
  exists f', save path [(key, TBool b)] f = (Ok tt, f') /\ load utf8 path f' = Ok (TDict [(key, TNpb b)]).
Proof. intros P N VA. exact (leaf_back (HBool b) (TBool b) path key f eq_refl P N VA). Qed.
Lemma slash_back path k1 k2 v (f : dict h5) : plain_name k1 -> plain_name k2 -> no_nul path -> vacant (comps path) f ->
  exists f', save path [(k1 ++ "/" ++ k2, TNum v)] f = (Ok tt, f') /\
    load utf8 path f' = Ok (TDict [(k1, TDict [(k2, TNum v)])]).
Proof.
  intros P1 P2 N VA. destruct (comps_last _ _ VA) as (p & k & C). apply nul_iff in N. rewrite C in VA.
  destruct (vacant_add p k (HGroup nil [(k1, HGroup nil [(k2, HData (HNum v))])]) f VA) as (f' & H).
  exists f'. split.
  - apply (save_leaf (HNum v) (TNum v) path p k (k1 ++ "/" ++ k2) [k1] k2); auto.
    + now rewrite comps_slash, (comps_plain k1), (comps_plain k2).
    + now rewrite !nul_app, (nul_plain k1), (nul_plain k2).
    + rewrite upd_split. exact (upd_first p k (h5_upd [k1] (addl k2 (HData (HNum v)))) f _ f' eq_refl H).
  - now rewrite (load_at _ _ _ _ _ _ C H).
Qed.
End Save.

(** ** Graph dictionaries *)
Section Graphs.
Context {V : Type}.
Notation tree := (tree V).

Lemma all_dicts_inv (t : tree) : all_dicts t -> exists d, t = TDict d /\ forall k t', In (k, t') d -> all_dicts t'.
Proof.
  destruct t as [| | | | | | | | |d]; try contradiction. intros H. exists d. split; [reflexivity|]. cbn in H.
  induction d as [|[k t] d IH]; [intros ? ? []|]. destruct H as (A & B). intros k0 t0 [I|I]; [now injection I as <- <-|now apply (IH B k0)].
Qed.
Definition fill_entry (t : tree) : res tree := match t with TDict nil => Ok (TInt 1) | _ => fill1 t end.
Lemma fill1_links (d : dict tree) : fill1 (TDict d) =
  rmap (@TDict V) (rmapM (fun kt => let? x := fill_entry (snd kt) in Ok (fst kt, x)) d).
Proof.
  transitivity (rmap (@TDict V) ((fix go (d : list (string * tree)) : res (list (string * tree)) :=
      match d with
      | nil => Ok nil
      | (k, t') :: r => let? x := fill_entry t' in let? q := go r in Ok ((k, x) :: q)
      end) d)); [reflexivity|].
  f_equal. induction d as [|[k t] d IH]; cbn [rmapM fst snd]; [reflexivity|]. rewrite <- IH.
  destruct (fill_entry t); reflexivity.
Qed.
Lemma fill_clean_entries (fv : tree) (d : dict tree) : (forall e, fv <> TDict e) ->
  (forall k t, In (k, t) d -> all_dicts t /\ (t <> TDict nil -> exists t', fill1 t = Ok t' /\ clean1 t' = t)) ->
  exists d', rmapM (fun kt => let? x := match snd kt with TDict nil => Ok fv | _ => fill1 (snd kt) end in Ok (fst kt, x)) d = Ok d' /\
    clean_graph d' = d.
Proof.
  intros NF H. induction d as [|[k t] d IH]; cbn [rmapM fst snd]; [exists nil; auto|].
  destruct IH as (d' & -> & C); [intros; apply (H k0); now right|].
  destruct (H k t (or_introl eq_refl)) as (A & B). apply all_dicts_inv in A as (e & -> & _).
  destruct e as [|x e].
  - cbn. eexists. split; [reflexivity|]. cbn. f_equal; [|exact C]. f_equal. destruct fv; try reflexivity. now destruct (NF d0).
  - destruct (B ltac:(discriminate)) as (t' & -> & Q). cbn [rbind]. eexists; split; [reflexivity|].
    cbn. f_equal; [|exact C]. now f_equal.
Qed.
Lemma fill1_clean (t : tree) : all_dicts t -> exists t', fill1 t = Ok t' /\ clean1 t' = t.
Proof.
  induction t as [| | | | | | | | | d IH] using tree_rect'; intros A; try contradiction.
  rewrite fill1_links. unfold fill_entry. apply all_dicts_inv in A as (e & Q & A). injection Q as <-. rewrite Forall_forall in IH.
  destruct (fill_clean_entries (TInt 1) d) as (d' & -> & C); [discriminate| |].
  - intros k t I. split; [eauto|]. intros _. apply (IH (k, t) I). eauto.
  - exists (TDict d'). split; [reflexivity|]. cbn. f_equal. exact C.
Qed.
Lemma fill_clean (fv : tree) (d : dict tree) : (forall e, fv <> TDict e) -> all_dicts (TDict d) ->
  exists d', fill_graph fv d = Ok d' /\ clean_graph d' = d.
Proof.
  intros NF A. apply all_dicts_inv in A as (e & Q & A). injection Q as <-.
  apply fill_clean_entries; [exact NF|]. intros k t I. split; [eauto|]. intros _. apply fill1_clean. eauto.
Qed.
End Graphs.
