(** Proofs for C83. *)
From Verif Require Import Base BaseFacts ClassModel ClassSpec.
Open Scope string_scope.
Open Scope list_scope.

(** ** The merge *)
Lemma heads_nil ls : heads ls = nil -> forall l, In l ls -> l = nil.
Proof.
  induction ls as [|l ls IH]; [easy|]. cbn. intros H x [<-|I].
  - destruct l; [easy|discriminate].
  - apply IH; [|easy]. destruct l; [easy|discriminate].
Qed.
Lemma heads_In ls c : In c (heads ls) -> exists t, In (c :: t) ls.
Proof. unfold heads. rewrite in_flat_map. intros ([|h t] & I & J); [easy|]. destruct J as [<-|[]]. eauto. Qed.
Lemma pop_In c l x : In x (pop c l) -> In x l.
Proof. destruct l as [|h t]; [easy|]. cbn. destruct (Nat.eqb h c); cbn; tauto. Qed.
Lemma pop_gone c l : in_tail c l = false -> ~ In c (pop c l).
Proof.
  unfold in_tail, pop. destruct l as [|h t]; [easy|]. cbn [tl]. intros H I.
  assert (~ In c t) as N. { intros J. assert (existsb (Nat.eqb c) t = true) as X; [|congruence]. apply existsb_exists. exists c. split; [easy|]. apply Nat.eqb_refl. }
  destruct (Nat.eqb_spec h c); [easy|]. destruct I as [I|I]; easy.
Qed.
Lemma merge_spec fuel : forall ls r, merge fuel ls = Some r ->
  (forall l, In l ls -> sub_list l r) /\ NoDup r /\ (forall x, In x r -> exists l, In l ls /\ In x l).
Proof.
  induction fuel as [|n IH]; intros ls r H; cbn [merge] in H; destruct (heads ls) as [|h hs] eqn:Hh; try discriminate.
  1, 2: apply (f_equal (fun o => match o with Some x => x | None => r end)) in H; cbn in H; subst r;
    split; [intros l I; rewrite (heads_nil _ Hh l I); constructor|split; [constructor|easy]].
  destruct (find _ (h :: hs)) as [c|] eqn:F; [|discriminate]. destruct (find_some _ _ F) as (I & G). clear F.
  rewrite <- Hh in I. apply heads_In in I as (t & I). apply negb_true_iff in G.
  destruct (merge n (map (pop c) ls)) as [r'|] eqn:R; [|discriminate]. cbn in H.
  apply (f_equal (fun o => match o with Some x => x | None => r end)) in H. cbn in H. subst r.
  destruct (IH _ _ R) as (S & D & O). clear IH R.
  assert (forall l, In l ls -> in_tail c l = false) as T.
  { intros l J. destruct (in_tail c l) eqn:E; [|easy]. assert (existsb (in_tail c) ls = true) as X; [|congruence]. apply existsb_exists. eauto. }
  assert (~ In c r') as N.
  { intros J. destruct (O _ J) as (l' & L & M). apply in_map_iff in L as (l & <- & L). exact (pop_gone _ _ (T _ L) M). }
  split; [|split].
  - intros l J. destruct l as [|x l]; [constructor|]. specialize (S (pop c (x :: l)) (in_map _ _ _ J)). cbn in S.
    destruct (Nat.eqb_spec x c) as [->|X]; [now constructor|now apply sl_skip].
  - now constructor.
  - intros x [<-|J]; [exists (c :: t); split; [easy|now left]|].
    destruct (O _ J) as (l' & L & M). apply in_map_iff in L as (l & <- & L). exists l. split; [easy|]. now apply pop_In in M.
Qed.
Lemma sub_list_In A (l r : list A) x : sub_list l r -> In x l -> In x r.
Proof. induction 1; cbn; [easy| |]; intuition. Qed.

(** ** Lookups *)
Lemma first_attr_app cs l mro n : (forall x, In x mro -> x < length cs) -> first_attr (cs ++ l) mro n = first_attr cs mro n.
Proof.
  induction mro as [|c r IH]; intros H; [easy|]. cbn. rewrite nth_error_app1 by (apply H; now left).
  rewrite IH; [easy|]. intros x I. apply H. now right.
Qed.
Lemma first_attr_swap cs k k' mro n : k_attrs k = k_attrs k' -> first_attr (cs ++ [k]) mro n = first_attr (cs ++ [k']) mro n.
Proof.
  intros Q. induction mro as [|c r IH]; [easy|]. cbn. rewrite IH.
  destruct (Nat.lt_ge_cases c (length cs)) as [L|L]; [now rewrite !nth_error_app1|].
  rewrite !nth_error_app2 by easy. destruct (c - length cs) as [|[|]]; cbn; [now rewrite Q|easy|easy].
Qed.
Definition valid (cs : list klass) (l : list nat) : Prop := forall x, In x l -> x < length cs.
Lemma first_attr_split cs mro n v : first_attr cs mro n = Some v <->
  exists pre d post k, mro = pre ++ d :: post /\ nth_error cs d = Some k /\ dget (k_attrs k) n = Some v /\
    forall b, In b pre -> exists kb, nth_error cs b = Some kb /\ dget (k_attrs kb) n = None.
Proof.
  induction mro as [|c r IH]; cbn.
  - split; [easy|]. intros (pre & d & post & k & Q & _). now destruct pre.
  - destruct (nth_error cs c) as [kc|] eqn:C.
    + destruct (dget (k_attrs kc) n) as [u|] eqn:U.
      * split.
        -- intros H. exists nil, c, r, kc. now rewrite C, U, <- H.
        -- intros (pre & d & post & k & Q & D & V & P). destruct pre as [|x pre]; cbn in Q.
           ++ assert (c = d) as X by congruence. subst d. congruence.
           ++ destruct (P x) as (kb & B & B'); [now left|]. assert (c = x) as X by congruence. subst x. congruence.
      * rewrite IH. split.
        -- intros (pre & d & post & k & Q & D & V & P). exists (c :: pre), d, post, k. subst r. repeat split; try easy.
           intros b [<-|I]; [now exists kc|now apply P].
        -- intros (pre & d & post & k & Q & D & V & P). destruct pre as [|x pre]; cbn in Q.
           ++ assert (c = d) as X by congruence. subst d. congruence.
           ++ exists pre, d, post, k. repeat split; try easy; [congruence|]. intros b I. apply P. now right.
    + split; [easy|]. intros (pre & d & post & k & Q & D & V & P). destruct pre as [|x pre]; cbn in Q.
      * assert (c = d) as X by congruence. subst d. congruence.
      * destruct (P x) as (kb & B & B'); [now left|]. assert (c = x) as X by congruence. subst x. congruence.
Qed.
Lemma first_sub cs l r : sub_list l r -> NoDup r -> forall pre d post k n v, r = pre ++ d :: post ->
  nth_error cs d = Some k -> dget (k_attrs k) n = Some v ->
  (forall b, In b pre -> exists kb, nth_error cs b = Some kb /\ dget (k_attrs kb) n = None) -> In d l -> first_attr cs l n = Some v.
Proof.
  induction 1 as [l|x a b S IH|x a b S IH]; intros D pre d post k n v Q E V P I; [easy| |].
  - destruct pre as [|y pre]; cbn in Q.
    + assert (x = d) as X by congruence. subst x. cbn. now rewrite E, V.
    + assert (x = y) as X by congruence. subst y. destruct (P x) as (kb & B & B'); [now left|]. cbn. rewrite B, B'.
      apply (IH (proj2 (proj1 (NoDup_cons_iff _ _) D))) with pre d post k; try easy; [congruence|intros z Z; apply P; now right|].
      destruct I as [->|I]; [congruence|easy].
  - destruct pre as [|y pre]; cbn in Q.
    + exfalso. assert (x = d) as X by congruence. subst x. apply NoDup_cons_iff in D as (D & _). apply D. now apply sub_list_In with a.
    + apply (IH (proj2 (proj1 (NoDup_cons_iff _ _) D))) with pre d post k; try easy; [congruence|]. intros z Z. apply P. now right.
Qed.

(** ** What a class statement does *)
Lemma get_classes_In w bs ks : get_classes w bs = Ok ks ->
  (forall b, In b bs -> exists k, nth_error (cl w) b = Some k /\ In k ks) /\ (forall k, In k ks -> exists b, In b bs /\ nth_error (cl w) b = Some k).
Proof.
  unfold get_classes. revert ks. induction bs as [|b bs IH]; cbn; intros ks H.
  - apply (f_equal (fun o => match o with Ok x => x | Err _ => ks end)) in H. cbn in H. subst ks. split; [easy|]. intros k [].
  - destruct (nth_error (cl w) b) as [k|] eqn:K; [|discriminate]. cbn in H.
    destruct (rmapM _ bs) as [ks'|] eqn:R; [|discriminate]. cbn in H.
    apply (f_equal (fun o => match o with Ok x => x | Err _ => ks end)) in H. cbn in H. subst ks.
    destruct (IH _ eq_refl) as (A & B). split.
    + intros x [<-|I]; [exists k; split; [easy|now left]|]. destruct (A _ I) as (k' & N & J). exists k'. split; [easy|now right].
    + intros x [<-|I]; [exists b; split; [now left|easy]|]. destruct (B _ I) as (b' & N & J). exists b'. split; [now right|easy].
Qed.
Lemma joins_None l : joins l = Ok None -> forall m, In m l -> m = None.
Proof.
  induction l as [|a l IH]; [easy|]. cbn. destruct (joins l) as [b|] eqn:B; [|discriminate]. cbn. intros H m [<-|I].
  - destruct a as [h|]; [|easy]. destruct b as [h'|]; cbn in H; [|discriminate]. destruct (hier_eqb h h'); discriminate.
  - apply IH; [|easy]. destruct b as [h'|]; [|easy]. destruct a as [h|]; cbn in H; [|discriminate]. destruct (hier_eqb h h'); discriminate.
Qed.
Definition put_reg (w : classes) (h : hier) (s : string) (c : nat) : hier -> dict nat :=
  fun h' => if hier_eqb h h' then dset (cl_reg w h') s c else cl_reg w h'.
Lemma statement_ok meta bases attrs w c w' : class_statement meta bases attrs w = (Ok c, w') ->
  exists bs m r abs, get_classes w bases = Ok bs /\ joins (meta :: map k_meta bs) = Ok m /\
    merge (length (List.concat (map k_mro bs ++ [bases]))) (map k_mro bs ++ [bases]) = Some r /\ c = length (cl w) /\
    cl w' = cl w ++ [Klass m attrs (c :: r) abs] /\
    match m with
    | None => abs = nil /\ cl_reg w' = cl_reg w
    | Some h => abs = abstracts (cl w') (c :: r) attrs bs /\
        ((abs <> nil /\ cl_reg w' = cl_reg w) \/
         (abs = nil /\ exists s, first_attr (cl w') (c :: r) (attr_name h) = Some (Str s) /\ cl_reg w' = put_reg w h s c))
    end.
Proof.
  unfold class_statement. destruct (get_classes w bases) as [bs|] eqn:B; [|discriminate]. cbn [rbind].
  destruct (joins _) as [m|] eqn:J; [|discriminate]. cbn [rbind].
  destruct (merge _ _) as [r|] eqn:R; [|discriminate]. cbn [of_opt rbind].
  intros H. exists bs, m, r. set (c0 := length (cl w)) in *.
  destruct m as [h|].
  - assert (forall abs n, first_attr (cl w ++ [Klass (Some h) attrs (c0 :: r) abs]) (c0 :: r) n = first_attr (cl w ++ [Klass (Some h) attrs (c0 :: r) nil]) (c0 :: r) n) as X.
    { intros abs n. now apply first_attr_swap. }
    assert (forall abs, abstracts (cl w ++ [Klass (Some h) attrs (c0 :: r) abs]) (c0 :: r) attrs bs = abstracts (cl w ++ [Klass (Some h) attrs (c0 :: r) nil]) (c0 :: r) attrs bs) as Y.
    { intros abs. unfold abstracts. f_equal. apply filter_ext. intros n. now rewrite X. }
    destruct (abstracts _ _ _ _) as [|a abs] eqn:A.
    + destruct (first_attr _ _ _) as [[|s|]|] eqn:F; try discriminate.
      assert (c0 = c /\ Classes (cl w ++ [Klass (Some h) attrs (c0 :: r) []]) (put_reg w h s c0) = w') as (<- & <-).
      { split; [exact (f_equal (fun o => match fst o with Ok x => x | Err _ => c0 end) H)|exact (f_equal snd H)]. }
      exists nil. cbn [cl cl_reg]. do 5 (split; [first [easy|assumption]|]). split; [now rewrite A|]. right. split; [easy|]. exists s. split; [exact F|easy].
    + assert (c0 = c /\ Classes (cl w ++ [Klass (Some h) attrs (c0 :: r) (a :: abs)]) (cl_reg w) = w') as (<- & <-).
      { split; [exact (f_equal (fun o => match fst o with Ok x => x | Err _ => c0 end) H)|exact (f_equal snd H)]. }
      exists (a :: abs). cbn [cl cl_reg]. do 5 (split; [first [easy|assumption]|]). split; [now rewrite Y|]. left. easy.
  - assert (c0 = c /\ Classes (cl w ++ [Klass None attrs (c0 :: r) []]) (cl_reg w) = w') as (<- & <-).
    { split; [exact (f_equal (fun o => match fst o with Ok x => x | Err _ => c0 end) H)|exact (f_equal snd H)]. }
    exists nil. cbn [cl cl_reg]. do 5 (split; [first [easy|assumption]|]). easy.
Qed.
Lemma statement_err meta bases attrs w e w' : class_statement meta bases attrs w = (Err e, w') -> w' = w.
Proof. unfold class_statement. destruct (rbind _ _) as [[c w1]|x]; intros H; [discriminate|]. exact (eq_sym (f_equal snd H)). Qed.

(** ** The invariant *)
Record made (w : classes) (c : nat) (k : klass) (bases : list nat) (r : list nat) : Prop := {
  md_mro : k_mro k = c :: r;
  md_nodup : NoDup r;
  md_old : forall x, In x r -> x < c;
  md_base : forall b, In b bases -> b < c;
  md_sub : forall b kb, In b bases -> nth_error (cl w) b = Some kb -> sub_list (k_mro kb) r /\ (k_meta k = None -> k_meta kb = None);
  md_from : forall x, In x r -> exists b kb, In b bases /\ nth_error (cl w) b = Some kb /\ In x (k_mro kb);
  md_plain : k_meta k = None -> k_abs k = nil;
  md_abs : k_meta k <> None -> forall n, In n (k_abs k) <->
    dget (k_attrs k) n = Some Abstract \/
    ((exists b kb, In b bases /\ nth_error (cl w) b = Some kb /\ In n (k_abs kb)) /\ first_attr (cl w) (k_mro k) n = Some Abstract) }.
Definition reg_ok (w : classes) : Prop := forall h s c,
  dget (cl_reg w h) s = Some c <->
  exists k, nth_error (cl w) c = Some k /\ k_meta k = Some h /\ k_abs k = nil /\ first_attr (cl w) (k_mro k) (attr_name h) = Some (Str s) /\
    forall c' k', c < c' -> nth_error (cl w) c' = Some k' -> k_meta k' = Some h -> k_abs k' = nil -> first_attr (cl w) (k_mro k') (attr_name h) <> Some (Str s).
Definition good (w : classes) : Prop :=
  0 < length (cl w) /\ (forall c k, nth_error (cl w) c = Some k -> exists bases r, made w c k bases r) /\ reg_ok w.

Lemma nth_lt {A} (l : list A) i x : nth_error l i = Some x -> i < length l.
Proof. intros H. apply nth_error_Some. congruence. Qed.
Lemma made_valid w c k bases r : made w c k bases r -> c < length (cl w) -> valid (cl w) (k_mro k).
Proof. intros M L x. rewrite (md_mro _ _ _ _ _ M). intros [<-|I]; [easy|]. pose proof (md_old _ _ _ _ _ M _ I). lia. Qed.
Lemma made_app w c k bases r k' reg : made w c k bases r -> c < length (cl w) -> made (Classes (cl w ++ [k']) reg) c k bases r.
Proof.
  intros M L. pose proof (made_valid _ _ _ _ _ M L) as VA. destruct M as [A B C D E F G H]. split; try easy; cbn [cl].
  - intros b kb I N. rewrite nth_error_app1 in N by (specialize (D _ I); lia). eauto.
  - intros x I. destruct (F _ I) as (b & kb & P & Q & R). exists b, kb. rewrite nth_error_app1 by (specialize (D _ P); lia). easy.
  - intros X n. rewrite (H X n). rewrite (first_attr_app (cl w) [k'] (k_mro k) n VA).
    split; (intros [O|((b & kb & P & Q & R) & S)]; [now left|right; split; [|easy]; exists b, kb]).
    + rewrite nth_error_app1 by (specialize (D _ P); lia). easy.
    + rewrite nth_error_app1 in Q by (specialize (D _ P); lia). easy.
Qed.
Lemma good_start : good start.
Proof.
  split; [cbn; lia|]. split.
  - intros [|c] k H; [|destruct c; discriminate]. cbn in H. apply (f_equal (fun o => match o with Some x => x | None => k end)) in H. cbn in H. subst k.
    exists nil, nil. split; cbn; try easy. constructor.
  - intros h s c. split; [discriminate|]. intros (k & N & M & _). destruct c as [|c]; [|destruct c; discriminate]. cbn in N.
    apply (f_equal (fun o => match o with Some x => x | None => k end)) in N. cbn in N. subst k. discriminate.
Qed.
Lemma hier_eqb_spec a b : reflect (a = b) (hier_eqb a b).
Proof. destruct a, b; constructor; easy. Qed.
Lemma is_abstract_iff o : is_abstract o = true <-> o = Some Abstract.
Proof. destruct o as [[| |]|]; easy. Qed.

Lemma new_made w meta bases attrs c w' : good w -> class_statement meta bases attrs w = (Ok c, w') ->
  exists k r, nth_error (cl w') c = Some k /\ c = length (cl w) /\ k_attrs k = attrs /\ made w' c k bases r /\ cl w' = cl w ++ [k].
Proof.
  intros (G0 & G & _) H. destruct (statement_ok _ _ _ _ _ _ H) as (bs & m & r & abs & B & J & R & C & W & X).
  exists (Klass m attrs (c :: r) abs), r. destruct (get_classes_In _ _ _ B) as (B1 & B2).
  destruct (merge_spec _ _ _ R) as (M1 & M2 & M3).
  assert (forall b, In b bases -> b < c) as L.
  { intros b I. destruct (B1 _ I) as (kb & N & _). apply nth_lt in N. lia. }
  assert (forall kb b, nth_error (cl w) b = Some kb -> forall x, In x (k_mro kb) -> x < c) as V.
  { intros kb b N x I. destruct (G _ _ N) as (bb & rb & Mb). pose proof (made_valid _ _ _ _ _ Mb (nth_lt _ _ _ N) x I). lia. }
  split. { rewrite W, C. rewrite nth_error_app2 by lia. now rewrite Nat.sub_diag. }
  split; [easy|]. split; [easy|]. split; [|easy].
  assert (forall b, In b bases -> nth_error (cl w') b = nth_error (cl w) b) as K.
  { intros b I. rewrite W. apply nth_error_app1. specialize (L _ I). lia. }
  split; cbn [k_mro k_meta k_abs k_attrs]; try easy.
  - intros x I. destruct (M3 _ I) as (l & Il & Ix). apply in_app_or in Il as [Il|[<-|[]]]; [|now apply L].
    apply in_map_iff in Il as (kb & <- & Ik). destruct (B2 _ Ik) as (b & Ib & Nb). now apply (V kb b).
  - intros b kb I N. rewrite (K _ I) in N. destruct (B1 _ I) as (kb' & N' & Ik). assert (kb' = kb) as -> by congruence. split.
    + apply M1. apply in_or_app. left. now apply in_map.
    + intros ->. apply (joins_None _ J). right. now apply in_map.
  - intros x I. destruct (M3 _ I) as (l & Il & Ix). apply in_app_or in Il as [Il|[<-|[]]].
    + apply in_map_iff in Il as (kb & <- & Ik). destruct (B2 _ Ik) as (b & Ib & Nb). exists b, kb. rewrite (K _ Ib). easy.
    + destruct (B1 _ Ix) as (kb & Nb & _). exists x, kb. rewrite (K _ Ix). split; [easy|]. split; [easy|].
      destruct (G _ _ Nb) as (bb & rb & Mb). rewrite (md_mro _ _ _ _ _ Mb). now left.
  - intros ->. now destruct X.
  - intros Q n. destruct m as [h|]; [|easy]. destruct X as (-> & _). unfold abstracts. rewrite in_app_iff, !filter_In, !is_abstract_iff, in_flat_map.
    split.
    + intros [(_ & O)|((kb & Ik & In_) & O)]; [now left|right]. split; [|easy]. destruct (B2 _ Ik) as (b & Ib & Nb). exists b, kb. rewrite (K _ Ib). easy.
    + intros [O|((b & kb & Ib & Nb & In_) & O)].
      * left. split; [|easy]. apply dget_Some_In_keys. now exists Abstract.
      * right. split; [|easy]. exists kb. split; [|easy]. rewrite (K _ Ib) in Nb. destruct (B1 _ Ib) as (kb' & N' & Ik). congruence.
Qed.
Lemma good_step w s : good w -> good (run1 w s).
Proof.
  intros GW. destruct s as ((meta & bases) & attrs). cbn. destruct (class_statement meta bases attrs w) as [[c|e] w'] eqn:H; cbn [snd].
  2: { now rewrite (statement_err _ _ _ _ _ _ H). }
  destruct (new_made _ _ _ _ _ _ GW H) as (k & r & N & C & A & Mk & W). pose proof GW as (G0 & G & RG).
  split; [rewrite W, app_length; lia|]. split.
  - intros d kd Nd. destruct (Nat.lt_ge_cases d (length (cl w))) as [L|L].
    + rewrite W, nth_error_app1 in Nd by easy. destruct (G _ _ Nd) as (bb & rb & Mb). exists bb, rb.
      pose proof (made_app _ _ _ _ _ k (cl_reg w') Mb L) as X. rewrite <- W in X. now destruct w'.
    + assert (d = c) as ->. { apply nth_lt in Nd. rewrite W, app_length in Nd. cbn in Nd. lia. }
      assert (kd = k) as -> by congruence. eauto.
  - assert (forall d kd, d < length (cl w) -> nth_error (cl w') d = Some kd <-> nth_error (cl w) d = Some kd) as OLD.
    { intros d kd L. rewrite W, nth_error_app1 by easy. easy. }
    assert (forall d kd n, nth_error (cl w) d = Some kd -> first_attr (cl w') (k_mro kd) n = first_attr (cl w) (k_mro kd) n) as FA.
    { intros d kd n Nd. destruct (G _ _ Nd) as (bb & rb & Mb). rewrite W. apply first_attr_app. exact (made_valid _ _ _ _ _ Mb (nth_lt _ _ _ Nd)). }
    assert (forall d kd, nth_error (cl w') d = Some kd -> (d < length (cl w) /\ nth_error (cl w) d = Some kd) \/ (d = c /\ kd = k)) as CASES.
    { intros d kd Nd. destruct (Nat.lt_ge_cases d (length (cl w))) as [L|L]; [left; split; [easy|]; now apply OLD|right].
      assert (d = c) as -> by (apply nth_lt in Nd; rewrite W, app_length in Nd; cbn in Nd; lia). split; congruence. }
    destruct (statement_ok _ _ _ _ _ _ H) as (bs & m & r' & abs & B & J & R & C' & W' & X).
    assert (k = Klass m attrs (c :: r') abs) as Kk.
    { rewrite W' in W. apply app_inv_head in W. congruence. }
    intros h s d.
    assert (dget (cl_reg w' h) s = Some d <->
      (k_meta k = Some h /\ k_abs k = nil /\ first_attr (cl w') (k_mro k) (attr_name h) = Some (Str s) /\ d = c) \/
      (~ (k_meta k = Some h /\ k_abs k = nil /\ first_attr (cl w') (k_mro k) (attr_name h) = Some (Str s)) /\ dget (cl_reg w h) s = Some d)) as RR.
    { rewrite Kk. cbn [k_meta k_abs k_mro]. destruct m as [h0|].
      - destruct X as (_ & [(Q & ->)|(-> & s0 & F & ->)]).
        + split; [intros D; right; split; [tauto|easy]|]. intros [(_ & Z & _)|(_ & D)]; [easy|easy].
        + unfold put_reg. destruct (hier_eqb_spec h0 h) as [->|NE].
          * rewrite dget_dset. destruct (String.eqb_spec s s0) as [->|NS].
            -- split; [intros D; left; repeat split; try easy; congruence|]. intros [(_ & _ & _ & ->)|(Z & _)]; [easy|]. exfalso. apply Z. easy.
            -- split; [intros D; right; split; [intros (_ & _ & Z); congruence|easy]|]. intros [(_ & _ & Z & _)|(_ & D)]; [congruence|easy].
          * split; [intros D; right; split; [intros (Z & _); congruence|easy]|]. intros [(Z & _)|(_ & D)]; [congruence|easy].
      - destruct X as (_ & ->). split; [intros D; right; split; [intros (Z & _); discriminate|easy]|]. intros [(Z & _)|(_ & D)]; [discriminate|easy]. }
    rewrite RR, (RG h s d). clear RR. split.
    + intros [(P1 & P2 & P3 & ->)|(NP & kd & Nd & Q1 & Q2 & Q3 & Q4)].
      * exists k. repeat (split; [easy|]). intros c' k' L N'. destruct (CASES _ _ N') as [(L' & _)|(-> & _)]; lia.
      * exists kd. pose proof (nth_lt _ _ _ Nd) as Ld. split; [now apply OLD|]. repeat (split; [easy|]). rewrite (FA _ _ _ Nd). split; [easy|].
        intros c' k' L N' M' A'. destruct (CASES _ _ N') as [(L' & N'')|(-> & ->)].
        -- rewrite (FA _ _ _ N''). now apply Q4 with c'.
        -- intros Z. now apply NP.
    + intros (kd & Nd & Q1 & Q2 & Q3 & Q4). destruct (CASES _ _ Nd) as [(Ld & Nd')|(-> & ->)]; [right|left; easy].
      split. { intros (P1 & P2 & P3). apply (Q4 c k); try easy. lia. }
      exists kd. rewrite (FA _ _ _ Nd') in Q3. repeat (split; [easy|]).
      intros c' k' L N' M' A'. rewrite <- (FA _ _ _ N'). apply Q4 with c'; try easy. apply OLD; [now apply nth_lt in N'|easy].
Qed.
Theorem good_run l : good (run l).
Proof.
  unfold run. assert (forall w, good w -> good (fold_left run1 l w)) as X; [|exact (X _ good_start)].
  induction l as [|s l IH]; intros w G; [easy|]. cbn. apply IH. now apply good_step.
Qed.

(** ** Abstract classes *)
Lemma abs_iff w : good w -> no_abstract_mixins w -> forall c k, nth_error (cl w) c = Some k ->
  (k_meta k = None -> forall n, first_attr (cl w) (k_mro k) n <> Some Abstract) /\
  forall n, In n (k_abs k) <-> first_attr (cl w) (k_mro k) n = Some Abstract.
Proof.
  intros (_ & G & _) NM c. induction c as [c IH] using lt_wf_ind. intros k N. destruct (G _ _ N) as (bases & r & Mk).
  assert (forall n, first_attr (cl w) (k_mro k) n = Some Abstract -> dget (k_attrs k) n = Some Abstract \/
    exists b kb, In b bases /\ nth_error (cl w) b = Some kb /\ first_attr (cl w) (k_mro kb) n = Some Abstract) as UP.
  { intros n. rewrite (md_mro _ _ _ _ _ Mk). cbn. rewrite N. destruct (dget (k_attrs k) n) as [v|]; [now left|]. intros F. right.
    apply first_attr_split in F as (pre & d & post & kd & Q & D & V & P).
    destruct (md_from _ _ _ _ _ Mk d) as (b & kb & Ib & Nb & Id). { rewrite Q. apply in_or_app. right. now left. }
    exists b, kb. repeat (split; [easy|]). destruct (md_sub _ _ _ _ _ Mk b kb Ib Nb) as (S & _).
    exact (first_sub _ _ _ S (md_nodup _ _ _ _ _ Mk) _ _ _ _ _ _ Q D V P Id). }
  split.
  - intros M n F. destruct (UP _ F) as [O|(b & kb & Ib & Nb & Fb)].
    + apply (NM c k n N M). exists k. easy.
    + destruct (IH b (md_base _ _ _ _ _ Mk b Ib) kb Nb) as (X & _). apply (X (proj2 (md_sub _ _ _ _ _ Mk b kb Ib Nb) M) n Fb).
  - intros n. destruct (k_meta k) as [h|] eqn:M.
    + rewrite (md_abs _ _ _ _ _ Mk) by congruence. split.
      * intros [O|(_ & F)]; [|easy]. rewrite (md_mro _ _ _ _ _ Mk). cbn. now rewrite N, O.
      * intros F. destruct (UP _ F) as [O|(b & kb & Ib & Nb & Fb)]; [now left|right]. split; [|easy]. exists b, kb. repeat (split; [easy|]).
        now apply (IH b (md_base _ _ _ _ _ Mk b Ib) kb Nb).
    + rewrite (md_plain _ _ _ _ _ Mk M). split; [easy|]. intros F. exfalso. destruct (UP _ F) as [O|(b & kb & Ib & Nb & Fb)].
      * apply (NM c k n N M). exists k. easy.
      * destruct (IH b (md_base _ _ _ _ _ Mk b Ib) kb Nb) as (X & _). apply (X (proj2 (md_sub _ _ _ _ _ Mk b kb Ib Nb) M) n Fb).
Qed.
Lemma inherits_iff w c k n v : good w -> nth_error (cl w) c = Some k -> inherits w c n v <-> first_attr (cl w) (k_mro k) n = Some v.
Proof.
  intros (_ & G & _) N. destruct (G _ _ N) as (bases & r & Mk). pose proof (made_valid _ _ _ _ _ Mk (nth_lt _ _ _ N)) as VA.
  rewrite first_attr_split. split.
  - intros (k' & pre & d & post & N' & Q & (kd & D & V) & P). assert (k' = k) as -> by congruence. exists pre, d, post, kd. repeat (split; [easy|]).
    intros b I. destruct (nth_error (cl w) b) as [kb|] eqn:B.
    + exists kb. split; [easy|]. destruct (dget (k_attrs kb) n) as [u|] eqn:U; [|easy]. exfalso. apply (P b u I). exists kb. easy.
    + exfalso. apply nth_error_None in B. assert (b < length (cl w)) as L; [|lia]. apply VA. rewrite Q. apply in_or_app. now left.
  - intros (pre & d & post & kd & Q & D & V & P). exists k, pre, d, post. repeat (split; [easy|]). split; [exists kd; easy|].
    intros b u I (kb & B & U). destruct (P _ I) as (kb' & B' & U'). congruence.
Qed.
Theorem instantiate_iff l c : no_abstract_mixins (run l) -> c < length (cl (run l)) ->
  (incomplete (run l) c -> instantiate (run l) c = Err TypeError) /\ (~ incomplete (run l) c -> instantiate (run l) c = Ok c).
Proof.
  intros NM L. pose proof (good_run l) as G. destruct (nth_error (cl (run l)) c) as [k|] eqn:N; [|apply nth_error_None in N; lia].
  destruct (abs_iff _ G NM _ _ N) as (_ & A). unfold instantiate. rewrite N. cbn. split.
  - intros (n & I). apply (inherits_iff _ _ _ n _ G N) in I. apply A in I. now destruct (k_abs k).
  - intros C. destruct (k_abs k) as [|n a] eqn:K; [easy|]. exfalso. apply C. exists n. apply (inherits_iff _ _ _ n _ G N). apply A. now left.
Qed.
Lemma complete_iff w c k : good w -> no_abstract_mixins w -> nth_error (cl w) c = Some k -> k_abs k = nil <-> ~ incomplete w c.
Proof.
  intros G NM N. destruct (abs_iff _ G NM _ _ N) as (_ & A). split.
  - intros K (n & I). apply (inherits_iff _ _ _ n _ G N) in I. apply A in I. now rewrite K in I.
  - intros C. destruct (k_abs k) as [|n a]; [easy|]. exfalso. apply C. exists n. apply (inherits_iff _ _ _ n _ G N). apply A. now left.
Qed.

(** ** The registry *)
Theorem registry_iff l h s c : no_abstract_mixins (run l) ->
  registry_make (run l) h s = Ok c <-> latest (run l) h s c.
Proof.
  intros NM. pose proof (good_run l) as G. pose proof G as (_ & _ & RG). set (w := run l) in *.
  unfold registry_make. assert (dget (cl_reg w h) s = Some c <-> latest w h s c) as X.
  { rewrite (RG h s c). unfold latest, member. split.
    - intros (k & N & M & A & F & Q). split; [exists k; easy|]. split; [now apply (complete_iff w c k)|]. split; [now apply (inherits_iff w c k)|].
      intros c' L (k' & N' & M') C' I'. apply (Q c' k' L N' M'); [now apply (complete_iff w c' k')|now apply (inherits_iff w c' k')].
    - intros ((k & N & M) & C & I & Q). exists k. repeat (split; [easy|]). split; [now apply (complete_iff w c k)|]. split; [now apply (inherits_iff w c k)|].
      intros c' k' L N' M' A' F'. apply (Q c' L); [exists k'; easy|now apply (complete_iff w c' k')|now apply (inherits_iff w c' k')]. }
  rewrite <- X. clear X. destruct (dget (cl_reg w h) s) as [d|] eqn:D; cbn; [|easy].
  apply RG in D as (k & N & M & A & _). unfold instantiate. rewrite N. cbn. rewrite A. split; intros H.
  - exact (f_equal (fun o => match o with Ok x => Some x | Err _ => None end) H).
  - exact (f_equal (fun o => match o with Some x => Ok x | None => Err Unmodelled end) H).
Qed.
Lemma mixins_before meta bases attrs w c w' : class_statement meta bases attrs w = (Ok c, w') -> no_abstract_mixins w' -> no_abstract_mixins w.
Proof.
  intros H NM d k n N M (k' & N' & D). destruct (statement_ok _ _ _ _ _ _ H) as (bs & m & r & abs & _ & _ & _ & _ & W & _).
  assert (nth_error (cl w') d = Some k) as N2. { rewrite W, nth_error_app1; [easy|]. now apply nth_lt in N. }
  apply (NM d k n N2 M). exists k. split; [easy|]. congruence.
Qed.
Theorem registry_kept l meta bases attrs c w' h s : class_statement meta bases attrs (run l) = (Ok c, w') ->
  ~ inherits w' c (attr_name h) (Str s) -> registry_make w' h s = registry_make (run l) h s.
Proof.
  intros H NI. pose proof (good_run l) as G. destruct (new_made _ _ _ _ _ _ G H) as (k & r & N & C & A & Mk & W).
  assert (good w') as G'. { pose proof (good_step _ (meta, bases, attrs) G) as X. cbn in X. now rewrite H in X. }
  destruct (statement_ok _ _ _ _ _ _ H) as (bs & m & r' & abs & B & J & R & C' & W' & X).
  assert (k = Klass m attrs (c :: r') abs) as Kk. { rewrite W' in W. apply app_inv_head in W. congruence. }
  assert (dget (cl_reg w' h) s = dget (cl_reg (run l) h) s) as Q.
  { destruct m as [h0|].
    - destruct X as (_ & [(_ & ->)|(_ & s0 & F & ->)]); [easy|]. unfold put_reg. destruct (hier_eqb_spec h0 h) as [->|NE]; [|easy].
      apply dget_dset_neq. intros ->. apply NI. apply (inherits_iff _ _ _ _ _ G' N). rewrite Kk. exact F.
    - now destruct X as (_ & ->). }
  unfold registry_make. rewrite Q. destruct (dget (cl_reg (run l) h) s) as [d|] eqn:D; [|easy]. cbn.
  destruct G as (_ & _ & RG). apply RG in D as (kd & Nd & _). unfold instantiate. rewrite Nd. rewrite W, nth_error_app1 by (now apply nth_lt in Nd). now rewrite Nd.
Qed.
(** ** A class without a name *)
Theorem nameless l h bases attrs : no_abstract_mixins (run l) ->
  forall c w', class_statement (Some h) bases attrs (run l) = (Ok c, w') -> ~ incomplete w' c ->
  no_abstract_mixins w' -> exists s, inherits w' c (attr_name h) (Str s).
Proof.
  intros NM c w' H C NM'. pose proof (good_run l) as G. destruct (new_made _ _ _ _ _ _ G H) as (k & r & N & C0 & A & Mk & W).
  assert (good w') as G'. { pose proof (good_step _ (Some h, bases, attrs) G) as X. cbn in X. now rewrite H in X. }
  destruct (statement_ok _ _ _ _ _ _ H) as (bs & m & r' & abs & B & J & R & C' & W' & X).
  assert (k = Klass m attrs (c :: r') abs) as Kk. { rewrite W' in W. apply app_inv_head in W. congruence. }
  destruct m as [h0|]. 2: { exfalso. pose proof (joins_None _ J (Some h) (or_introl eq_refl)). discriminate. }
  assert (h0 = h) as ->.
  { cbn in J. destruct (joins (map k_meta bs)) as [[h1|]|]; cbn in J; try discriminate.
    - destruct (hier_eqb h h1); [|discriminate]. exact (eq_sym (f_equal (fun o => match o with Ok (Some x) => x | _ => h end) J)).
    - exact (eq_sym (f_equal (fun o => match o with Ok (Some x) => x | _ => h end) J)). }
  destruct X as (_ & [(Q & _)|(_ & s & F & _)]).
  - exfalso. apply Q. apply (complete_iff _ _ _ G' NM' N) in C. now rewrite Kk in C.
  - exists s. apply (inherits_iff _ _ _ _ _ G' N). rewrite Kk. exact F.
Qed.

(** ** Subclass checks *)
Theorem no_answer w h c cls b : member w h cls -> issubclass w c cls <> Ok b.
Proof.
  intros (k & N & M). unfold issubclass. destruct (nth_error (cl w) c) as [kc|]; [|discriminate]. cbn. rewrite N. cbn. rewrite M.
  unfold need. destruct (class_attr w cls "__subclasshook__"); [discriminate|].
  destruct (existsb _ _); [destruct (class_attr w cls "_abc_cache")|destruct (class_attr w cls "_abc_registry")]; discriminate.
Qed.

(** ** Later histories *)
Lemma run_app l1 l2 : run (l1 ++ l2) = fold_left run1 l2 (run l1).
Proof. unfold run. apply fold_left_app. Qed.
Lemma run_grows l2 : forall w, length (cl w) <= length (cl (fold_left run1 l2 w)).
Proof.
  induction l2 as [|((m & b) & a) l2 IH]; intros w; [easy|]. cbn. etransitivity; [|apply IH].
  destruct (class_statement m b a w) as [[c|e] w'] eqn:H; cbn [snd].
  - destruct (statement_ok _ _ _ _ _ _ H) as (bs & mm & r & abs & _ & _ & _ & _ & W & _). rewrite W, app_length. cbn. lia.
  - now rewrite (statement_err _ _ _ _ _ _ H).
Qed.
Lemma inherits_later w m b a c w' d n v : good w -> good w' -> class_statement m b a w = (Ok c, w') -> d < length (cl w) -> inherits w d n v -> inherits w' d n v.
Proof.
  intros G G' H L I. destruct (new_made _ _ _ _ _ _ G H) as (k & r & N & C & A & Mk & W).
  destruct (nth_error (cl w) d) as [kd|] eqn:D; [|apply nth_error_None in D; lia].
  assert (nth_error (cl w') d = Some kd) as D'. { now rewrite W, nth_error_app1. }
  apply (inherits_iff _ _ _ _ _ G D) in I. apply (inherits_iff _ _ _ _ _ G' D'). rewrite W, first_attr_app; [easy|].
  destruct G as (_ & G & _). destruct (G _ _ D) as (bb & rb & Mb). exact (made_valid _ _ _ _ _ Mb L).
Qed.
Theorem kept_by_history l1 l2 h s :
  (forall c, length (cl (run l1)) <= c -> ~ inherits (run (l1 ++ l2)) c (attr_name h) (Str s)) ->
  registry_make (run (l1 ++ l2)) h s = registry_make (run l1) h s.
Proof.
  induction l2 as [|st l2 IH] using rev_ind; [now rewrite app_nil_r|]. intros NI.
  assert (run (l1 ++ l2 ++ [st]) = run1 (run (l1 ++ l2)) st) as R. { now rewrite app_assoc, run_app. }
  rewrite R. rewrite R in NI. clear R. destruct st as ((m & b) & a). cbn [run1] in *. destruct (class_statement m b a (run (l1 ++ l2))) as [[c|e] w'] eqn:H; cbn [snd] in *.
  2: { rewrite (statement_err _ _ _ _ _ _ H) in *. now apply IH. }
  pose proof (good_run (l1 ++ l2)) as G. assert (good w') as G'. { pose proof (good_step _ (m, b, a) G) as X. cbn in X. now rewrite H in X. }
  destruct (new_made _ _ _ _ _ _ G H) as (k & r & N & C & A & Mk & W).
  assert (length (cl (run l1)) <= length (cl (run (l1 ++ l2)))) as L. { rewrite run_app. apply run_grows. }
  rewrite (registry_kept _ _ _ _ _ _ _ _ H); [|apply NI; lia]. apply IH. intros d Ld I.
  destruct (Nat.lt_ge_cases d (length (cl (run (l1 ++ l2))))) as [Q|Q].
  - apply (NI d Ld). now apply (inherits_later (run (l1 ++ l2)) m b a c w').
  - destruct I as (kd & _ & _ & _ & Nd & _). apply nth_lt in Nd. lia.
Qed.
Theorem order_of_class l m bases a c w' : class_statement m bases a (run l) = (Ok c, w') ->
  exists k r, nth_error (cl w') c = Some k /\ k_mro k = c :: r /\ NoDup (c :: r) /\
    (forall b, In b bases -> exists kb, nth_error (cl (run l)) b = Some kb /\ sub_list (k_mro kb) r) /\
    (forall x, In x r -> exists b kb, In b bases /\ nth_error (cl (run l)) b = Some kb /\ In x (k_mro kb)).
Proof.
  intros H. destruct (new_made _ _ _ _ _ _ (good_run l) H) as (k & r & N & C & A & Mk & W).
  destruct (statement_ok _ _ _ _ _ _ H) as (bs & mm & r' & abs & B & _). destruct (get_classes_In _ _ _ B) as (B1 & _).
  assert (forall b kb, In b bases -> nth_error (cl (run l)) b = Some kb -> nth_error (cl w') b = Some kb) as OLD.
  { intros b kb I Nb. rewrite W, nth_error_app1; [easy|]. now apply nth_lt in Nb. }
  exists k, r. split; [easy|]. split; [exact (md_mro _ _ _ _ _ Mk)|]. split; [|split].
  - constructor; [|exact (md_nodup _ _ _ _ _ Mk)]. intros I. pose proof (md_old _ _ _ _ _ Mk _ I). lia.
  - intros b I. destruct (B1 _ I) as (kb & Nb & _). exists kb. split; [easy|]. exact (proj1 (md_sub _ _ _ _ _ Mk b kb I (OLD _ _ I Nb))).
  - intros x I. destruct (md_from _ _ _ _ _ Mk x I) as (b & kb & Ib & Nb & Ix). exists b, kb. split; [easy|]. split; [|easy].
    destruct (B1 _ Ib) as (kb' & Nb' & _). rewrite (OLD _ _ Ib Nb') in Nb. congruence.
Qed.

(** Whether classes outside the families have abstract methods can be computed. *)
Definition plain_ok (k : klass) : bool :=
  match k_meta k with Some _ => true | None => forallb (fun nv => match snd nv with Abstract => false | _ => true end) (k_attrs k) end.
Lemma mixins_check w : forallb plain_ok (cl w) = true -> no_abstract_mixins w.
Proof.
  intros A c k n N M (k' & N' & D). assert (k' = k) as -> by congruence. clear N'.
  rewrite forallb_forall in A. specialize (A _ (nth_error_In _ _ N)). unfold plain_ok in A. rewrite M in A. rewrite forallb_forall in A.
  apply dget_In in D. now specialize (A _ D).
Qed.
