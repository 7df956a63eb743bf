(** Writing to a file and reading it again. *)
From Coq Require Import Permutation Sorted.
From Verif Require Import Base BaseFacts Env ParamModel SelModel DistModel AuxModel SynthModel Tree ConfModel ConfSpec ConfProofs ConfLink ConfLoad ConfRead ConfSave.
Open Scope string_scope.

(** ** The order of strings *)
Lemma leb_refl s : String.leb s s = true.
Proof. destruct (String.leb_total s s); assumption. Qed.
Lemma ascii_compare_trans a b c x : Ascii.compare a b = x -> Ascii.compare b c = x -> Ascii.compare a c = x.
Proof.
  unfold Ascii.compare. destruct x; rewrite ?N.compare_eq_iff, ?N.compare_lt_iff, ?N.compare_gt_iff; intros; try congruence; lia.
Qed.
Lemma ascii_compare_eq a b : Ascii.compare a b = Eq -> a = b.
Proof. apply Ascii.compare_eq_iff. Qed.
Lemma leb_trans s : forall t u, String.leb s t = true -> String.leb t u = true -> String.leb s u = true.
Proof.
  unfold String.leb. induction s as [|a s IH]; intros [|b t] [|c u]; cbn; try easy.
  destruct (Ascii.compare a b) eqn:H1; destruct (Ascii.compare b c) eqn:H2; try easy.
  - rewrite (ascii_compare_trans a b c Eq H1 H2). apply IH.
  - apply ascii_compare_eq in H1. subst. now rewrite H2.
  - apply ascii_compare_eq in H2. subst. now rewrite H1.
  - now rewrite (ascii_compare_trans a b c Lt H1 H2).
Qed.

Section Sort.
Context {A : Type}.
Lemma dget_insert (kv : string * A) d k : dget (insert_key kv d) k = if String.eqb k (fst kv) then Some (snd kv) else dget d k.
Proof.
  destruct kv as [k0 v0]. cbn [fst snd]. induction d as [|[k' v'] d IH]; cbn [insert_key fst dget]; [reflexivity|].
  destruct (String.leb k0 k') eqn:Hl; cbn [dget]; [reflexivity|]. rewrite IH.
  destruct (String.eqb_spec k k') as [->|N]; [|reflexivity]. destruct (String.eqb_spec k' k0) as [->|N]; [|reflexivity].
  rewrite leb_refl in Hl. discriminate.
Qed.
Lemma dget_sort (d : dict A) k : dget (sort_keys d) k = dget d k.
Proof. induction d as [|[k' v] d IH]; cbn [sort_keys]; [reflexivity|]. rewrite dget_insert. cbn [fst snd dget]. now rewrite IH. Qed.
Lemma perm_insert (kv : string * A) d : Permutation (kv :: d) (insert_key kv d).
Proof.
  induction d as [|kv' d IH]; cbn [insert_key]; [reflexivity|]. destruct (String.leb _ _); [reflexivity|].
  etransitivity; [apply perm_swap|]. now constructor.
Qed.
Lemma perm_sort (d : dict A) : Permutation d (sort_keys d).
Proof. induction d as [|kv d IH]; cbn [sort_keys]; [reflexivity|]. etransitivity; [|apply perm_insert]. now constructor. Qed.
Lemma NoDup_sort (d : dict A) : NoDup (dkeys d) -> NoDup (dkeys (sort_keys d)).
Proof. apply Permutation_NoDup. apply Permutation_map, perm_sort. Qed.
Lemma sorted_insert (kv : string * A) d : StronglySorted (fun a b => String.leb a b = true) (dkeys d) ->
  StronglySorted (fun a b => String.leb a b = true) (dkeys (insert_key kv d)).
Proof.
  induction d as [|kv' d IH]; intros H; cbn [insert_key].
  - repeat constructor.
  - cbn in H. inversion H as [|? ? Hs Hf]; subst. destruct (String.leb (fst kv) (fst kv')) eqn:Hl; cbn [dkeys map].
    + constructor; [exact H|]. constructor; [exact Hl|]. eapply Forall_impl; [|exact Hf]. cbn. intros k. now apply leb_trans.
    + constructor; [now apply IH|]. rewrite Forall_forall in *. intros k Hk.
      apply (Permutation_in k (Permutation_sym (Permutation_map fst (perm_insert kv d)))) in Hk. destruct Hk as [<-|Hk]; [|now apply Hf].
      destruct (String.leb_total (fst kv') (fst kv)) as [Ht|Ht]; [exact Ht|congruence].
Qed.
Lemma sorted_sort (d : dict A) : StronglySorted (fun a b => String.leb a b = true) (dkeys (sort_keys d)).
Proof. induction d as [|kv d IH]; cbn [sort_keys]; [constructor|]. now apply sorted_insert. Qed.
End Sort.
Lemma leb_anti a b : String.leb a b = true -> String.leb b a = true -> a = b.
Proof. apply String.leb_antisym. Qed.
Lemma sorted_unique : forall l l', Permutation l l' -> StronglySorted (fun a b => String.leb a b = true) l ->
  StronglySorted (fun a b => String.leb a b = true) l' -> l = l'.
Proof.
  induction l as [|a l IH]; intros l' P H H'; [now apply Permutation_nil in P|]. destruct l' as [|b l']; [apply Permutation_sym, Permutation_nil in P; discriminate|].
  inversion H as [|? ? Hs Hf]; subst. inversion H' as [|? ? Hs' Hf']; subst. rewrite Forall_forall in Hf, Hf'.
  assert (a = b).
  { assert (Ha : In a (b :: l')) by (apply (Permutation_in _ P); now left).
    assert (Hb : In b (a :: l)) by (apply (Permutation_in _ (Permutation_sym P)); now left).
    destruct Ha as [->|Ha]; [reflexivity|]. destruct Hb as [->|Hb]; [reflexivity|]. apply leb_anti; auto. }
  subst b. f_equal. apply IH; auto. now apply Permutation_cons_inv in P.
Qed.
Lemma sorted_filter (R : string -> string -> Prop) f l : StronglySorted R l -> StronglySorted R (filter f l).
Proof.
  induction 1 as [|x l Hs IH Hf]; cbn; [constructor|]. destruct (f x); [|exact IH]. constructor; [exact IH|].
  rewrite Forall_forall in *. intros z Hz. apply filter_In in Hz. now apply Hf.
Qed.
Lemma sort_map {A B} (g : A -> B) (d : dict A) : sort_keys (map (fun kv => (fst kv, g (snd kv))) d) = map (fun kv => (fst kv, g (snd kv))) (sort_keys d).
Proof.
  assert (Hi : forall kv d, insert_key (fst kv, g (snd kv)) (map (fun kv => (fst kv, g (snd kv))) d) = map (fun kv => (fst kv, g (snd kv))) (insert_key kv d)).
  { clear. intros kv d. induction d as [|kv' d IH]; cbn [map insert_key]; [reflexivity|]. cbn [fst]. destruct (String.leb _ _); [reflexivity|].
    cbn [map]. now rewrite IH. }
  induction d as [|kv d IH]; cbn [map sort_keys]; [reflexivity|]. now rewrite IH, Hi.
Qed.

Section Y.
Variable E : env.
Notation V := (V E).
Notation synth := (synth E).
Notation sampler := (sampler E).
Notation tree := (tree V).
Variable rg : registry E.

Definition yd (d : dict tree) : dict tree := sort_keys (map (fun kv => (fst kv, yaml E (snd kv))) d).
Lemma yaml_dict d : yaml E (TDict d) = TDict (yd d). Proof. reflexivity. Qed.
Lemma dget_map {A B} (g : A -> B) (d : dict A) k : dget (map (fun kv => (fst kv, g (snd kv))) d) k = option_map g (dget d k).
Proof. induction d as [|[k' v] d IH]; cbn [map dget fst snd]; [reflexivity|]. now destruct (String.eqb k k'). Qed.
Lemma dget_yd d k : dget (yd d) k = option_map (yaml E) (dget d k).
Proof. unfold yd. now rewrite dget_sort, dget_map. Qed.
Lemma yaml_tdict l : yaml E (tdict l) = tdict (sort_keys l).
Proof.
  rewrite !tdict_nums, yaml_dict. f_equal. unfold yd, nums. rewrite map_map. cbn [fst snd yaml].
  exact (sort_map (@TNum V) l).
Qed.
Lemma same_sort {A} (l : dict A) : same_dict l (sort_keys l).
Proof. intros k. now rewrite dget_sort. Qed.
Lemma keys_yd d : Permutation (dkeys d) (dkeys (yd d)).
Proof.
  unfold yd, dkeys. etransitivity; [|apply Permutation_map, perm_sort]. rewrite map_map. reflexivity.
Qed.
Lemma In_yd d k t : In (k, t) (yd d) -> exists t0, In (k, t0) d /\ t = yaml E t0.
Proof.
  intros H. apply (Permutation_in _ (Permutation_sym (perm_sort _))) in H. apply in_map_iff in H.
  destruct H as ([k' t'] & [= <- <-] & H). eauto.
Qed.

(** Entries of samplers. *)
Lemma nums_inv (d : dict tree) : (forall k t, In (k, t) d -> exists v, t = TNum v) -> exists l, d = nums E l.
Proof.
  induction d as [|[k t] d IH]; intros H; [exists []; reflexivity|]. destruct IH as (l & ->); [intros k' t' H'; apply (H k' t'); now right|].
  destruct (H k t (or_introl eq_refl)) as (v & ->). now exists ((k, v) :: l).
Qed.
Lemma In_ddel {A} (d : dict A) k kv : In kv (ddel d k) -> In kv d.
Proof.
  induction d as [|[k' v] d IH]; cbn [ddel]; [easy|]. destruct (String.eqb k k'); cbn; [now right|]. intros [H|H]; auto.
Qed.
Definition strip (d : dict tree) : dict tree := ddel (ddel (ddel (ddel d "type") "observed") "selection") "secondary".
Lemma strip_neq d k : ~ In k reserved -> dget (strip d) k = dget d k.
Proof. intros H. unfold strip. rewrite !dget_ddel_neq; auto; intros ->; apply H; cbn; tauto. Qed.
Lemma strip_nodup d : NoDup (dkeys d) -> NoDup (dkeys (strip d)).
Proof. intros H. unfold strip. now apply NoDup_ddel, NoDup_ddel, NoDup_ddel, NoDup_ddel. Qed.
Lemma strip_res d k : NoDup (dkeys d) -> dget d "init variables" = None -> In k reserved -> dget (strip d) k = None.
Proof.
  intros H Hi Hk. unfold strip. cbn in Hk. destruct Hk as [<-|[<-|[<-|[<-|[<-|[]]]]]].
  - rewrite !(dget_ddel_neq _ _ "type") by discriminate. now apply dget_ddel_eq.
  - rewrite !(dget_ddel_neq _ _ "observed") by discriminate. now apply dget_ddel_eq, NoDup_ddel.
  - rewrite (dget_ddel_neq _ _ "selection") by discriminate. now apply dget_ddel_eq, NoDup_ddel, NoDup_ddel.
  - now apply dget_ddel_eq, NoDup_ddel, NoDup_ddel, NoDup_ddel.
  - rewrite !dget_ddel_neq by discriminate. exact Hi.
Qed.
Lemma entry_yaml y a e : NoDup (dkeys e) -> entry_of E eq y a e -> entry_of E same_dict y a (yd e).
Proof.
  intros Nd (s & l & ls & Hs & H1 & H2 & H3 & H4 & H5 & H6 & Q1 & N1 & Q2 & N2). fold (strip e) in H6.
  assert (Nd' : NoDup (dkeys (yd e))) by (eapply Permutation_NoDup; [apply keys_yd|exact Nd]).
  assert (H5' : dget (yd e) "init variables" = None) by (rewrite dget_yd, H5; reflexivity).
  assert (Hres : forall k, In k reserved -> dget l k = None).
  { intros k Hk. assert (G := strip_res e k Nd H5 Hk). rewrite H6, dget_nums in G. now destruct (dget l k). }
  assert (Hget : forall k, ~ In k reserved -> dget (strip (yd e)) k = option_map (@TNum V) (dget l k)).
  { intros k Hk. rewrite (strip_neq _ _ Hk), dget_yd, <- (strip_neq _ _ Hk), H6, dget_nums. now destruct (dget l k). }
  destruct (nums_inv (strip (yd e))) as (l' & Hl').
  { intros k t Hin. destruct (in_dec string_dec k reserved) as [Hk|Hk].
    - apply (In_dget _ _ _ (strip_nodup _ Nd')) in Hin. rewrite (strip_res _ _ Nd' H5' Hk) in Hin. discriminate.
    - apply (In_dget _ _ _ (strip_nodup _ Nd')) in Hin. rewrite (Hget k Hk) in Hin. destruct (dget l k) as [v|]; [|discriminate].
      injection Hin as <-. eauto. }
  exists s, l', (sort_keys ls). split; [exact Hs|].
  split; [rewrite dget_yd, H1; reflexivity|]. split; [rewrite dget_yd, H2; reflexivity|].
  split; [rewrite dget_yd, H3; cbn [option_map]; f_equal; change (yaml E (TDict [(s_type s, tdict ls)])) with (TDict [(s_type s, yaml E (tdict ls))]); now rewrite yaml_tdict|].
  split; [rewrite dget_yd, H4; cbn [option_map yaml]; now rewrite map_map|].
  split; [exact H5'|]. split; [exact Hl'|]. split; [|split; [|split; [|now apply NoDup_sort]]].
  - rewrite Q1. intros k. destruct (in_dec string_dec k reserved) as [Hk|Hk].
    + rewrite (Hres k Hk). assert (G := strip_res (yd e) k Nd' H5' Hk). rewrite Hl', dget_nums in G. now destruct (dget l' k).
    + assert (G := Hget k Hk). rewrite Hl', dget_nums in G. destruct (dget l k), (dget l' k); cbn in G; congruence.
  - rewrite <- (keys_nums E l'), <- Hl'. now apply strip_nodup.
  - rewrite Q2. apply same_sort.
Qed.

(** Choosing the samplers. *)
Lemma choose y Q (L : dict tree) : (forall kv, In kv L -> exists i a, reach y i /\ nth_error (w_auxs (y_w y)) i = Some a /\ ready E rg Q y a kv) ->
  exists ids plan, Forall2 (fun i a => nth_error (w_auxs (y_w y)) i = Some a) ids plan /\
    (forall i, In i ids -> reach y i) /\ map (@name_of E) plan = dkeys L /\ Forall2 (ready E rg Q y) plan L.
Proof.
  induction L as [|kv L IH]; intros H.
  - exists [], []. split; [constructor|]. split; [easy|]. split; [reflexivity|constructor].
  - destruct IH as (ids & plan & H1 & H2 & H3 & H4); [intros kv' H'; apply H; now right|].
    destruct (H kv (or_introl eq_refl)) as (i & a & Hr & Ha & Hrd).
    exists (i :: ids), (a :: plan). split; [now constructor|]. split; [intros j [<-|Hj]; auto|].
    split; [cbn; rewrite H3; destruct Hrd as (-> & _); reflexivity|]. now constructor.
Qed.

Lemma sel_yaml y inp key i : sel_written E eq y inp key i -> sel_written E same_dict y (yd inp) key i.
Proof.
  intros (s & l & Hs & Hd & HQ & Hn). exists s, (sort_keys l). split; [exact Hs|]. split; [|split; [|now apply NoDup_sort]].
  - rewrite dget_yd, Hd. cbn [option_map]. change (yaml E (TDict [(s_type s, tdict l)])) with (TDict [(s_type s, yaml E (tdict l))]). now rewrite yaml_tdict.
  - rewrite HQ. apply same_sort.
Qed.
Lemma yaml_describes y inp ids plan L : savable rg y -> describes E rg eq y inp ids plan L ->
  dget inp "spatial distribution" = Some (TDict ((m_type (y_spm y), tdict (truth (sd_par (y_sp y)))) ::
      match m_rate (y_spm y) with None => nil | Some b => [("is_rate", TBool b)] end)) ->
  (forall k e, In (k, TDict e) L -> NoDup (dkeys e)) ->
  (m_rate (y_spm y) <> None -> String.leb (m_type (y_spm y)) "is_rate" = true) ->
  exists ids' plan', describes E rg same_dict y (yd inp) ids' plan' (yd L) /\ map (@name_of E) plan' = dkeys (yd L) /\
    Permutation (map (@name_of E) plan) (dkeys (yd L)).
Proof.
  intros Hy [D1 D2 D3 D4 D5 D6 D7 D8 D9 D10 D11] Hsp Hne Hrate.
  assert (HL : map (@name_of E) plan = dkeys L).
  { clear - D11. induction D11 as [|a kv plan L Ha _ IH]; cbn; [reflexivity|]. rewrite IH. destruct Ha as (-> & _). reflexivity. }
  destruct (choose y same_dict (yd L)) as (ids' & plan' & C1 & C2 & C3 & C4).
  { intros [k t] Hin. apply In_yd in Hin. destruct Hin as (t0 & Hin & ->). apply In_nth_error in Hin. destruct Hin as (p & Hp).
    assert (Hin : In (k, t0) L) by now apply nth_error_In in Hp.
    destruct (Forall2_nth_r _ _ _ D11 _ _ Hp) as (a & Ha & Hrd). destruct (Forall2_nth_r _ _ _ D8 _ _ Ha) as (i & Hi & Hia).
    exists i, a. split; [apply D9; now apply nth_error_In in Hi|]. split; [exact Hia|].
    destruct Hrd as (R1 & R2 & e & R3 & R4). cbn [fst snd] in *. subst t0. split; [exact R1|]. split; [exact R2|].
    exists (yd e). split; [reflexivity|]. apply entry_yaml; [|exact R4]. now apply (Hne k). }
  exists ids', plan'. split; [|split; [exact C3|rewrite HL; apply keys_yd]]. split.
  - now rewrite dget_yd, D1.
  - rewrite dget_yd, Hsp. destruct (sv_sp Hy) as (_ & _ & _ & _ & _ & _ & _ & _ & _ & (Hn & _) & _).
    exists (sort_keys (truth (sd_par (y_sp y)))). cbn [option_map]. rewrite yaml_dict. unfold yd. cbn [map fst snd]. rewrite yaml_tdict.
    destruct (m_rate (y_spm y)) as [b|] eqn:Hr.
    + exists [("is_rate", TBool b)]. cbn [map sort_keys insert_key fst snd]. rewrite Hrate by discriminate. split; [reflexivity|].
      split; [reflexivity|]. split; [apply same_sort|now apply NoDup_sort].
    + exists []. split; [reflexivity|]. split; [reflexivity|]. split; [apply same_sort|now apply NoDup_sort].
  - rewrite dget_yd. destruct (y_lum y) as [d|].
    + destruct D3 as (l & Hl & HQ & Hn). exists (sort_keys l). rewrite Hl. cbn [option_map].
      change (yaml E (TDict [(m_type (y_lumm y), tdict l)])) with (TDict [(m_type (y_lumm y), yaml E (tdict l))]). rewrite yaml_tdict.
      split; [reflexivity|]. split; [rewrite HQ; apply same_sort|now apply NoDup_sort].
    + now rewrite D3.
  - destruct (y_fluxset y); [now apply sel_yaml|]. now rewrite dget_yd, D4.
  - destruct (y_dset y); [now apply sel_yaml|]. now rewrite dget_yd, D5.
  - destruct (y_ssel y); [now apply sel_yaml|]. now rewrite dget_yd, D6.
  - now rewrite dget_yd, D7.
  - exact C1.
  - intros i. split; [apply C2|]. intros Hr. assert (Hi := proj2 (D9 i) Hr). apply In_nth_error in Hi. destruct Hi as (p & Hp).
    destruct (Forall2_nth _ _ _ D8 _ _ Hp) as (a & Ha & Hia).
    assert (Hk : In (name_of a) (map (@name_of E) plan')).
    { rewrite C3. apply (Permutation_in _ (keys_yd L)). rewrite <- HL. apply in_map. now apply nth_error_In in Ha. }
    apply in_map_iff in Hk. destruct Hk as (b & Hb & Hin). apply In_nth_error in Hin. destruct Hin as (q & Hq).
    destruct (Forall2_nth_r _ _ _ C1 _ _ Hq) as (j & Hj & Hjb). apply nth_error_In in Hj.
    assert (j = i) by (apply (sv_names Hy (C2 j Hj) Hr Hjb Hia Hb)). now subst.
  - rewrite C3. eapply Permutation_NoDup; [apply keys_yd|]. now rewrite <- HL.
  - exact C4.
Qed.

(** ** Main theorems *)
Theorem dict_round_trip rl w y t : savable rg y -> to_dict rl y = Ok t ->
  exists inp y', t = TDict inp /\ fst (from_dict rg w inp) = Ok y' /\ same_synth eq y y' /\ dkeys (y_aux y') = dkeys (y_aux y).
Proof.
  intros Hy Ht. destruct (to_dict_describes E rg y Hy rl t Ht) as (inp & ids & plan & L & -> & D & Hf & _).
  destruct (from_dict_ok E rg eq (fun d l H k => f_equal (fun x => dget x k) H) y w inp ids plan L Hy D) as (y' & inp' & Hl & Hs & Hk).
  exists inp, y'. split; [reflexivity|]. split; [now rewrite Hl|]. split; [exact Hs|]. now rewrite Hk.
Qed.
Theorem file_round_trip rl w y t : savable rg y -> to_dict rl y = Ok t ->
  (m_rate (y_spm y) <> None -> String.leb (m_type (y_spm y)) "is_rate" = true) ->
  exists y', through_file rg rl w y = Ok y' /\ same_synth same_dict y y' /\
    Permutation (dkeys (y_aux y)) (dkeys (y_aux y')) /\ StronglySorted (fun a b => String.leb a b = true) (dkeys (y_aux y')).
Proof.
  intros Hy Ht Hrate. destruct (to_dict_describes E rg y Hy rl t Ht) as (inp & ids & plan & L & -> & D & Hf & Hsp & Hne).
  destruct (yaml_describes y inp ids plan L Hy D Hsp Hne Hrate) as (ids' & plan' & D' & Hn & Hp).
  destruct (from_dict_ok E rg same_dict (fun d l H => H) y w (yd inp) ids' plan' (yd L) Hy D') as (y' & inp' & Hl & Hs & Hk).
  exists y'. unfold through_file. rewrite Ht. cbn [rbind]. rewrite yaml_dict, Hl. split; [reflexivity|]. split; [exact Hs|].
  rewrite Hk, Hn. split.
  - rewrite <- Hf. clear - Hp. revert Hp. generalize (map (@name_of E) plan), (dkeys (yd L)). induction 1; cbn.
    + constructor. + destruct (dmem _ x); [now constructor|assumption].
    + destruct (dmem _ x), (dmem _ y0); try reflexivity. constructor.
    + etransitivity; eassumption.
  - apply sorted_filter, sorted_sort.
Qed.
End Y.
