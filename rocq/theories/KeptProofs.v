(** Surveys of a keepable synth can be written and read back (C79). *)
From Coq Require Import Ascii.
From Verif Require Import Base BaseFacts Env ParamModel SelModel SimVarModel DistModel AuxModel AuxSpec AuxProps Tree PopModel SynthModel HdfModel HdfSpec KeptSpec SynthInv.
From Verif Require HdfProofs HdfPop ConfProofs.
Open Scope string_scope.
Open Scope list_scope.

(** ** Programs that keep a property of the state *)
Definition hk {S A} (P : S -> Prop) (m : M S A) (Q : A -> Prop) : Prop := forall s, P s -> P (snd (m s)) /\ forall a, fst (m s) = Ok a -> Q a.
Section Hk.
Context {S : Type}.
Variable P : S -> Prop.
Definition any {A} : A -> Prop := fun _ => True.
Lemma hk_ret A (a : A) (Q : A -> Prop) : Q a -> hk P (ret a) Q. Proof. intros q s p. split; [exact p|]. intros b H. now injection H as <-. Qed.
Lemma hk_raise A e (Q : A -> Prop) : hk P (@raise S A e) Q. Proof. intros s p. split; [exact p|discriminate]. Qed.
Lemma hk_lift A (r : res A) (Q : A -> Prop) : (forall a, r = Ok a -> Q a) -> hk P (lift r) Q. Proof. intros q s p. split; [exact p|exact q]. Qed.
Lemma hk_get : hk P (@get S) P. Proof. intros s p. split; [exact p|]. intros a H. now injection H as <-. Qed.
Lemma hk_gets A (f : S -> A) (Q : A -> Prop) : (forall s, P s -> Q (f s)) -> hk P (gets f) Q. Proof. intros q s p. split; [exact p|]. intros a H. injection H as <-. now apply q. Qed.
Lemma hk_modify f : (forall s, P s -> P (f s)) -> hk P (modify f) any. Proof. intros q s p. split; [now apply q|easy]. Qed.
Lemma hk_bind A B (m : M S A) (k : A -> M S B) Q1 Q2 : hk P m Q1 -> (forall a, Q1 a -> hk P (k a) Q2) -> hk P (bind m k) Q2.
Proof.
  intros H K s p. unfold bind. destruct (H s p) as [H1 H2]. destruct (m s) as [[a|e] s1]; cbn in *.
  - apply K; [now apply H2|exact H1].
  - split; [exact H1|discriminate].
Qed.
Lemma hk_weak A (m : M S A) (Q Q' : A -> Prop) : hk P m Q -> (forall a, Q a -> Q' a) -> hk P m Q'.
Proof. intros H W s p. destruct (H s p) as [H1 H2]. split; [exact H1|]. intros a X. apply W, H2, X. Qed.
Lemma hk_iter A (f : A -> M S unit) l : (forall a, In a l -> hk P (f a) any) -> hk P (iterM f l) any.
Proof. induction l as [|x l IH]; cbn; intros H; [now apply hk_ret|]. eapply hk_bind; [apply H; now left|]. intros _ _. apply IH. auto. Qed.
Lemma hk_map A B (f : A -> M S B) l : (forall a, In a l -> hk P (f a) any) -> hk P (mapM f l) any.
Proof. induction l as [|x l IH]; cbn; intros H; [now apply hk_ret|]. eapply hk_bind; [apply H; now left|]. intros b _. eapply hk_bind; [apply IH; auto|]. intros. now apply hk_ret. Qed.
Lemma hk_fold A B (f : B -> A -> M S B) (Q : B -> Prop) l : (forall b a, In a l -> Q b -> hk P (f b a) Q) -> forall b, Q b -> hk P (foldM f b l) Q.
Proof. induction l as [|x l IH]; cbn; intros H b q; [now apply hk_ret|]. eapply hk_bind; [apply H; [now left|exact q]|]. intros b' q'. apply IH; auto. Qed.
Lemma hk_repeat A (f : M S A) n : hk P f any -> hk P (repeatM f n) any.
Proof. intros H. induction n as [|n IH]; cbn; [now apply hk_ret|]. eapply hk_bind; [apply H|]. intros b _. eapply hk_bind; [apply IH|]. intros. now apply hk_ret. Qed.
Lemma hk_any A (m : M S A) Q : hk P m Q -> hk P m any. Proof. intros H. eapply hk_weak; [exact H|easy]. Qed.
End Hk.
Ltac hb := eapply hk_bind; [|intros ? ?].
Ltac ha := eapply hk_bind with (Q1 := any); [|intros ? ?].

Section P.
Variable E : env.
Notation V := (V E).
Notation Rst := (Rst E).
Notation selector := (selector E).
Notation sampler := (sampler E).
Notation world := (world E).
Notation synth := (synth E).

(** ** Parameters *)
Lemma plain_dset {A} (d : dict A) k v : plain_names d -> plain_name k -> plain_names (dset d k v).
Proof. intros [N P] K. split; [now apply NoDup_dset|]. intros x X. apply In_dkeys_dset in X. destruct X as [->|X]; auto. Qed.
Lemma touch_named (c : pclass V) (o : pobj V) k d : named_parameters c o -> dget c k = Some d -> named_parameters c (touch_norm d k o).
Proof.
  intros (A & B & C) D. unfold touch_norm. destruct (pd_norm d); [|easy]. split; [exact A|]. split; [exact B|].
  cbn. intros k0 X. injection X as <-. eauto.
Qed.
Lemma touch_store d k (o : pobj V) : po_store (touch_norm d k o) = po_store o. Proof. unfold touch_norm. now destruct (pd_norm d). Qed.
Lemma get_named (c : pclass V) (o : pobj V) k d : named_parameters c o -> dget c k = Some d -> named_parameters c (snd (param_get d k o)).
Proof.
  intros N D. assert (T := touch_named c o k d N D). unfold param_get. destruct T as (A & B & C).
  assert (X : named_parameters c (PObj (dset (po_store (touch_norm d k o)) k (pd_default d)) (po_norm (touch_norm d k o)))).
  { split; [apply plain_dset; eauto|]. now split. }
  destruct (dget (po_store (touch_norm d k o)) k) as [[v|]|]; [now split|..]; now destruct (pd_default d).
Qed.
Lemma In_dset {A} (d : dict A) k v k0 v0 : In (k0, v0) (dset d k v) -> (k0 = k /\ v0 = v) \/ In (k0, v0) d.
Proof.
  induction d as [|[k1 v1] d IH]; cbn.
  - intros [X|[]]. injection X as <- <-. now left.
  - destruct (String.eqb_spec k k1) as [->|N]; cbn; intros [X|X].
    + injection X as <- <-. now left.
    + right. now right.
    + right. now left.
    + destruct (IH X); [now left|right; now right].
Qed.
Lemma get_set (c : pclass V) (o : pobj V) k d : set_parameters c o -> dget c k = Some d -> set_parameters c (snd (param_get d k o)).
Proof.
  intros (N & O & F) D. split; [now apply get_named|]. unfold param_get. rewrite touch_store.
  destruct (dget (po_store o) k) as [[v|]|] eqn:G.
  - cbn. rewrite touch_store. now split.
  - exfalso. apply (O k). now apply dget_In.
  - destruct (pd_default d) as [v|] eqn:DE.
    + cbn. split.
      * intros k0 X. apply In_dset in X. destruct X as [(_ & X)|X]; [discriminate|exact (O k0 X)].
      * intros k0 d0 D0 E0. destruct (F k0 d0 D0 E0) as (v0 & X). rewrite dget_dset. destruct (String.eqb_spec k0 k) as [->|]; eauto.
    + destruct (F k d D DE) as (v & X). congruence.
Qed.
Lemma pread_named c k : hk (named_parameters c) (pread E c k) any.
Proof. intros o N. split; [|easy]. unfold pread. destruct (dget c k) as [d|] eqn:D; [|exact N]. now apply get_named. Qed.
Lemma pread_set c k : hk (set_parameters c) (pread E c k) any.
Proof. intros o N. split; [|easy]. unfold pread. destruct (dget c k) as [d|] eqn:D; [|exact N]. now apply get_set. Qed.
Lemma preads_named c ks : hk (named_parameters c) (preads E c ks) any. Proof. apply hk_map. intros k _. apply pread_named. Qed.
Lemma preads_set c ks : hk (set_parameters c) (preads E c ks) any. Proof. apply hk_map. intros k _. apply pread_set. Qed.
Lemma norm_set_set (c : pclass V) (o : pobj V) (v : V) : set_parameters c o -> set_parameters c (norm_set (Some v) o).
Proof.
  intros ((A & B & C) & O & F). unfold norm_set. destruct (po_norm o) as [k|] eqn:K; [|split; [split; [exact A|split; [exact B|intros x X; rewrite K in X; discriminate X]]|now split]].
  split; [split; [apply plain_dset; auto|split; [exact B|cbn; intros x X; injection X as <-; now apply C]]|]. cbn. split.
  - intros k0 X. apply In_dset in X. destruct X as [(_ & X)|X]; [discriminate|exact (O k0 X)].
  - intros k0 d0 D0 E0. destruct (F k0 d0 D0 E0) as (v0 & X). rewrite dget_dset. destruct (String.eqb_spec k0 k) as [->|]; eauto.
Qed.

(** ** Selectors and samplers *)
Notation PS := (fun st : selector * Rst => keepable_selector (fst st)).
Lemma read_par_kept k : hk PS (@read_par E k) any.
Proof.
  intros [s g] [T N]. split; [|easy]. unfold read_par. cbn in *. destruct (dget (sel_class (s_kind s)) k) as [d|] eqn:D; [|now split].
  assert (X := get_named _ _ _ _ N D). destruct (param_get d k (s_par s)) as [r o]. now split.
Qed.
Lemma mask_kept m : hk PS (@store_mask E m) any. Proof. intros [s g] K. split; [|easy]. destruct K. now split. Qed.
Lemma bern1_kept p : hk PS (@bern1 E p) any.
Proof. intros [s g] K. split; [|easy]. unfold bern1. destruct (r_bern_ok E p); [|exact K]. cbn. now destruct (r_bern E p g). Qed.
Lemma bern_vec_kept p : hk PS (@bern_vec E p) any.
Proof. intros [s g] K. split; [|easy]. unfold bern_vec. destruct (forallb _ p); [|exact K]. cbn. now destruct (rmapdraws _ p g). Qed.
Lemma bern_n_kept p n : hk PS (@bern_n E p n) any.
Proof. intros [s g] K. split; [|easy]. unfold bern_n. destruct (r_bern_ok E p); [|exact K]. cbn. now destruct (rdraws _ n g). Qed.
Lemma here_kept : hk PS (@here E) any. Proof. apply hk_gets. easy. Qed.
Ltac hs := repeat first
  [ apply read_par_kept | apply mask_kept | apply bern1_kept | apply bern_vec_kept | apply bern_n_kept | apply here_kept
  | apply hk_ret; exact I | apply hk_raise | apply hk_lift; intros; exact I | apply hk_repeat | hb ].
Lemma sel_draw_kept prog n : hk PS (@sel_draw E prog n) any.
Proof.
  unfold sel_draw. hb; [apply here_kept|]. destruct (s_kind a); hs.
  - destruct prog; hs.
  - intros [s g] K. split; [|easy]. cbn [fst snd]. destruct (draw (s_data a) n g) as [[m|e] g']; [|exact K]. destruct K. now split.
Qed.
Lemma sel_select_kept prog n : hk PS (@sel_select E prog n) any.
Proof.
  unfold sel_select. hb; [apply here_kept|]. hb; [destruct (s_sampled a); [hs|apply sel_draw_kept]|]. hb; [apply here_kept|].
  destruct (s_mask a1); hs. intros [s g] K. split; [|easy]. destruct K. now split.
Qed.

Definition PW (w : world) : Prop := (forall a, In a (w_auxs w) -> keepable_sampler a) /\ (forall s, In s (w_sels w) -> keepable_selector s).
Lemma In_lset {A} (l : list A) i x y : In y (lset l i x) -> y = x \/ In y l.
Proof. revert i. induction l as [|z l IH]; intros [|i]; cbn; try tauto. - intros [<-|X]; auto. - intros [<-|X]; [auto|]. apply IH in X. tauto. Qed.
Lemma get_aux_kept i : hk PW (@get_aux E i) (@keepable_sampler E).
Proof. intros w K. split; [exact K|]. cbn. intros a H. destruct (nth_error (w_auxs w) i) eqn:X; [|discriminate]. injection H as ->. apply (proj1 K). eapply nth_error_In, X. Qed.
Lemma get_sel_kept i : hk PW (@get_sel E i) (@keepable_selector E).
Proof. intros w K. split; [exact K|]. cbn. intros a H. destruct (nth_error (w_sels w) i) eqn:X; [|discriminate]. injection H as ->. apply (proj2 K). eapply nth_error_In, X. Qed.
Lemma put_sel_kept i s : keepable_selector s -> hk PW (@put_sel E i s) any.
Proof. intros Q w K. split; [|easy]. split; cbn; [apply K|]. intros s0 X. apply In_lset in X. destruct X as [->|X]; [exact Q|now apply K]. Qed.
Lemma upd_aux_kept i (f : adyn E -> adyn E) : (forall d, a_par (f d) = a_par d) -> hk PW (@upd_aux E i f) any.
Proof.
  intros F. unfold upd_aux. hb; [apply get_aux_kept|]. intros w K. split; [|easy]. split; cbn; [|apply K].
  intros x X. apply In_lset in X. destruct X as [->|X]; [|now apply K]. destruct H as [H1 H2 H3 H4]. constructor; try assumption. cbn. now rewrite F.
Qed.
Lemma upd_sel_kept i f : (forall s, keepable_selector s -> keepable_selector (f s)) -> hk PW (@upd_sel E i f) any.
Proof. intros F. unfold upd_sel. hb; [apply get_sel_kept|]. apply put_sel_kept. now apply F. Qed.
Lemma on_sel_kept A i (m : SM E A) : hk PS m any -> hk PW (on_sel i m) any.
Proof.
  intros F. unfold on_sel. hb; [apply get_sel_kept|]. intros w K. split; [|easy]. destruct (F (a, w_g w) H) as [X _]. destruct (m (a, w_g w)) as [r [s' g']]. cbn in *.
  split; cbn; [apply K|]. intros s0 Y. apply In_lset in Y. destruct Y as [->|Y]; [exact X|now apply K].
Qed.
Lemma upd_par_kept i a o (w : world) : PW w -> nth_error (w_auxs w) i = Some a -> named_parameters (k_params (kind_of a)) o -> PW (snd (upd_aux i (dy_par o) w)).
Proof.
  intros K A N. unfold upd_aux, bind, get_aux. rewrite A. cbn. split; cbn; [|apply K]. intros x X. apply In_lset in X. destruct X as [->|X]; [|now apply K].
  assert (H : keepable_sampler a) by (apply K; eapply nth_error_In, A). destruct H as [H1 H2 H3 H4]. now constructor.
Qed.
Lemma aux_reads_kept i ks : hk PW (@aux_reads E i ks) any.
Proof.
  intros w K. split; [|easy]. unfold aux_reads. unfold bind at 1. unfold get_aux. destruct (nth_error (w_auxs w) i) as [a|] eqn:A; [|exact K]. cbn [of_opt].
  assert (N := preads_named (k_params (kind_of a)) ks (a_par (a_dy a)) (ks_par (proj1 K a (nth_error_In _ _ A)))).
  destruct (preads E (k_params (kind_of a)) ks (a_par (a_dy a))) as [r o]. cbn in N.
  assert (X := upd_par_kept i a o w K A (proj1 N)). unfold bind. destruct (upd_aux i (dy_par o) w) as [[[]|e] w1]; exact X.
Qed.
Lemma gens_kept A (f : world -> res A * gens E) : hk PW (fun w => let (r, g) := f w in (r, w_set_gens g w)) any.
Proof. intros w K. split; [|easy]. destruct (f w) as [r g]. exact K. Qed.
Ltac hw := repeat first
  [ apply aux_reads_kept | apply get_aux_kept | apply get_sel_kept | apply gens_kept | apply upd_aux_kept; intros; reflexivity | apply hk_get
  | apply hk_ret; exact I | apply hk_raise | apply hk_lift; intros; exact I | hb ].
Lemma run_true_kept i n : hk PW (@run_true E i n) any.
Proof. unfold run_true. hb; [hw|]. hb; [apply hk_modify; intros w K; exact K|]. hw. destruct a3; hw. Qed.
Lemma run_obs_kept i n : hk PW (@run_obs E i n) any.
Proof. unfold run_obs. hw. destruct a2; hw. Qed.
Lemma run_prob_kept i : hk PW (@run_prob E i) any.
Proof. unfold run_prob. hw. Qed.
Lemma data_kept (s : selector) d : keepable_selector s -> keepable_selector (with_data s d). Proof. intros []. now split. Qed.
Lemma aux_pre_kept a : hk PW (@aux_pre E a) any.
Proof.
  unfold aux_pre. hb.
  - destruct (a_usesd (a_st a)); [|hw]. destruct (a_sp (a_dy a)); [|hw]. apply upd_sel_kept. intros s0 K. now apply data_kept.
  - destruct (a_lum (a_dy a)); [|hw]. apply upd_sel_kept. intros s0 K. now apply data_kept.
Qed.
Lemma aux_finish_kept prog i n : hk PW (@aux_finish E prog i n) any.
Proof.
  unfold aux_finish. hb; [apply run_true_kept|]. hb; [hw|]. hb; [destruct (a_observed (a_st a0)); [apply run_obs_kept|hw]|]. hb; [hw|].
  hb; [apply upd_sel_kept; intros s K; now apply data_kept|]. hb; [hw|]. hb; [hw|]. hb; [hw|]. hb; [apply on_sel_kept, sel_draw_kept|]. apply run_prob_kept.
Qed.
Lemma set_sp_kept i sp : hk PW (@set_sp E i sp) any. Proof. apply upd_aux_kept. reflexivity. Qed.
Lemma set_lum_kept i sp : hk PW (@set_lum E i sp) any. Proof. apply upd_aux_kept. reflexivity. Qed.
Lemma aux_draw_kept prog fuel : forall i n, hk PW (@aux_draw E prog fuel i n) any.
Proof.
  induction fuel as [|fuel IH]; intros i n; cbn [aux_draw]; [apply hk_raise|]. hb; [hw|]. destruct (a_sampled (a_dy a)); [hw|].
  hb; [apply aux_pre_kept|]. hb; [|apply aux_finish_kept]. apply hk_iter. intros kv _. hb; [hw|]. destruct (a_issec (a_ln a1)); [|hw].
  destruct (a_sp (a_dy a)); [|hw]. hb; [apply set_sp_kept|]. apply IH.
Qed.

(** ** The collected quantities and the graph *)
Lemma plain_append a b : plain_name a -> no_nul b -> ~ In "/"%char (list_ascii_of_string b) -> b <> "" -> plain_name (a ++ b).
Proof.
  intros (A & B & C & D) N S Z.
  assert (L : forall x y, list_ascii_of_string (x ++ y) = (list_ascii_of_string x ++ list_ascii_of_string y)%list) by (induction x; cbn; intros; [easy|now rewrite IHx]).
  split; [destruct a; [easy|discriminate]|]. split.
  - destruct a as [|c a]; [easy|]. destruct a; cbn; [|discriminate]. destruct b; [easy|discriminate].
  - unfold no_nul in *. rewrite L. split; rewrite in_app_iff; tauto.
Qed.
Lemma plain_obs (a : sampler) : keepable_sampler a -> plain_name (obs_name_of a).
Proof. intros [[H _] _ _ _]. apply plain_append; [exact H|..]; unfold no_nul; cbn; intuition discriminate. Qed.
Definition GP (g : graph) : Prop := gr_nodes g <> nil /\ sound_graph g /\ forall k, In k (dkeys (gr_nodes g)) -> plain_name k.
Lemma dset_some {A} (d : dict A) k v : dset d k v <> nil. Proof. destruct d as [|[k0 v0] d]; cbn; [easy|]. now destruct (String.eqb k k0). Qed.
Lemma node_kept k b g : GP g -> plain_name k -> GP (add_node k b g).
Proof.
  intros (Z & [N NE En] & P) K. unfold add_node.
  assert (X : GP (Graph (dset (gr_nodes g) k b) (gr_edges g))).
  { split; [apply dset_some|]. split; [|intros x X; apply In_dkeys_dset in X; destruct X as [->|X]; auto]. split; cbn; [now apply NoDup_dset|exact NE|].
    intros u v H. destruct (En u v H). split; apply In_dkeys_dset; now right. }
  destruct b; [exact X|]. destruct (dget (gr_nodes g) k); [split; [exact Z|split; [now split|exact P]]|exact X].
Qed.
Lemma node_in k b g : In k (dkeys (gr_nodes (add_node k b g))).
Proof.
  unfold add_node. destruct b; [apply In_dkeys_dset; now left|]. destruct (dget (gr_nodes g) k) eqn:X; [apply dget_Some_In_keys; eauto|apply In_dkeys_dset; now left].
Qed.
Lemma node_old k b g x : In x (dkeys (gr_nodes g)) -> In x (dkeys (gr_nodes (add_node k b g))).
Proof. intros H. unfold add_node. destruct b; [apply In_dkeys_dset; now right|]. destruct (dget (gr_nodes g) k); [exact H|apply In_dkeys_dset; now right]. Qed.
Lemma edge_kept u v g : GP g -> plain_name u -> plain_name v -> GP (add_edge u v g).
Proof.
  intros G U W. assert (G1 := node_kept v None _ (node_kept u None g G U) W). unfold add_edge. assert (I1 := node_old v None _ u (node_in u None g)). assert (I2 := node_in v None (add_node u None g)). set (g1 := add_node v None (add_node u None g)) in *. clearbody g1.
  destruct (existsb (edge_eqb (u, v)) (gr_edges g1)) eqn:X; [now destruct g1|].
  destruct G1 as (Z & [N NE En] & P). split; [exact Z|]. split; [|exact P]. split; cbn; [exact N|..].
  - apply (Permutation.Permutation_NoDup (Permutation.Permutation_cons_append (gr_edges g1) (u, v))). constructor; [|exact NE]. intros H. apply Bool.not_true_iff_false in X. apply X, existsb_exists. exists (u, v). split; [exact H|].
    unfold edge_eqb. cbn. now rewrite !String.eqb_refl.
  - intros a b H. apply in_app_iff in H. destruct H as [H|[H|[]]]; [now apply En|]. injection H as <- <-. now split.
Qed.

Definition GO (g : option graph) : Prop := match g with None => True | Some g => GP g end.
Lemma plain_update {A} (s o : dict A) : plain_names s -> plain_names o -> plain_names (dupdate s o).
Proof. unfold dupdate. intros S [N P]. clear N. revert s S. induction o as [|[k v] o IH]; cbn; intros s S; [exact S|]. apply IH; [|apply plain_dset; [exact S|apply P; now left]]. intros x X. apply P. now right. Qed.
Lemma plain_add (s o : storage E) : plain_names s -> plain_names o -> plain_names (st_add s o).
Proof. intros A B. unfold st_add. destruct (st_empty s); [easy|]. destruct (st_empty o); [easy|]. now apply plain_update. Qed.
Lemma plain_nil {A} : plain_names (@nil (string * A)). Proof. split; [constructor|intros ? []]. Qed.
Lemma sec_props_kept (h : list sampler) fuel : (forall a, In a h -> keepable_sampler a) -> forall i p, plain_name p -> hk GO (sec_props fuel h i p) plain_names.
Proof.
  intros H. induction fuel as [|fuel IH]; intros i p PP; cbn [sec_props]; [apply hk_raise|]. destruct (nth_error h i) as [a|] eqn:A; [|apply hk_raise].
  assert (KA := H a (nth_error_In _ _ A)). hb; [|apply hk_ret, plain_dset; [eassumption|apply KA]].
  apply hk_fold; [|apply plain_nil]. intros acc [k j] I Q. assert (K := ks_sec KA _ _ I). destruct (nth_error h j) as [b|] eqn:B; [|apply hk_raise].
  assert (KB := H b (nth_error_In _ _ B)). hb; [apply hk_get|]. eapply hk_bind with (Q1 := any); [|intros _ _; hb; [apply IH, K|apply hk_ret; now apply plain_add]]. destruct a0 as [g|]; [|now apply hk_ret].
  assert (N1 := node_kept k (Some false) g H0 K). assert (N2 := edge_kept k p _ N1 K PP).
  eapply hk_bind with (Q1 := any); [|intros _ _; destruct (a_usesd (a_st b)); [apply hk_raise|now apply hk_ret]]. intros s S. split; [|easy]. unfold put. cbn [snd GO].
  destruct (a_observed (a_st b)); [|exact N2]. apply edge_kept; [apply node_kept; [exact N2|now apply plain_obs]|exact K|now apply plain_obs].
Qed.
Lemma sec_props_quiet (h : list sampler) fuel : (forall a, In a h -> keepable_sampler a) -> forall i p, hk (fun g : option graph => g = None) (sec_props fuel h i p) plain_names.
Proof.
  intros H. induction fuel as [|fuel IH]; intros i p; cbn [sec_props]; [apply hk_raise|]. destruct (nth_error h i) as [a|] eqn:A; [|apply hk_raise].
  assert (KA := H a (nth_error_In _ _ A)). hb; [|apply hk_ret, plain_dset; [eassumption|apply KA]].
  apply hk_fold; [|apply plain_nil]. intros acc [k j] I Q. destruct (nth_error h j) as [b|] eqn:B; [|apply hk_raise].
  hb; [apply hk_get|]. eapply hk_bind with (Q1 := any); [|intros _ _; hb; [apply IH|apply hk_ret; now apply plain_add]]. rewrite H0. now apply hk_ret.
Qed.
Lemma gprops_kept (h : list sampler) rl i p : (forall a, In a h -> keepable_sampler a) -> plain_name p -> hk GP (gprops rl h i p) any.
Proof.
  intros H PP g G. split; [|easy]. destruct (sec_props_kept h rl H i p PP (Some g) G) as [X _]. unfold gprops. destruct (sec_props rl h i p (Some g)) as [r [g'|]]; cbn in *; [exact X|exact G].
Qed.
Lemma gnode_kept k b : plain_name k -> hk GP (gnode k b) any. Proof. intros K. apply hk_modify. intros g G. now apply node_kept. Qed.
Lemma gedge_kept u v : plain_name u -> plain_name v -> hk GP (gedge u v) any. Proof. intros U W. apply hk_modify. intros g G. now apply edge_kept. Qed.
Lemma gaux_kept h i : (forall a, In a h -> keepable_sampler a) -> hk GP (gaux (E := E) h i) (@keepable_sampler E).
Proof. intros H. apply hk_lift. intros a X. destruct (nth_error h i) eqn:N; [|discriminate]. injection X as ->. apply H. eapply nth_error_In, N. Qed.
Lemma plain_flux : plain_name "obs_flux". Proof. unfold plain_name, no_nul. cbn. intuition discriminate. Qed.
Lemma graph_derived_kept rl (h : list sampler) spn i : (forall a, In a h -> keepable_sampler a) -> plain_name spn -> hk GP (graph_derived rl h spn i) any.
Proof.
  intros H S. unfold graph_derived. hb; [now apply gaux_kept|]. assert (N : plain_name (name_of a)) by apply H0. hb; [now apply gnode_kept|]. hb; [apply gedge_kept; [exact N|apply plain_flux]|].
  ha; [destruct (a_usesd (a_st a)); [now apply gedge_kept|now apply hk_ret]|]. apply hk_iter. intros [k j] I. assert (K := ks_sec H0 _ _ I). cbn [fst snd].
  hb; [now apply gnode_kept|]. hb; [now apply gedge_kept|]. now apply gprops_kept.
Qed.
Lemma graph_aux_kept rl (h : list sampler) spn kv : (forall a, In a h -> keepable_sampler a) -> plain_name spn -> plain_name (fst kv) -> hk GP (graph_aux rl h spn kv) any.
Proof.
  intros H S KV. unfold graph_aux. hb; [now apply gaux_kept|]. assert (O := plain_obs _ H0). hb; [apply hk_lift; intros; exact I|]. hb; [now apply gnode_kept|].
  ha. { destruct (a_observed (a_st a)); [|now apply hk_ret]. hb; [now apply gnode_kept|]. hb; [now apply gedge_kept|]. destruct (a_usesd (a_st a)); [now apply gedge_kept|now apply hk_ret]. }
  apply hk_iter. intros [k j] I. assert (K := ks_sec H0 _ _ I). cbn [fst snd]. hb; [now apply gaux_kept|]. assert (O' := plain_obs _ H4).
  hb; [now apply gedge_kept|]. hb; [now apply gnode_kept|]. ha; [destruct (a_usesd (a_st a3)); [now apply gedge_kept|now apply hk_ret]|].
  ha; [destruct (a_observed (a_st a3)); [|now apply hk_ret]; hb; [now apply gnode_kept|now apply gedge_kept]|]. now apply gprops_kept.
Qed.
Lemma build_graph_kept rl (h : list sampler) spn lumn der aux : (forall a, In a h -> keepable_sampler a) -> plain_name spn -> (forall l, lumn = Some l -> plain_name l) ->
  (forall k i, In (k, i) aux -> plain_name k) -> hk GP (build_graph rl h spn lumn der aux) any.
Proof.
  intros H S L A. unfold build_graph. hb; [apply gnode_kept, plain_flux|]. hb; [apply gedge_kept; [exact S|apply plain_flux]|].
  ha; [|apply hk_iter; intros [k i] I; apply graph_aux_kept; [exact H|exact S|exact (A _ _ I)]].
  destruct der; [now apply graph_derived_kept|]. destruct lumn; [|apply hk_raise]. apply gedge_kept; [now apply L|apply plain_flux].
Qed.

(** ** Distributions *)
Notation PD := (fun st : sdist E * Rst => plain_name (sd_name (fst st)) /\ set_parameters (sc_params (sd_cls (fst st))) (sd_par (fst st))).
Lemma in_par_kept A (m : spcls E -> M (pobj V) A) (Q : A -> Prop) : (forall c, hk (set_parameters (sc_params c)) (m c) Q) -> hk PD (let! c := cls (E := E) in in_par (m c)) Q.
Proof.
  intros H [d g] [K1 K2]. unfold cls, gets, bind, in_par. cbn in *. destruct (H (sd_cls d) _ K2) as [X Y]. destruct (m (sd_cls d) (sd_par d)) as [r o]. cbn in *. now split.
Qed.
Lemma rd_rmax_kept : hk PD (@rd_rmax E) any. Proof. apply in_par_kept with (m := fun c => pread E (sc_params c) "r_max"). intros c. apply pread_set. Qed.
Lemma rd_dens_kept : hk PD (@rd_dens E) any. Proof. apply in_par_kept with (m := fun c => preads E (sc_params c) (sc_reads c)). intros c. apply preads_set. Qed.
Lemma norm_write_kept v : hk PD (in_par (modify (norm_set (Some v)))) any.
Proof. intros [d g] [K1 K2]. split; [|easy]. split; [exact K1|]. cbn. now apply norm_set_set. Qed.
Definition bound (old : option (option V)) : Prop := old <> Some None.
Lemma norm_to_one_kept old : bound old -> hk PD (@norm_to_one E old) bound.
Proof.
  intros B [d g] [K1 K2]. unfold norm_to_one, gets, bind, lift, norm_get. cbn [fst snd]. destruct (po_norm (sd_par d)) as [k|] eqn:N; [|split; [now split|intros x X; now injection X as <-]].
  destruct (dget (po_store (sd_par d)) k) as [v|] eqn:G; cbn [of_opt fst snd]; [|split; [now split|discriminate]].
  destruct (norm_write_kept (vofnat E 1) (d, g) (conj K1 K2)) as [X _]. destruct (in_par (modify (norm_set (Some (vofnat E 1)))) (d, g)) as [[[]|e] st]; cbn [fst snd ret] in *; (split; [exact X|]); [|discriminate].
  intros x Y. injection Y as <-. intros Z. injection Z as ->. apply dget_In in G. exact (proj1 (proj2 K2) k G).
Qed.
Lemma norm_restore_kept old : bound old -> hk PD (@norm_restore E old) any.
Proof.
  intros B. unfold norm_restore. eapply hk_bind with (Q1 := any); [apply hk_gets; easy|]. intros o _. destruct (po_norm o); [|now apply hk_ret]. destruct old as [[v|]|]; [|now elim B|apply hk_raise]. apply norm_write_kept.
Qed.
Lemma in_rng_kept A (m : M Rst A) : hk PD (in_rng m) any. Proof. intros [d g] K. split; [|easy]. unfold in_rng. cbn. now destruct (m g). Qed.
Lemma cls_kept : hk PD (@cls E) any. Proof. apply hk_gets. easy. Qed.
Lemma bound_none : bound None. Proof. discriminate. Qed.
Ltac hd := repeat first
  [ apply rd_rmax_kept | apply rd_dens_kept | apply norm_restore_kept; assumption | apply norm_to_one_kept; first [assumption|apply bound_none] | apply in_rng_kept | apply cls_kept
  | apply hk_ret; first [exact I|assumption] | apply hk_raise | apply hk_lift; intros; exact I | hb ].
Lemma draw_distance_kept prog fuel n norm : hk PD (@draw_distance E prog fuel n norm) any.
Proof.
  unfold draw_distance. hb; [hd|]. eapply hk_bind with (Q1 := fun x => bound (fst x)).
  - destruct norm; [|apply hk_ret, bound_none]. hb; [hd|]. hb; [hd|]. hb; [hd|]. hb; [hd|]. hb; [hd|]. apply hk_ret. assumption.
  - intros [old integral] B. cbn in B. hb; [hd|]. hb; [hd|]. hb; [hd|]. hb; [hd|]. hb; [hd|]. hb; [apply hk_modify; intros [d g] K; exact K|].
    hb; [hd|]. hb; [hd|]. hb; [hd|]. hb; [apply hk_modify; intros [d g] K; exact K|]. hd.
Qed.
Lemma draw_sky_kept n : hk PD (@draw_sky_positions E n) any.
Proof.
  intros [d g] K. split; [|easy]. unfold draw_sky_positions. cbn [fst snd]. destruct (sc_sky (sd_cls d)) as [f|].
  - destruct (sd_dist d) as [ds|]; [|exact K]. destruct (f ds n g) as [[s|e] g']; exact K.
  - destruct (sample_theta_phi E n g) as [[t p] g']. exact K.
Qed.
Notation PL := (fun st : ldist E * Rst => plain_name (ld_name (fst st)) /\ set_parameters (lc_params (ld_cls (fst st))) (ld_par (fst st))).
Lemma in_lpar_kept (ks : lumcls E -> list string) B (k : lumcls E -> list V -> LM E B) : (forall c vals, hk PL (k c vals) any) ->
  hk PL (let! c := gets (fun st => ld_cls (fst st)) in let! vals := in_lpar (preads E (lc_params c) (ks c)) in k c vals) any.
Proof.
  intros H [l g] [K1 K2]. unfold gets. unfold bind at 1. unfold bind, in_lpar. cbn [fst snd] in *. destruct (preads_set (lc_params (ld_cls l)) (ks (ld_cls l)) _ K2) as [X _].
  destruct (preads E (lc_params (ld_cls l)) (ks (ld_cls l)) (ld_par l)) as [[vals|e] o]; cbn [fst snd] in *; [|now split]. apply H. now split.
Qed.
Lemma draw_luminosity_kept n : hk PL (@draw_luminosity E n) any.
Proof. apply (in_lpar_kept (fun c => lc_dreads c)). intros c vals [l g] K. split; [|easy]. cbn in *. now destruct (lc_draw c vals n g). Qed.
Lemma compute_probability_kept x : hk PL (@compute_probability E x) any.
Proof. apply (in_lpar_kept (fun c => lc_preads c)). intros c vals. hb; [apply hk_lift; intros; exact I|]. apply hk_modify. intros [l g] K. exact K. Qed.

(** ** Surveys *)
Notation PY := (@keepable E).
Lemma with_world (y : synth) w : PY y -> PW w -> PY (with_w y w). Proof. intros [] [A B]. now constructor. Qed.
Lemma world_of (y : synth) : PY y -> PW (y_w y). Proof. intros []. now split. Qed.
Lemma in_w_kept A (m : AM E A) Q : hk PW m Q -> hk PY (in_w m) Q.
Proof. intros H y K. unfold in_w. destruct (H (y_w y) (world_of _ K)) as [X Y]. destruct (m (y_w y)) as [r w]. cbn in *. split; [now apply with_world|exact Y]. Qed.
Lemma in_sp_kept A (m : DM E A) Q : hk PD m Q -> hk PY (in_sp m) Q.
Proof.
  intros H y K. unfold in_sp. destruct (H (y_sp y, w_g (y_w y)) (ke_sp K)) as [X Y]. destruct (m (y_sp y, w_g (y_w y))) as [r [d g]]. cbn in *. split; [|exact Y]. destruct K. now constructor.
Qed.
Lemma in_lum_kept A (m : LM E A) Q : hk PL m Q -> hk PY (in_lum m) Q.
Proof.
  intros H y K. unfold in_lum. destruct (y_lum y) as [l|] eqn:L; [|split; [exact K|discriminate]]. destruct (H (l, w_g (y_w y)) (ke_lum K L)) as [X Y].
  destruct (m (l, w_g (y_w y))) as [r [l' g]]. cbn in *. split; [|exact Y]. destruct K. constructor; try assumption.
  - destruct ke_types as (A1 & A2 & A3). split; [exact A1|]. split; [exact A2|]. intros _. apply A3. congruence.
  - intros l0 Z. injection Z as <-. exact X.
Qed.
Lemma in_g_kept A (m : M Rst A) : hk PY (in_g m) any.
Proof. intros y K. split; [|easy]. unfold in_g. destruct (m (w_g (y_w y))) as [r g]. cbn. destruct K. now constructor. Qed.
Lemma survey_size_kept ns norm : hk PY (@survey_size E ns norm) any.
Proof.
  unfold survey_size. hb; [apply hk_modify; intros y K; apply with_world; [exact K|exact (world_of _ K)]|]. destruct ns; [now apply hk_ret|]. ha; [apply in_sp_kept|apply in_g_kept].
  hb; [hd|]. destruct norm; [|hd]. hb; [hd|]. hb; [hd|]. hb; [hd|]. hb; [hd|]. ha; [|hd]. destruct a1 as [[v|]|]; [apply norm_write_kept|now apply hk_ret..].
Qed.
Definition PT (t : truths E) : Prop := t <> nil /\ plain_names t /\ forall k d, In (k, d) t -> plain_names d.
Lemma truth_keys (s : dict (option V)) k : In k (dkeys (ParamModel.truth_of s)) -> In k (dkeys s).
Proof. induction s as [|[k0 [v|]] s IH]; cbn; tauto. Qed.
Lemma plain_truth (c : pclass V) o : named_parameters c o -> plain_names (truth o).
Proof. intros ((N & P) & _). split; [now apply ConfProofs.NoDup_truth|]. intros k X. apply P. now apply truth_keys. Qed.
Lemma PT_dset t k d : PT t -> plain_name k -> plain_names d -> PT (dset t k d).
Proof.
  intros (A & B & C) K D. split; [|split; [now apply plain_dset|]].
  - intros X. assert (Y : In k (dkeys (dset t k d))) by (apply In_dkeys_dset; now left). rewrite X in Y. destruct Y.
  - intros k0 d0 X. apply In_dset in X. destruct X as [(-> & ->)|X]; [exact D|eauto].
Qed.
Lemma times_kept p q : hk PY (@times E p q) any. Proof. apply hk_lift. easy. Qed.
Lemma add_truth_kept i t : PT t -> hk PY (@add_truth E i t) PT.
Proof.
  intros T. unfold add_truth, sampler_truth. eapply hk_bind with (Q1 := fun x => plain_name (fst x) /\ plain_names (snd x)).
  - hb; [apply in_w_kept, get_aux_kept|]. apply hk_ret. split; [apply H|]. eapply plain_truth, H.
  - intros [nm d] [N D]. apply hk_ret. now apply PT_dset.
Qed.
Lemma get_sp_kept : hk PY (@get_sp E) any. Proof. unfold get_sp. hb; [apply hk_get|]. apply hk_lift. easy. Qed.
Lemma props_kept rl i : hk PY (@props E rl i) plain_names.
Proof.
  unfold props. hb; [apply hk_get|]. apply hk_lift. intros s S. destruct (sec_props_quiet (w_auxs (y_w a)) rl (ke_samplers H) i "" None eq_refl) as [_ X]. now apply X.
Qed.
Lemma check_len_kept n i : hk PY (@check_len E n i) any.
Proof. unfold check_len. hb; [apply in_w_kept, get_aux_kept|]. ha; apply hk_lift; easy. Qed.
Lemma plain_one {A} k (c : A) : plain_name k -> plain_names (dset nil k c). Proof. intros K. apply plain_dset; [apply plain_nil|exact K]. Qed.
Lemma survey_lum_kept prog rl n p t : PT t -> hk PY (@survey_lum E prog rl n p t) (fun r => PT (snd (fst r)) /\ plain_names (snd r)).
Proof.
  intros T. unfold survey_lum. hb; [apply hk_get|].
  assert (X : forall i, hk PY (
      let! sp := get_sp (E := E) in
      in_w (set_sp i sp) ;;
      in_w (aux_draw prog rl i n) ;;
      check_len n i ;;
      let! a := in_w (get_aux i) in
      let st := dset nil (name_of a) (container_of a) in
      let! vals := in_w (aux_reads i (k_lreads (kind_of a))) in
      let! a' := in_w (get_aux i) in
      let! w := in_w get in
      let! f := lift (of_opt AttributeError (k_lum (kind_of a))) in
      let! lum := lift (f vals (view_of (w_auxs w) a')) in
      let! t1 := add_truth i t in
      let! r := foldM (fun acc kv =>
                  let! s := props rl (snd kv) in
                  let! t2 := add_truth (snd kv) (snd acc) in
                  ret (st_add (fst acc) s, t2)) (st, t1) (a_sec (a_ln a)) in
      ret (lum, p, snd r, fst r)) (fun r => PT (snd (fst r)) /\ plain_names (snd r))).
  { intros i. hb; [apply get_sp_kept|]. hb; [apply in_w_kept, set_sp_kept|]. hb; [apply in_w_kept, aux_draw_kept|]. hb; [apply check_len_kept|]. hb; [apply in_w_kept, get_aux_kept|].
    cbv zeta. hb; [apply in_w_kept, aux_reads_kept|]. hb; [apply in_w_kept, get_aux_kept|]. hb; [apply in_w_kept, hk_get|]. ha; [apply hk_lift; easy|]. ha; [apply hk_lift; easy|].
    hb; [now apply add_truth_kept|]. eapply hk_bind with (Q1 := fun r => plain_names (fst r) /\ PT (snd r)).
    - apply hk_fold; [|split; [apply plain_one, H4|assumption]]. intros [s0 t0] kv _ [Q1 Q2]. cbn [fst snd] in *. hb; [apply props_kept|]. hb; [now apply add_truth_kept|]. apply hk_ret. split; [now apply plain_add|assumption].
    - intros [s0 t0] [Q1 Q2]. apply hk_ret. now split. }
  destruct (y_lum a) as [l|], (y_der a) as [i|]; try apply X; [|apply hk_raise].
  hb; [apply in_lum_kept, draw_luminosity_kept|]. hb; [apply in_lum_kept, compute_probability_kept|]. hb; [apply hk_get|].
  eapply hk_bind with (Q1 := fun l => plain_name (ld_name l) /\ set_parameters (lc_params (ld_cls l)) (ld_par l)).
  - apply hk_lift. intros l0 Y. destruct (y_lum a2) eqn:L; [|discriminate]. injection Y as ->. exact (ke_lum H2 L).
  - intros l0 [N SP]. hb; [apply times_kept|]. apply hk_ret. split; [|apply plain_nil]. apply PT_dset; [exact T|exact N|]. eapply plain_truth, SP.
Qed.
Lemma survey_aux_kept prog rl n l acc kv : PT (fst acc) /\ plain_names (snd acc) -> hk PY (@survey_aux E prog rl n l acc kv) (fun r => PT (fst r) /\ plain_names (snd r)).
Proof.
  intros [T S]. unfold survey_aux. hb; [apply in_w_kept, get_aux_kept|]. ha; [apply hk_lift; easy|]. hb; [apply in_w_kept, set_lum_kept|]. hb; [apply get_sp_kept|]. hb; [apply in_w_kept, set_sp_kept|].
  ha. { apply hk_iter. intros [k j] _. cbn [snd]. hb; [apply in_w_kept, get_aux_kept|]. ha.
        - destruct (a_usesl _); [apply in_w_kept, set_lum_kept|now apply hk_ret].
        - destruct (a_usesd _); [apply in_w_kept, set_sp_kept|now apply hk_ret]. }
  hb; [apply in_w_kept, aux_draw_kept|]. hb; [now apply add_truth_kept|]. hb; [apply check_len_kept|]. hb; [apply props_kept|].
  eapply hk_bind with (Q1 := PT).
  - apply hk_fold; [|assumption]. intros t [k j] _ Q. now apply add_truth_kept.
  - intros t Q. apply hk_ret. split; [exact Q|now apply plain_add].
Qed.
Lemma survey_flux_kept sg l10 n f : hk PY (@survey_flux E sg l10 n f) any.
Proof.
  unfold survey_flux. hb; [apply hk_get|]. hb; [apply in_w_kept, get_sel_kept|]. destruct (is_unity _), sg; try now apply hk_ret. destruct (vlt _ _ _); [apply hk_raise|].
  hb; [apply in_g_kept|]. ha; [apply hk_lift; easy|]. ha; [apply hk_lift; easy|]. now apply hk_ret.
Qed.
Lemma read_graph_kept rl : hk PY (@read_graph E rl) (fun g => GP g).
Proof.
  intros y K. unfold read_graph.
  destruct (build_graph_kept rl (w_auxs (y_w y)) (sd_name (y_sp y)) (option_map (fun l => ld_name l) (y_lum y)) (y_der y) (y_aux y) (ke_samplers K) (proj1 (ke_sp K))) with (s := y_graph y) as [X _].
  - intros l L. destruct (y_lum y) eqn:Y; [|discriminate]. injection L as <-. exact (proj1 (ke_lum K Y)).
  - exact (ke_aux K).
  - exact (ke_graph K).
  - destruct (build_graph rl (w_auxs (y_w y)) (sd_name (y_sp y)) (option_map (fun l => ld_name l) (y_lum y)) (y_der y) (y_aux y) (y_graph y)) as [r g]. cbn in *. split.
    + destruct K. now constructor.
    + intros a A. destruct r; [|discriminate]. injection A as <-. exact X.
Qed.

(** ** The configuration *)
Notation tree := (Tree.tree V).
Definition SD (d : dict tree) : Prop := NoDup (dkeys d) /\ forall k t, In (k, t) d -> plain_name k /\ storable t.
Lemma SD_storable d : SD d -> storable (TDict d). Proof. apply HdfProofs.storable_dict. Qed.
Lemma SD_dset d k t : SD d -> plain_name k -> storable t -> SD (dset d k t).
Proof. intros [N P] K T. split; [now apply NoDup_dset|]. intros k0 t0 X. apply In_dset in X. destruct X as [(-> & ->)|X]; auto. Qed.
Lemma tdict_storable (d : dict V) : plain_names d -> storable (tdict d : tree).
Proof.
  intros [N P]. apply SD_storable. split.
  - unfold dkeys. rewrite map_map. exact N.
  - intros k t X. apply in_map_iff in X. destruct X as ([k0 v] & Y & X). injection Y as <- <-. split; [|exact I]. apply P. apply (in_map fst) in X. exact X.
Qed.
Lemma storable_names (l : list string) : (forall s, In s l -> plain_name s) -> storable (TList (map (fun s => TStr s) l) : tree).
Proof. induction l as [|x l IH]; intros H; [exact I|]. split; [apply H; now left|]. apply IH. intros s X. apply H. now right. Qed.
Ltac pl := unfold plain_name, no_nul; cbn; intuition discriminate.
Lemma one_storable k (t : tree) : plain_name k -> storable t -> storable (TDict [(k, t)]).
Proof. intros K T. apply SD_storable. split; [repeat constructor; now intros []|]. intros k0 t0 [X|[]]. now injection X as <- <-. Qed.
Lemma sel_entry_storable (s : selector) : keepable_selector s -> storable (TDict [(s_type s, tdict (sel_parameters s))] : tree).
Proof. intros [T N]. apply one_storable; [exact T|]. apply tdict_storable. eapply plain_truth, N. Qed.
Lemma conf_entry_storable ty sels (a : sampler) e : (forall s, In s sels -> keepable_selector s) -> keepable_sampler a -> text ty -> conf_entry ty sels a = Ok e -> storable e.
Proof.
  intros HS [KN KT KP KS] T. unfold conf_entry. destruct (nth_error sels (a_sel (a_ln a))) as [s|] eqn:N; [|discriminate]. cbn [of_opt rbind]. intros X. injection X as <-.
  apply SD_storable. apply SD_dset; [apply SD_dset|..].
  - assert (P := plain_truth _ _ KP). destruct P as [_ P]. revert P.
    assert (D0 : SD [("type", TStr ty); ("observed", TBool (a_observed (a_st a)))]).
    { split; [repeat constructor; cbn; intuition discriminate|]. intros k t [X|[X|[]]]; injection X as <- <-; (split; [pl|]); [exact T|exact I]. }
    revert D0. generalize [("type", TStr ty : tree); ("observed", TBool (a_observed (a_st a)))]. induction (truth (a_par (a_dy a))) as [|[k v] l IH]; cbn [fold_left]; intros d D P; [exact D|].
    apply IH; [|intros x X; apply P; now right]. apply SD_dset; [exact D|apply P; now left|exact I].
  - pl.
  - rewrite <- (map_map fst (fun s => TStr s)). apply storable_names. intros x X. apply in_map_iff in X. destruct X as ([k j] & <- & X). exact (KS _ _ X).
  - pl.
  - apply sel_entry_storable, HS. eapply nth_error_In, N.
Qed.
Lemma sec_objects_storable w rl : PW w -> forall i acc acc', SD acc -> sec_objects rl w i acc = Ok acc' -> SD acc'.
Proof.
  intros W. induction rl as [|rl IH]; intros i acc acc' D; cbn [sec_objects]; [discriminate|]. destruct (nth_error (w_auxs w) i) as [a|] eqn:A; [|discriminate]. cbn [of_opt rbind].
  assert (KA := proj1 W a (nth_error_In _ _ A)).
  match goal with |- rbind (?f (a_sec (a_ln a)) acc) _ = _ -> _ => assert (G : forall l acc acc1, SD acc -> f l acc = Ok acc1 -> SD acc1) end.
  { clear acc D. induction l as [|[k j] l IHl]; intros acc acc1 D H; [now injection H as <-|]. destruct (sec_objects rl w j acc) as [acc2|] eqn:Q; [|discriminate]. eapply IHl; [|exact H]. eapply IH; [exact D|exact Q]. }
  match goal with |- rbind ?m _ = _ -> _ => destruct m as [acc1|] eqn:Q end; [|discriminate]. apply G in Q; [|exact D]. cbn [rbind].
  destruct (conf_entry (a_type (a_st a)) (w_sels w) a) as [e|] eqn:CE; [|discriminate]. cbn [rbind]. intros H. injection H as <-. apply SD_dset; [exact Q|apply KA|].
  eapply conf_entry_storable; [apply W|exact KA|exact (ks_type KA)|exact CE].
Qed.
Lemma conf_top_storable w rl key ty i acc acc' : PW w -> plain_name key -> text ty -> SD acc -> conf_top rl w key ty i acc = Ok acc' -> SD acc'.
Proof.
  intros W K T D. unfold conf_top. destruct (nth_error (w_auxs w) i) as [a|] eqn:A; [|discriminate]. cbn [of_opt rbind]. assert (KA := proj1 W a (nth_error_In _ _ A)).
  destruct (conf_entry ty (w_sels w) a) as [e|] eqn:CE; [|discriminate]. cbn [rbind].
  assert (D1 : SD (dset acc key e)) by (apply SD_dset; [exact D|exact K|eapply conf_entry_storable; [apply W|exact KA|exact T|exact CE]]).
  destruct (a_sec (a_ln a)); intros H; [now injection H as <-|]. eapply sec_objects_storable; [exact W|exact D1|exact H].
Qed.
Lemma selection_entry_storable (w : world) i t : PW w -> selection_entry w i = Ok t -> storable t.
Proof.
  intros W. unfold selection_entry. destruct (nth_error (w_sels w) i) as [s|] eqn:N; [|discriminate]. cbn [of_opt rbind]. intros H. injection H as <-. apply sel_entry_storable, W. eapply nth_error_In, N.
Qed.
Lemma SD_app d k t : SD d -> ~ In k (dkeys d) -> plain_name k -> storable t -> SD (d ++ [(k, t)]).
Proof.
  intros [N P] F K T. split.
  - unfold dkeys. rewrite map_app. cbn. apply (Permutation.Permutation_NoDup (Permutation.Permutation_cons_append (map fst d) k)). now constructor.
  - intros k0 t0 X. apply in_app_iff in X. destruct X as [X|[X|[]]]; [auto|]. now injection X as <- <-.
Qed.
Lemma keys_app (d : dict tree) k t x : In x (dkeys (d ++ [(k, t)])) <-> In x (dkeys d) \/ x = k.
Proof. unfold dkeys. rewrite map_app, in_app_iff. cbn. intuition congruence. Qed.
Lemma to_dict_storable rl (y : synth) t : PY y -> to_dict rl y = Ok t -> exists d, t = TDict d /\ d <> nil /\ storable (TDict d) /\ (forall b, m_rate (y_spm y) = Some b -> has_bool (TDict d)).
Proof.
  intros K. assert (W := world_of _ K). unfold to_dict. cbv zeta.
  set (spd := TDict ((m_type (y_spm y), tdict (truth (sd_par (y_sp y)))) :: match m_rate (y_spm y) with None => nil | Some b => [("is_rate", TBool b)] end)).
  assert (S0 : storable spd).
  { destruct (ke_types K) as (T1 & T2 & _). assert (X : storable (tdict (truth (sd_par (y_sp y))) : tree)) by (apply tdict_storable; eapply plain_truth, (ke_sp K)).
    unfold spd. destruct (m_rate (y_spm y)); [|now apply one_storable]. apply SD_storable. split.
    - repeat constructor; cbn; intuition congruence.
    - intros k0 t0 [Z|[Z|[]]]; injection Z as <- <-; (split; [|first [exact X|exact I]]); [exact T1|pl]. }
  set (out0 := [("seed", TInt (y_seed y)); ("spatial distribution", spd)]).
  assert (D0 : SD out0).
  { split; [repeat constructor; cbn; intuition discriminate|]. intros k t0 [X|[X|[]]]; injection X as <- <-; (split; [pl|]); [exact (ke_seed K)|exact S0]. }
  assert (I0 : In ("spatial distribution", spd) out0) by (right; now left).
  assert (B0 : forall b, m_rate (y_spm y) = Some b -> has_bool spd).
  { intros b Z. unfold spd. rewrite Z. eapply hb_dict; [right; left; reflexivity|constructor]. }
  assert (C0 : forall x, In x (dkeys out0) -> x = "seed" \/ x = "spatial distribution") by (cbn; intuition congruence).
  clearbody out0 spd.
  set (out1 := match y_lum y with None => out0 | Some l => (out0 ++ [("luminosity distribution", TDict [(m_type (y_lumm y), tdict (truth (ld_par l)))])])%list end).
  assert (X1 : SD out1 /\ In ("spatial distribution", spd) out1 /\ forall x, In x (dkeys out1) -> x = "seed" \/ x = "spatial distribution" \/ x = "luminosity distribution").
  { unfold out1. destruct (y_lum y) as [l|] eqn:L.
    - split; [|split; [apply in_app_iff; now left|intros x X; apply keys_app in X; destruct X as [X|X]; [apply C0 in X|]; tauto]].
      apply SD_app; [exact D0|intros X; apply C0 in X; intuition discriminate|pl|]. apply one_storable; [apply (ke_types K); congruence|]. apply tdict_storable. eapply plain_truth, (ke_lum K L).
    - split; [exact D0|]. split; [exact I0|]. intros x X. apply C0 in X. tauto. }
  clearbody out1. clear out0 D0 I0 C0 S0. destruct X1 as (D1 & I1 & C1).
  match goal with |- rbind ?m _ = _ -> _ => destruct m as [out2|] eqn:Q2 end; [|discriminate]. cbn [rbind].
  assert (X2 : SD out2 /\ In ("spatial distribution", spd) out2 /\ forall x, In x (dkeys out2) -> x = "seed" \/ x = "spatial distribution" \/ x = "luminosity distribution" \/ x = "flux selection").
  { destruct (y_fluxset y).
    - destruct (selection_entry (y_w y) (y_flux y)) as [e|] eqn:SE; [|discriminate]. injection Q2 as <-. apply selection_entry_storable in SE; [|exact W].
      split; [|split; [apply in_app_iff; now left|intros x X; apply keys_app in X; destruct X as [X|X]; [apply C1 in X|]; tauto]]. apply SD_app; [exact D1|intros X; apply C1 in X; intuition discriminate|pl|exact SE].
    - injection Q2 as <-. split; [exact D1|]. split; [exact I1|]. intros x X. apply C1 in X. tauto. }
  clear Q2 out1 D1 I1 C1. destruct X2 as (D2 & I2 & C2).
  match goal with |- rbind ?m _ = _ -> _ => destruct m as [out3|] eqn:Q3 end; [|discriminate]. cbn [rbind].
  assert (X3 : SD out3 /\ In ("spatial distribution", spd) out3 /\ forall x, In x (dkeys out3) -> x = "seed" \/ x = "spatial distribution" \/ x = "luminosity distribution" \/ x = "flux selection" \/ x = "distance selection").
  { destruct (y_dset y).
    - destruct (selection_entry (y_w y) (y_dsel y)) as [e|] eqn:SE; [|discriminate]. injection Q3 as <-. apply selection_entry_storable in SE; [|exact W].
      split; [|split; [apply in_app_iff; now left|intros x X; apply keys_app in X; destruct X as [X|X]; [apply C2 in X|]; tauto]]. apply SD_app; [exact D2|intros X; apply C2 in X; intuition discriminate|pl|exact SE].
    - injection Q3 as <-. split; [exact D2|]. split; [exact I2|]. intros x X. apply C2 in X. tauto. }
  clear Q3 out2 D2 I2 C2. destruct X3 as (D3 & I3 & C3).
  match goal with |- rbind ?m _ = _ -> _ => destruct m as [out4|] eqn:Q4 end; [|discriminate]. cbn [rbind].
  assert (X4 : SD out4 /\ In ("spatial distribution", spd) out4 /\ forall x, In x (dkeys out4) -> x = "seed" \/ x = "spatial distribution" \/ x = "luminosity distribution" \/ x = "flux selection" \/ x = "distance selection" \/ x = "spatial selection").
  { destruct (y_ssel y) as [i|].
    - destruct (selection_entry (y_w y) i) as [e|] eqn:SE; [|discriminate]. injection Q4 as <-. apply selection_entry_storable in SE; [|exact W].
      split; [|split; [apply in_app_iff; now left|intros x X; apply keys_app in X; destruct X as [X|X]; [apply C3 in X|]; tauto]]. apply SD_app; [exact D3|intros X; apply C3 in X; intuition discriminate|pl|exact SE].
    - injection Q4 as <-. split; [exact D3|]. split; [exact I3|]. intros x X. apply C3 in X. tauto. }
  clear Q4 out3 D3 I3 C3. destruct X4 as (D4 & I4 & C4).
  match goal with |- rbind (?f (y_aux y) nil) _ = _ -> _ => assert (G : forall l acc acc1, (forall k i, In (k, i) l -> plain_name k) -> SD acc -> f l acc = Ok acc1 -> SD acc1) end.
  { induction l as [|[k i] l IHl]; intros acc acc1 PK D H; [now injection H as <-|]. destruct (nth_error (w_auxs (y_w y)) i) as [a|] eqn:A; [|discriminate]. cbn [of_opt rbind] in H.
    destruct (conf_top rl (y_w y) k (a_type (a_st a)) i acc) as [acc2|] eqn:Q; [|discriminate]. cbn [rbind] in H. eapply IHl; [intros k0 i0 Z; eapply PK; right; exact Z| |exact H].
    eapply conf_top_storable; [exact W|eapply PK; left; reflexivity| |exact D|exact Q]. apply (proj1 W a (nth_error_In _ _ A)). }
  match goal with |- rbind ?m _ = _ -> _ => destruct m as [a1|] eqn:Q5 end; [|discriminate]. cbn [rbind].
  apply G in Q5; [|exact (ke_aux K)|split; [constructor|intros ? ? []]].
  match goal with |- rbind ?m _ = _ -> _ => destruct m as [a2|] eqn:Q6 end; [|discriminate]. cbn [rbind].
  assert (Q7 : SD a2).
  { destruct (y_der y) as [i|]; [|now injection Q6 as <-]. destruct (nth_error (w_auxs (y_w y)) i) as [a|] eqn:A; [|discriminate]. cbn [of_opt rbind] in Q6.
    assert (KA := proj1 W a (nth_error_In _ _ A)). eapply conf_top_storable; [exact W|apply KA|apply KA|exact Q5|exact Q6]. }
  intros H. injection H as <-. eexists. split; [reflexivity|]. split; [now destruct out4|]. split.
  - apply SD_storable, SD_app; [exact D4|intros X; apply C4 in X; intuition discriminate|pl|now apply SD_storable].
  - intros b Z. eapply hb_dict; [apply in_app_iff; left; exact I4|now apply (B0 b)].
Qed.
End P.
