(** Further facts on drawing samplers. *)
From Verif Require Import Base BaseFacts Env ParamModel SelModel DistModel AuxModel AuxSpec AuxProofs AuxCycle AuxProps.
Open Scope string_scope.
Open Scope list_scope.

Section P.
Variable E : env.
Notation sampler := (sampler E).
Notation world := (world E).
Implicit Types w : world.
Implicit Types a b : sampler.

Lemma finish_default_observation prog i size w w' a : at_ w i a -> a_observed (a_st a) = true ->
  a_obs (a_dy a) = None -> (forall vals v n g, fst (k_obs (kind_of a) vals v n g) = Ok None) ->
  aux_finish prog i size w <> (Ok tt, w').
Proof.
  intros A OB ON KO H. unfold aux_finish in H. apply bind_inv_ok in H. destruct H as (u & w1 & H1 & H).
  assert (X : exists a1, at_ w1 i a1 /\ a_st a1 = a_st a /\ a_obs (a_dy a1) = None).
  { clear H. unfold run_true in H1. apply bind_inv_ok in H1. destruct H1 as (a0 & w0 & H0 & H).
    apply get_aux_inv in H0. destruct H0 as [-> A0]. assert (a0 = a) by (eapply at_fun; eauto). subst a0.
    apply bind_inv_ok in H. destruct H as (u1 & w2 & H2 & H). unfold modify in H2. injection H2 as _ <-.
    apply bind_inv_ok in H. destruct H as (vals & w3 & H3 & H). apply aux_reads_inv in H3.
    destruct H3 as (a2 & o & A2 & _ & ->). assert (a2 = a) by (eapply at_fun; [exact A2|exact A]). subst a2.
    apply bind_inv_ok in H. destruct H as (a3 & w4 & H4 & H). apply get_aux_inv in H4. destruct H4 as [-> A3].
    assert (a3 = upd_dy (dy_par o) a) by (eapply at_fun; [exact A3|now apply at_set]). subst a3.
    apply bind_inv_ok in H. destruct H as (x & w5 & H5 & H).
    match type of H5 with (let (_, _) := ?t in _) = _ => destruct t as [r g] end. injection H5 as -> <-.
    destruct x as [l|].
    - apply upd_aux_inv in H. destruct H as (a4 & A4 & ->).
      assert (a4 = upd_dy (dy_par o) a) by (eapply at_fun; [exact A4|exact A3]). subst a4.
      eexists. split; [apply at_set; exact A4|]. split; [reflexivity|exact ON].
    - injection H as _ <-. eexists. split; [exact A3|]. split; [reflexivity|exact ON]. }
  destruct X as (a1 & A1 & ST & O1). clear H1.
  rewrite (bind_ok _ _ _ (get_aux_at _ _ _ _ A1)) in H. rewrite ST, OB in H.
  apply bind_inv_ok in H. destruct H as (u2 & w2 & H2 & H).
  assert (X : exists a2, at_ w2 i a2 /\ a_obs (a_dy a2) = None).
  { clear H. unfold run_obs in H2. apply bind_inv_ok in H2. destruct H2 as (a0 & w0 & H0 & H).
    apply get_aux_inv in H0. destruct H0 as [-> A0]. assert (a0 = a1) by (eapply at_fun; eauto). subst a0.
    apply bind_inv_ok in H. destruct H as (vals & w3 & H3 & H). apply aux_reads_inv in H3.
    destruct H3 as (a2 & o & A2 & _ & ->). assert (a2 = a1) by (eapply at_fun; [exact A2|exact A1]). subst a2.
    apply bind_inv_ok in H. destruct H as (a3 & w4 & H4 & H). apply get_aux_inv in H4. destruct H4 as [-> A3].
    assert (a3 = upd_dy (dy_par o) a1) by (eapply at_fun; [exact A3|now apply at_set]). subst a3.
    apply bind_inv_ok in H. destruct H as (x & w5 & H5 & H).
    set (w3 := w_set_auxs _ _) in *. set (vw := view_of (w_auxs w3) _) in *.
    specialize (KO vals vw size (w_g w3, w_n w3)).
    replace (kind_of a1) with (kind_of a) in H5 by (unfold kind_of; now rewrite ST).
    destruct (k_obs (kind_of a) vals vw size (w_g w3, w_n w3)) as [r g]. cbn in KO. subst r. injection H5 as <- <-.
    injection H as _ <-. exists (upd_dy (dy_par o) a1). split; [exact A3|exact O1]. }
  destruct X as (a2 & A2 & O2). rewrite (bind_ok _ _ _ (get_aux_at _ _ _ _ A2)) in H.
  apply bind_inv_ok in H. destruct H as (u3 & w3 & H3 & H).
  apply bind_inv_ok in H. destruct H as (u4 & w4 & H4 & H).
  apply bind_inv_ok in H. destruct H as (u5 & w5 & H5 & H). unfold lift, rassert in H5. rewrite O2 in H5.
  cbn in H5. discriminate.
Qed.

Theorem default_observation_fails prog fuel i size w a : acyclic w -> at_ w i a ->
  a_sampled (a_dy a) = false -> a_observed (a_st a) = true -> a_obs (a_dy a) = None ->
  (forall vals v n g, fst (k_obs (kind_of a) vals v n g) = Ok None) ->
  fst (aux_draw prog fuel i size w) <> Ok tt.
Proof.
  intros AC A NS OB ON KO H. destruct (aux_draw prog fuel i size w) as [r w'] eqn:D. cbn in H. subst r.
  assert (D' := D). destruct (draw_exactly _ _ _ _ _ _ _ AC D) as (t & DR & _ & PT & LT).
  assert (NSI : ~ sampled w i).
  { intros (b & B & S). assert (b = a) by (eapply at_fun; eauto). subst. congruence. }
  (* look inside the call again *)
  destruct fuel as [|fuel]; [discriminate|]. cbn [aux_draw] in D.
  rewrite (bind_ok _ _ _ (get_aux_at _ _ _ _ A)), NS in D.
  apply bind_inv_ok in D. destruct D as (u & w1 & H1 & D). destruct u.
  apply pre_inv in H1. destruct H1 as (sels & -> & LS & K).
  apply bind_inv_ok in D. destruct D as (u & w1 & H1 & D). destruct u.
  assert (X : forall l wa wb, same_wiring w wa -> (exists b, at_ wa i b /\ same_values a b) ->
    (forall kv, In kv l -> depends w i (snd kv)) ->
    iterM (fun kv : string * nat =>
          let! b := get_aux (snd kv) in
          if a_issec (a_ln b) then
            match a_sp (a_dy a) with
            | None => raise AttributeError
            | Some sp => set_sp (snd kv) sp ;; aux_draw prog fuel (snd kv) size
            end
          else raise RuntimeError) l wa = (Ok tt, wb) ->
    exists b, at_ wb i b /\ same_values a b).
  { clear H1 D D' DR. destruct AC as (r & R).
    induction l as [|kv l IHl]; intros wa wb W SV DL H; cbn [iterM] in H.
    - injection H as <-. exact SV.
    - apply bind_inv_ok in H. destruct H as (u & wc & H1 & H). destruct u.
      apply bind_inv_ok in H1. destruct H1 as (b & w2 & H1 & H2). apply get_aux_inv in H1.
      destruct H1 as [-> B]. destruct (a_issec (a_ln b)); [|discriminate].
      destruct (a_sp (a_dy a)) as [sp|]; [|discriminate].
      apply bind_inv_ok in H2. destruct H2 as (u & w2 & H1 & H2). destruct u.
      assert (D1 := drew_set_sp _ prog size _ _ _ _ H1).
      assert (W2 : same_wiring w w2) by (eapply wiring_trans; [exact W|apply (dr_wiring D1)]).
      assert (R2 : forall i j, depends w2 i j -> r j < r i).
      { intros x y Q. apply R. eapply wiring_depends; [apply wiring_sym|]; eauto. }
      destruct (draw_drew _ _ _ _ _ _ _ r R2 H2) as (t2 & D2 & _ & P2 & _).
      assert (D3 := drew_app _ _ _ _ _ _ _ _ D1 D2). cbn in D3.
      destruct SV as (b0 & B0 & SV).
      destruct (dr_frame D3 (j:=i) (a:=b0)) as (b1 & B1 & V1); [|easy|].
      + intros I. apply P2, pending_reaches, (reaches_rank _ _ _ _ _ R2) in I.
        assert (r (snd kv) < r i) by (apply R, DL; now left). lia.
      + eapply IHl; [| | |exact H].
        * eapply wiring_trans; [exact W|apply (dr_wiring D3)].
        * exists b1. split; [easy|]. eapply same_values_trans; eauto.
        * intros kv' I. apply DL. now right. }
  destruct (X (a_sec (a_ln a)) (w_set_sels sels w) w1) as (b & B & SV); [reflexivity| | |exact H1|].
  { exists a. split; [exact A|apply same_values_refl]. }
  { intros [k j] I. exists a, k. auto. }
  destruct SV as (S1 & _ & _ & _ & _ & S6 & _).
  eapply (finish_default_observation prog i size w1 w' b); [exact B|congruence|congruence| |exact D].
  unfold kind_of. rewrite <- S1. exact KO.
Qed.

(** A draw on unsampled samplers. *)
Theorem fresh_draw prog fuel i size w w' : acyclic w -> (forall j, reaches w i j -> ~ sampled w j) ->
  aux_draw prog fuel i size w = (Ok tt, w') ->
  (forall j, reaches w i j -> exists a, at_ w' j a /\ a_sampled (a_dy a) = true /\ filled size a /\
     (own_selectors w -> selected_on prog size w' a)).
Proof.
  intros AC NS D j R. destruct (draw_exactly _ _ _ _ _ _ _ AC D) as (t & DR & _ & PT & _).
  assert (PJ : pending w i j).
  { clear - NS R. induction R as [i|i m k DM R IH].
    - constructor. apply NS. constructor.
    - apply pending_step with m; [apply NS; constructor|easy|]. apply IH. intros x Q. apply NS. econstructor; eauto. }
  apply PT in PJ. destruct (dr_filled DR _ PJ) as (a & A & F). exists a. split; [easy|]. split; [|split; [easy|]].
  - assert (S : sampled w' j) by (apply (dr_sampled DR); auto). destruct S as (b & B & S).
    assert (b = a) by (eapply at_fun; eauto). now subst.
  - intros O. destruct (dr_mask DR O _ PJ) as (b & B & S). assert (b = a) by (eapply at_fun; eauto). now subst.
Qed.

(** Reset after a draw. *)
Theorem reset_forgets fuel i w w' : aux_reset fuel i w = (Ok tt, w') ->
  (forall j a, reaches w i j -> at_ w j a -> a_sampled (a_dy a) = true ->
     exists a', at_ w' j a' /\ a_sampled (a_dy a') = false /\ a_true (a_dy a') = None /\ a_obs (a_dy a') = None) /\
  resets w w'.
Proof.
  intros H. apply reset_inv in H. destruct H as [R N]. split; [|easy]. intros j a RJ A S.
  destruct (re_aux R A) as (a' & A' & K). exists a'. split; [easy|].
  assert (NJ := N j RJ). destruct K as [K|(_ & K)]; [|tauto].
  exfalso. apply NJ. exists a'. rewrite K. auto.
Qed.

Theorem props_entries fuel w i p G s G' :
  (forall j b, reaches w i j -> at_ w j b -> name_of b <> "") ->
  sec_props fuel (w_auxs w) i p G = (Ok s, G') ->
  NoDup (dkeys s) /\
  (forall k, In k (dkeys s) <-> exists j b, reaches w i j /\ at_ w j b /\ name_of b = k) /\
  ((forall j j' b b', reaches w i j -> reaches w i j' -> at_ w j b -> at_ w j' b' -> name_of b = name_of b' -> j = j') ->
   forall j b, reaches w i j -> at_ w j b -> exists c, dget s (name_of b) = Some c /\
     c_true c = a_true (a_dy b) /\ c_obs c = a_obs (a_dy b) /\ c_sel c = a_sel (a_ln b) /\ c_prob c = probability_of b).
Proof.
  intros NE H. apply props_hold in H; [|easy]. destruct H as [N F AL]. split; [easy|]. split.
  - intros k. rewrite <- dget_Some_In_keys. split.
    + intros (c & C). destruct (F k c C) as (j & b & R & B & K & _). eauto 8.
    + intros (j & b & R & B & <-). eauto.
  - intros D j b R B. destruct (AL j b R B) as (c & C). destruct (F _ _ C) as (j' & b' & R' & B' & K & ->).
    assert (j' = j) by (apply (D j' j b' b); auto). subst j'. assert (b' = b) by (eapply at_fun; eauto). subst b'.
    exists (container_of b). auto 8.
Qed.

Theorem props_succeed fuel w i p a (r : nat -> nat) :
  (forall i j, depends w i j -> r j < r i) -> closed w -> at_ w i a -> r i < fuel ->
  exists s, sec_props fuel (w_auxs w) i p None = (Ok s, None).
Proof.
  intros R C A F. destruct (props_total _ fuel w i p None a r R C A F) as [(s & G & H & K & _)|(K & _)]; [|easy].
  exists s. now rewrite (K eq_refl) in H.
Qed.

End P.
