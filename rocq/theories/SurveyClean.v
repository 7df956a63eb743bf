(** A cleaned synth behaves as a new one. *)
From Verif Require Import Base BaseFacts Env ParamModel SelModel SimVarModel DistModel AuxModel AuxSpec AuxProofs
  PopModel SynthModel SynthSpec SynthInv Sim SurveySeed.
Open Scope nat_scope.

Section P.
Variable E : env.
Notation V := (V E).
Notation world := (world E).
Notation synth := (synth E).
Notation sampler := (sampler E).
Notation selector := (selector E).
Implicit Types y : synth.

(** ** What [clean] leaves *)
Lemma kept_conf_refl (y : synth) : kept_conf y y. Proof. repeat split. Qed.
Lemma kept_conf_trans (a b c : synth) : kept_conf a b -> kept_conf b c -> kept_conf a c.
Proof. unfold kept_conf. intuition congruence. Qed.
Lemma kept_in_w A (m : AM E A) y r y' : in_w m y = (r, y') -> kept_conf y y' /\ y_aux y' = y_aux y /\ y_der y' = y_der y /\
  y_flux y' = y_flux y /\ y_fluxset y' = y_fluxset y /\ y_dsel y' = y_dsel y /\ y_dset y' = y_dset y /\ y_ssel y' = y_ssel y.
Proof. unfold in_w. destruct (m (y_w y)) as [r0 w]. intros H. injection H as <- <-. repeat split. Qed.
Definition resting (m : YM E unit) : Prop := forall y y' u, m y = (Ok u, y') -> kept_conf y y' /\ y_aux y' = y_aux y /\ y_der y' = y_der y /\
  y_flux y' = y_flux y /\ y_fluxset y' = y_fluxset y /\ y_dsel y' = y_dsel y /\ y_dset y' = y_dset y /\ y_ssel y' = y_ssel y /\
  (length (w_sels (y_w y')) = length (w_sels (y_w y)) /\ w_g (y_w y') = w_g (y_w y) /\ w_n (y_w y') = w_n (y_w y)).
Lemma resting_ret : resting (ret tt).
Proof. intros y y' u H. injection H as <- <-. repeat split. Qed.
Lemma resting_iter {A} (f : A -> YM E unit) l : (forall a, resting (f a)) -> resting (iterM f l).
Proof.
  intros H. induction l as [|x l IH]; cbn; [apply resting_ret|]. intros y y' u HM. apply bind_inv_ok in HM. destruct HM as (u1 & y1 & H1 & H2).
  apply H in H1. apply IH in H2. unfold kept_conf in *. intuition congruence.
Qed.
Definition calmw (m : AM E unit) : Prop := forall w w' u, m w = (Ok u, w') ->
  length (w_sels w') = length (w_sels w) /\ w_g w' = w_g w /\ w_n w' = w_n w.
Lemma resting_w (m : AM E unit) : calmw m -> resting (in_w m).
Proof.
  intros H y y' u HM. assert (K := kept_in_w _ _ _ _ _ HM). unfold in_w in HM. destruct (m (y_w y)) as [r w] eqn:MW. injection HM as -> <-.
  destruct (H _ _ _ MW) as (Q1 & Q2 & Q3). cbn. intuition.
Qed.
Lemma calmw_upd_aux i f : calmw (upd_aux i f).
Proof. intros w w' u H. apply upd_aux_inv in H. destruct H as (a & A & ->). auto. Qed.
Lemma calmw_upd_sel i f : calmw (upd_sel i f).
Proof. intros w w' u H. apply upd_sel_inv in H. destruct H as (s & A & ->). cbn. now rewrite lset_length. Qed.
Lemma calmw_bind (m k : AM E unit) : calmw m -> calmw k -> calmw (m ;; k).
Proof.
  intros H K w w' u HM. apply bind_inv_ok in HM. destruct HM as (u1 & w1 & H1 & H2). apply H in H1. apply K in H2. intuition congruence.
Qed.
Lemma calmw_get i (k : sampler -> AM E unit) : (forall a, calmw (k a)) -> calmw (let! a := get_aux i in k a).
Proof.
  intros K w w' u H. apply bind_inv_ok in H. destruct H as (a & w1 & H1 & H2). apply get_aux_inv in H1. destruct H1 as [-> _]. now apply (K a) in H2.
Qed.
Lemma calmw_ret : calmw (ret tt). Proof. intros w w' u H. injection H as <- <-. auto. Qed.
Lemma calmw_iter {A} (f : A -> AM E unit) l : (forall a, calmw (f a)) -> calmw (iterM f l).
Proof. intros H. induction l as [|x l IH]; cbn; [apply calmw_ret|]. now apply calmw_bind. Qed.
Lemma calmw_reset rl : forall i, calmw (aux_reset rl i).
Proof.
  induction rl as [|rl IH]; intros i; cbn [aux_reset]; [intros w w' u H; discriminate|]. apply calmw_get. intros a. apply calmw_bind.
  - destruct (a_sampled (a_dy a)); [|apply calmw_ret]. apply calmw_bind; [apply calmw_upd_aux|apply calmw_upd_sel].
  - apply calmw_iter. intros [k j]. apply IH.
Qed.

Lemma keep_unity (b : bool) y y' u i nm : forall k, nth_error (w_sels (y_w y)) i = Some (unity E nm) ->
  (if b then in_w (upd_sel k (@sel_reset E)) else ret tt) y = (Ok u, y') -> nth_error (w_sels (y_w y')) i = Some (unity E nm).
Proof.
  intros k H HM. destruct b; [|injection HM as <- <-; easy]. unfold in_w in HM.
  destruct (upd_sel k (@sel_reset E) (y_w y)) as [r w] eqn:U. injection HM as -> <-. apply upd_sel_inv in U. destruct U as (s & S & ->). cbn.
  destruct (Nat.eq_dec i k) as [->|NE]; [|now rewrite nth_lset_neq by auto]. rewrite nth_lset_eq by (apply nth_error_Some; congruence).
  rewrite H in S. injection S as <-. reflexivity.
Qed.

Theorem clean_bare rl reset y u y' : clean rl reset y = (Ok u, y') ->
  bare y' /\ kept_conf y y' /\ w_g (y_w y') = w_g (y_w y) /\ w_n (y_w y') = w_n (y_w y).
Proof.
  intros H. unfold clean in H. rewrite bind_get in H.
  assert (RI : forall (b : bool) (m : YM E unit), resting m -> resting (if b then m else ret tt)) by (intros []; auto using resting_ret).
  assert (RO : forall (o : option nat) (f : nat -> YM E unit), (forall i, resting (f i)) -> resting (match o with None => ret tt | Some i => f i end)) by (intros [] f Hf; auto using resting_ret).
  apply bind_inv_ok in H. destruct H as (u1 & y1 & H1 & H). apply RI in H1; [|apply resting_iter; intros kv; apply resting_w, calmw_reset].
  apply bind_inv_ok in H. destruct H as (u2 & y2 & H2 & H). unfold modify in H2. injection H2 as _ <-.
  apply bind_inv_ok in H. destruct H as (u3 & y3 & H3 & H). apply RI in H3; [|apply RO; intros i; apply resting_w, calmw_reset].
  apply bind_inv_ok in H. destruct H as (u4 & y4 & H4 & H). unfold modify in H4. injection H4 as _ <-.
  apply bind_inv_ok in H. destruct H as (u5 & y5 & H5 & H). apply RI in H5; [|apply resting_w, calmw_upd_sel].
  apply bind_inv_ok in H. destruct H as (f & y6 & H6 & H). unfold alloc_sel in H6. injection H6 as <- <-.
  apply bind_inv_ok in H. destruct H as (u7 & y7 & H7 & H). unfold modify in H7. injection H7 as _ <-.
  apply bind_inv_ok in H. destruct H as (u8 & y8 & H8 & H).
  assert (FL : nth_error (w_sels (y_w y8)) (length (w_sels (y_w y5))) = Some (unity E "unity flux selector")).
  { eapply (keep_unity reset); [|exact H8]. cbn. now rewrite nth_error_app2, Nat.sub_diag by lia. }
  apply RI in H8; [|apply resting_w, calmw_upd_sel].
  apply bind_inv_ok in H. destruct H as (d & y9 & H9 & H). unfold alloc_sel in H9. injection H9 as <- <-.
  apply bind_inv_ok in H. destruct H as (u10 & y10 & H10 & H). unfold modify in H10. injection H10 as _ <-.
  apply bind_inv_ok in H. destruct H as (u11 & y11 & H11 & H).
  assert (FL2 : nth_error (w_sels (y_w y11)) (length (w_sels (y_w y5))) = Some (unity E "unity flux selector") /\
    nth_error (w_sels (y_w y11)) (length (w_sels (y_w y8))) = Some (unity E "unity distance selector")).
  { assert (Q1 : nth_error (w_sels (y_w y8) ++ [unity E "unity distance selector"]) (length (w_sels (y_w y5))) = Some (unity E "unity flux selector")).
    { rewrite nth_error_app1; [easy|]. apply nth_error_Some. congruence. }
    assert (Q2 : nth_error (w_sels (y_w y8) ++ [unity E "unity distance selector"]) (length (w_sels (y_w y8))) = Some (unity E "unity distance selector")).
    { now rewrite nth_error_app2, Nat.sub_diag by lia. }
    destruct (y_ssel y) as [i|].
    - split; eapply (keep_unity reset); try exact H11; assumption.
    - destruct reset; injection H11 as <- <-; split; assumption. }
  apply RI in H11; [|apply RO; intros i; apply resting_w, calmw_upd_sel].
  unfold modify in H. injection H as _ <-. cbn [with_ssel with_dsel with_flux with_der with_aux with_w y_w y_sp y_spm y_lum y_lumm y_seed y_name y_nmodel y_spaces y_aux y_der y_flux y_fluxset y_dsel y_dset y_ssel y_graph w_g w_n w_sels w_set_sels] in *.
  destruct H1 as (K1 & A1 & D1 & F1 & G1 & I1 & J1 & S1 & L1 & W1 & N1). destruct H3 as (K3 & A3 & D3 & F3 & G3 & I3 & J3 & S3 & L3 & W3 & N3).
  destruct H5 as (K5 & A5 & D5 & F5 & G5 & I5 & J5 & S5 & L5 & W5 & N5). destruct H8 as (K8 & A8 & D8 & F8 & G8 & I8 & J8 & S8 & L8 & W8 & N8).
  destruct H11 as (K11 & A11 & D11 & F11 & G11 & I11 & J11 & S11 & L11 & W11 & N11).
  cbn [with_ssel with_dsel with_flux with_der with_aux with_w y_w y_sp y_spm y_lum y_lumm y_seed y_name y_nmodel y_spaces y_aux y_der y_flux y_fluxset y_dsel y_dset y_ssel y_graph w_g w_n w_sels w_set_sels] in *.
  destruct FL2 as [FL1 FL2].
  split; [split; cbn; try congruence|].
  split; [|split; congruence].
  repeat (eapply kept_conf_trans; [first [exact K1|exact K3|exact K5|exact K8|exact K11]|]).
  unfold kept_conf in *. cbn in *. intuition congruence.
Qed.

(** ** Two bare synths over the same distributions *)
Record cy (i j i' j' : nat) (y y' : synth) : Prop := Cy {
  cy_sp : y_sp y = y_sp y'; cy_spm : y_spm y = y_spm y'; cy_lum : y_lum y = y_lum y'; cy_lumm : y_lumm y = y_lumm y';
  cy_seed : y_seed y = y_seed y'; cy_name : y_name y = y_name y'; cy_nm : y_nmodel y = y_nmodel y'; cy_spaces : y_spaces y = y_spaces y';
  cy_aux : y_aux y = nil /\ y_aux y' = nil; cy_der : y_der y = None /\ y_der y' = None; cy_ssel : y_ssel y = None /\ y_ssel y' = None;
  cy_fset : y_fluxset y = false /\ y_fluxset y' = false; cy_dset : y_dset y = false /\ y_dset y' = false;
  cy_flux : y_flux y = i /\ y_flux y' = i'; cy_dsel : y_dsel y = j /\ y_dsel y' = j';
  cy_g : w_g (y_w y) = w_g (y_w y');
  cy_f : nth_error (w_sels (y_w y)) i = nth_error (w_sels (y_w y')) i';
  cy_d : nth_error (w_sels (y_w y)) j = nth_error (w_sels (y_w y')) j' }.

Section Bare.
Variables i j i' j' : nat.
Hypotheses (NE : i <> j) (NE' : i' <> j').
Notation cc := (cy i j i' j').
Notation yn := (sim cc eq).

Ltac same H := destruct H; split; cbn [with_graph with_spd with_lumd with_w y_w y_sp y_spm y_lum y_lumm y_seed y_name y_nmodel y_spaces y_aux y_der y_flux y_fluxset y_dsel y_dset y_ssel y_graph w_g w_sels w_set_gens w_set_sels fst snd] in *; auto; try congruence.

Lemma c_in_sp A (m : DM E A) : yn (in_sp m) (in_sp m).
Proof.
  intros y y' H. unfold in_sp. rewrite <- (cy_g _ _ _ _ _ _ H), <- (cy_sp _ _ _ _ _ _ H).
  destruct (m (y_sp y, w_g (y_w y))) as [r [d g]]. destruct r; (split; [easy|]); same H.
Qed.
Lemma c_in_lum A (m : LM E A) : yn (in_lum m) (in_lum m).
Proof.
  intros y y' H. unfold in_lum. rewrite <- (cy_g _ _ _ _ _ _ H), <- (cy_lum _ _ _ _ _ _ H). destruct (y_lum y); [|easy].
  destruct (m (l, w_g (y_w y))) as [r [d g]]. destruct r; (split; [easy|]); same H.
Qed.
Lemma c_in_g A (m : M (Rst E) A) : yn (in_g m) (in_g m).
Proof.
  intros y y' H. unfold in_g. rewrite <- (cy_g _ _ _ _ _ _ H).
  destruct (m (w_g (y_w y))) as [r g]. destruct r; (split; [easy|]); same H.
Qed.
Definition pair_of (k k' : nat) : Prop := (k = i /\ k' = i') \/ (k = j /\ k' = j').
Lemma c_get_sel k k' : pair_of k k' -> yn (in_w (get_sel k)) (in_w (get_sel k')).
Proof.
  intros P y y' H. unfold in_w, get_sel.
  assert (X : nth_error (w_sels (y_w y)) k = nth_error (w_sels (y_w y')) k') by (destruct P as [[-> ->]|[-> ->]]; apply H).
  rewrite <- X. destruct (nth_error (w_sels (y_w y)) k); cbn; (split; [easy|]); same H.
Qed.
Lemma lset_pair (l l' : list selector) k k' s : pair_of k k' -> nth_error l i = nth_error l' i' -> nth_error l j = nth_error l' j' ->
  nth_error (lset l k s) i = nth_error (lset l' k' s) i' /\ nth_error (lset l k s) j = nth_error (lset l' k' s) j'.
Proof.
  intros P HI HJ.
  assert (X : forall (l l' : list selector) k k', nth_error l k = nth_error l' k' -> nth_error (lset l k s) k = nth_error (lset l' k' s) k').
  { clear. intros l l' k k' H. destruct (Nat.lt_ge_cases k (length l)) as [L|L].
    - assert (L' : k' < length l') by (apply nth_error_Some; rewrite <- H; now apply nth_error_Some). now rewrite !nth_lset_eq.
    - assert (L' : length l' <= k') by (apply nth_error_None; rewrite <- H; now apply nth_error_None).
      rewrite (proj2 (nth_error_None (lset l k s) k)), (proj2 (nth_error_None (lset l' k' s) k')); rewrite ?lset_length; auto. }
  destruct P as [[-> ->]|[-> ->]]; split; try (now apply X); now rewrite !nth_lset_neq by auto.
Qed.
Lemma c_put_sel k k' s : pair_of k k' -> yn (in_w (put_sel k s)) (in_w (put_sel k' s)).
Proof.
  intros P y y' H. cbn. split; [easy|]. assert (Q := lset_pair _ _ k k' s P (cy_f _ _ _ _ _ _ H) (cy_d _ _ _ _ _ _ H)). destruct Q. same H.
Qed.
Lemma c_upd_sel k k' f : pair_of k k' -> yn (in_w (upd_sel k f)) (in_w (upd_sel k' f)).
Proof.
  intros P y y' H. assert (Q1 := c_get_sel k k' P y y' H). unfold in_w, upd_sel, bind in *. unfold get_sel in *.
  destruct (nth_error (w_sels (y_w y)) k) as [s|] eqn:N1, (nth_error (w_sels (y_w y')) k') as [s'|] eqn:N2; cbn [of_opt] in *; try easy.
  destruct Q1 as [<- _]. exact (c_put_sel k k' (f s) P y y' H).
Qed.
Lemma c_on_sel A k k' (m : SM E A) : pair_of k k' -> yn (in_w (on_sel k m)) (in_w (on_sel k' m)).
Proof.
  intros P y y' H. assert (Q1 := c_get_sel k k' P y y' H). unfold in_w, on_sel, bind in *. unfold get_sel in *.
  destruct (nth_error (w_sels (y_w y)) k) as [s|] eqn:N1, (nth_error (w_sels (y_w y')) k') as [s'|] eqn:N2; cbn [of_opt] in *; try easy.
  destruct Q1 as [<- _]. rewrite <- (cy_g _ _ _ _ _ _ H). destruct (m (s, w_g (y_w y))) as [r [s' g]].
  assert (Q := lset_pair _ _ k k' s' P (cy_f _ _ _ _ _ _ H) (cy_d _ _ _ _ _ _ H)). destruct Q.
  destruct r; (split; [easy|]); same H.
Qed.
Lemma c_get_sp : yn (get_sp (E := E)) (get_sp (E := E)).
Proof. unfold get_sp. eapply sim_bind; [apply sim_get|]. intros y y' H. apply sim_lift_eq. now rewrite (cy_sp _ _ _ _ _ _ H). Qed.
Lemma c_survey_lum prog rl n p t : yn (survey_lum prog rl n p t) (survey_lum (E := E) prog rl n p t).
Proof.
  unfold survey_lum. eapply sim_bind; [apply sim_get|]. intros y y' H. rewrite <- (cy_lum _ _ _ _ _ _ H).
  destruct (cy_der _ _ _ _ _ _ H) as [-> ->]. destruct (y_lum y); [|apply sim_raise].
  apply sim_eq; [apply c_in_lum|intros lum]. apply sim_eq; [apply c_in_lum|intros _]. eapply sim_bind; [apply sim_get|].
  intros z z' HZ. apply sim_eq; [apply sim_lift_eq; now rewrite (cy_lum _ _ _ _ _ _ HZ)|]. intros l'.
  apply sim_eq; [apply sim_lift|intros p']. now apply sim_ret.
Qed.
Lemma c_survey_flux sg l10 n f : yn (survey_flux sg l10 n f) (survey_flux (E := E) sg l10 n f).
Proof.
  unfold survey_flux. eapply sim_bind; [apply sim_get|]. intros y y' H. apply sim_eq.
  { apply c_get_sel. left. apply H. }
  intros s. destruct (is_unity (s_kind s)); [now apply sim_ret|]. destruct sg as [sg|]; [|now apply sim_ret].
  destruct (vlt E sg (vofnat E 0)); [apply sim_raise|]. apply sim_eq; [apply c_in_g|intros es]. apply sim_eq; [apply sim_lift|intros logs].
  apply sim_eq; [apply sim_lift|intros _]. now apply sim_ret.
Qed.
Lemma c_graph rl : sim cc (fun _ _ => True) (read_graph rl) (read_graph (E := E) rl).
Proof.
  intros y y' H. unfold read_graph, build_graph. rewrite <- (cy_sp _ _ _ _ _ _ H), <- (cy_lum _ _ _ _ _ _ H).
  destruct (cy_der _ _ _ _ _ _ H) as [-> ->]. destruct (cy_aux _ _ _ _ _ _ H) as [-> ->]. destruct (y_lum y) as [l|]; cbn; (split; [easy|]); same H.
Qed.
Lemma c_to_dict rl y y' : cc y y' -> to_dict rl y = to_dict rl y'.
Proof.
  intros H. unfold to_dict. rewrite <- (cy_spm _ _ _ _ _ _ H), <- (cy_sp _ _ _ _ _ _ H), <- (cy_lum _ _ _ _ _ _ H), <- (cy_lumm _ _ _ _ _ _ H), <- (cy_seed _ _ _ _ _ _ H).
  destruct (cy_fset _ _ _ _ _ _ H) as [-> ->]. destruct (cy_dset _ _ _ _ _ _ H) as [-> ->]. destruct (cy_ssel _ _ _ _ _ _ H) as [-> ->].
  destruct (cy_der _ _ _ _ _ _ H) as [-> ->]. destruct (cy_aux _ _ _ _ _ _ H) as [-> ->]. reflexivity.
Qed.

Definition but_graph (p p' : population E) : Prop := graph_off p = graph_off p'.

(** Only the storage of quantities produced by the samplers is folded over; here it
    is empty. *)
Lemma c_lum_storage prog rl n p t : sim cc (fun r r' => r = r' /\ snd r = nil) (survey_lum prog rl n p t) (survey_lum (E := E) prog rl n p t).
Proof.
  intros y y' H. assert (X := c_survey_lum prog rl n p t y y' H).
  destruct (survey_lum prog rl n p t y) as [[r|e] z] eqn:SL, (survey_lum prog rl n p t y') as [[r'|e'] z'] eqn:SL'; try easy.
  destruct X as [<- HZ]. split; [|easy]. split; [easy|]. clear - SL H. unfold survey_lum in SL. rewrite bind_get in SL.
  destruct (cy_der _ _ _ _ _ _ H) as [DN _]. rewrite DN in SL. destruct (y_lum y); [|discriminate].
  repeat (apply bind_inv_ok in SL; destruct SL as (? & ? & _ & SL)). injection SL as <- _. reflexivity.
Qed.

Lemma sim_pop A (r r' : res A) (Q : A -> A -> Prop) : (match r, r' with Ok a, Ok b => Q a b | Err e, Err e' => e = e' | _, _ => False end) -> sim cc Q (lift r) (lift r').
Proof. intros H y y' HC. unfold lift. destruct r, r'; auto. Qed.

Lemma pop_new_graph (a a' : popargs E) :   PopArgs E (pa_lum a) (pa_dist a) (pa_known a) (pa_kidx a) (pa_uidx a) (pa_flux a) (pa_fobs a) (pa_sel a) (pa_sigma a)
         (pa_rmax a) (pa_nmodel a) (pa_lfpar a) (pa_sppar a) (pa_spaces a) (pa_seed a) (pa_name a) (pa_spform a) (pa_lfform a)
         (pa_aux a) (pa_truth a) (pa_graph a') (pa_theta a) (pa_phi a) (pa_popsynth a) (pa_prob a) = a' ->
  match pop_new a, pop_new a' with Ok p, Ok p' => but_graph p p' | Err e, Err e' => e = e' | _, _ => False end.
Proof.
  intros <-. unfold pop_new. cbn [pa_lum pa_dist pa_known pa_kidx pa_uidx pa_flux pa_fobs pa_sel pa_sigma pa_rmax pa_nmodel pa_lfpar pa_sppar pa_spaces pa_seed pa_name pa_spform pa_lfform pa_aux pa_truth pa_graph pa_theta pa_phi pa_popsynth pa_prob].
  repeat match goal with |- match rbind ?x _ with _ => _ end => destruct x; cbn [rbind]; [|reflexivity] end. reflexivity.
Qed.

Theorem bare_survey prog fuel rl sg l10 ns nrm y y' : cc (with_w y (w_set_gens (w_g (y_w y'), w_n (y_w y)) (y_w y))) y' ->
  match draw_survey prog fuel rl sg l10 ns nrm y, draw_survey prog fuel rl sg l10 ns nrm y' with
  | (Ok p, _), (Ok p', _) => but_graph p p' | (Err e, _), (Err e', _) => e = e' | _, _ => False end.
Proof.
  intros H.
  replace (draw_survey prog fuel rl sg l10 ns nrm y) with (draw_survey prog fuel rl sg l10 ns nrm (with_w y (w_set_gens (w_g (y_w y'), w_n (y_w y)) (y_w y)))) by reflexivity.
  revert H. generalize (with_w y (w_set_gens (w_g (y_w y'), w_n (y_w y)) (y_w y))). clear y. intros y H.
  assert (X : sim cc but_graph (draw_survey prog fuel rl sg l10 ns nrm) (draw_survey prog fuel rl sg l10 ns nrm)).
  2:{ specialize (X y y' H). destruct (draw_survey prog fuel rl sg l10 ns nrm y) as [[a|e] t], (draw_survey prog fuel rl sg l10 ns nrm y') as [[b|e'] t']; try easy; apply X. }
  clear H y y'. unfold draw_survey. eapply sim_bind; [apply sim_get|]. intros y y' H. rewrite <- (cy_sp _ _ _ _ _ _ H). generalize (sd_name (y_sp y)) (truth (sd_par (y_sp y))). clear H y y'. intros nm0 tr0.
  apply sim_eq.
  { unfold survey_size. apply sim_eq; [|intros _].
    - apply sim_modify. intros y y' H. rewrite <- (cy_seed _ _ _ _ _ _ H). same H.
    - destruct ns; [now apply sim_ret|]. apply sim_eq; [apply c_in_sp|]. intros rate. apply c_in_g. }
  intros n. apply sim_eq; [apply c_in_sp|intros _].
  eapply sim_bind; [apply sim_get|]. intros y y' H. rewrite <- (cy_sp _ _ _ _ _ _ H). apply sim_eq; [apply sim_lift|]. clear H y y'. intros p0.
  apply sim_eq; [apply c_in_sp|intros _]. apply sim_eq; [apply c_get_sp|intros sp]. eapply sim_bind; [apply c_lum_storage|intros [[[lum p1] t1] st1] r' [<- ST]]. cbn [snd] in ST. subst st1.
  apply sim_eq; [apply c_in_sp|intros c]. apply sim_eq; [apply sim_lift|intros fluxes]. eapply sim_bind; [apply sim_get|]. intros y y' H.
  destruct (cy_aux _ _ _ _ _ _ H) as [-> ->]. destruct (cy_flux _ _ _ _ _ _ H) as [-> ->]. destruct (cy_ssel _ _ _ _ _ _ H) as [-> ->]. destruct (cy_dsel _ _ _ _ _ _ H) as [-> ->].
  clear H y y'. eapply sim_bind with (Q := fun r r' => r = r' /\ snd r = nil); [now apply sim_ret|]. intros [t2 st2] r' [<- ST]. cbn [snd] in ST. subst st2.
  assert (PF : pair_of i i') by now left. assert (PD : pair_of j j') by now right.
  apply sim_eq; [apply c_survey_flux|intros [fobs sigma]].
  apply sim_eq; [now apply c_upd_sel|intros _]. apply sim_eq; [now apply c_on_sel|intros _].
  apply sim_eq; [now apply sim_ret|intros [p2 auxsel]]. apply sim_eq; [apply sim_lift|intros s1].
  apply sim_eq; [now apply c_get_sel|intros sf]. apply sim_eq; [apply sim_lift|intros s2]. apply sim_eq; [now apply sim_ret|].
  intros s3. apply sim_eq; [apply sim_lift|intros nsel]. apply sim_eq; [now apply c_on_sel|intros _]. apply sim_eq; [now apply c_get_sel|intros sd].
  apply sim_eq; [apply sim_lift|intros mask]. apply sim_eq; [apply sim_lift|intros dmask]. apply sim_eq; [apply sim_lift|intros detected].
  apply sim_eq; [apply sim_lift|intros known]. apply sim_eq; [destruct (Nat.ltb 0 nsel); [destruct known; [apply sim_raise|]|]; now apply sim_ret|intros _].
  apply sim_eq; [apply c_in_sp|intros rm]. eapply sim_bind; [apply c_graph|]. intros g g' _. eapply sim_bind; [apply sim_get|]. intros z z' H.
  rewrite <- (c_to_dict rl z z' H), <- (cy_sp _ _ _ _ _ _ H), <- (cy_spm _ _ _ _ _ _ H), <- (cy_lum _ _ _ _ _ _ H), <- (cy_lumm _ _ _ _ _ _ H), <- (cy_seed _ _ _ _ _ _ H),
    <- (cy_name _ _ _ _ _ _ H), <- (cy_nm _ _ _ _ _ _ H), <- (cy_spaces _ _ _ _ _ _ H).
  apply sim_eq; [apply sim_lift|intros th]. apply sim_eq; [apply sim_lift|intros ph]. apply sim_eq; [apply sim_lift|intros conf].
  apply sim_eq; [apply sim_lift|intros aux]. apply sim_pop. apply pop_new_graph. reflexivity.
Qed.
End Bare.

(** A synth after [clean], and a new one built from its distributions with the
    objects [w] in existence. *)
Theorem cleaned_as_new prog fuel rl rl' reset sg l10 ns nrm y u y' w :
  clean rl' reset y = (Ok u, y') -> y_spaces y = nil -> y_nmodel y = 500 -> y_name y = synth_name (y_sp y) (y_lum y) ->
  let z := synth_new w (y_sp y) (y_spm y) (y_lum y) (y_lumm y) (y_seed y) in
  rmap (@graph_off E) (fst (draw_survey prog fuel rl sg l10 ns nrm y')) = rmap (@graph_off E) (fst (draw_survey prog fuel rl sg l10 ns nrm z)).
Proof.
  intros H SP NM NA z. destruct (clean_bare _ _ _ _ _ H) as (B & (K1 & K2 & K3 & K4 & K5 & K6 & K7 & K8 & K9) & _).
  assert (NEY : y_flux y' <> y_dsel y'). { intros Q. assert (X := ba_flux B). rewrite Q, (ba_dist B) in X. discriminate. }
  assert (NEZ : y_flux z <> y_dsel z) by (cbn; lia).
  assert (C : cy (y_flux y') (y_dsel y') (y_flux z) (y_dsel z) (with_w y' (w_set_gens (w_g (y_w z), w_n (y_w y')) (y_w y'))) z).
  { split; cbn [with_w y_w y_sp y_spm y_lum y_lumm y_seed y_name y_nmodel y_spaces y_aux y_der y_flux y_fluxset y_dsel y_dset y_ssel w_g w_sels w_set_gens fst snd z synth_new w_set_sels]; try congruence; auto.
    - split; [apply B|easy].
    - split; [apply B|easy].
    - split; [apply B|easy].
    - split; [apply B|easy].
    - split; [apply B|easy].
    - rewrite (ba_flux B). rewrite nth_error_app2 by lia. now replace (S (length (w_sels w)) - length (w_sels w)) with 1 by lia.
    - rewrite (ba_dist B). rewrite nth_error_app2 by lia. now rewrite Nat.sub_diag. }
  assert (X := bare_survey _ _ _ _ NEY NEZ prog fuel rl sg l10 ns nrm y' z C).
  destruct (draw_survey prog fuel rl sg l10 ns nrm y') as [[p|e] t], (draw_survey prog fuel rl sg l10 ns nrm z) as [[p'|e'] t']; try easy; cbn; [now rewrite X|now subst].
Qed.
End P.
