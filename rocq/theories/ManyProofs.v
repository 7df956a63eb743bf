(** Several populations in one file. *)
From Verif Require Import Base BaseFacts Env Tree PopModel HdfModel HdfSpec HdfProofs HdfPop ManySpec.
Open Scope string_scope.
Open Scope list_scope.

Lemma apart_sym a b : apart a b -> apart b a.
Proof. intros [H K]. now split. Qed.
Lemma apart_tl c a b : apart (c :: a) (c :: b) -> apart a b.
Proof. intros [H K]. split; intros r ->; [now apply (H r)|now apply (K r)]. Qed.
Section M.
Context (V : Type).
Notation h5 := (h5 V).
Implicit Types f g : dict h5.

Definition only (k : string) (h : dict h5 -> res (dict h5)) : Prop := forall l l' x, h l = Ok l' -> x <> k -> dget l' x = dget l x.
Lemma only_addl k n : only k (addl k n).
Proof. intros l l' x H N. unfold addl in H. destruct (dget l k) eqn:D; [discriminate|]. injection H as <-. rewrite dget_hins by assumption. destruct (String.eqb_spec x k); [contradiction|reflexivity]. Qed.
Lemma only_dset k n : only k (fun l => Ok (dset l k n)).
Proof. intros l l' x H N. injection H as <-. now apply dget_dset_neq. Qed.

Lemma lookup_empty r : r <> nil -> lookup r (nil : dict h5) = Err KeyError.
Proof. destruct r as [|x [|y r]]; intros H; [contradiction|reflexivity|reflexivity]. Qed.
Lemma lookup_hd (x : string) r f f' : dget f' x = dget f x -> lookup (x :: r) f' = lookup (x :: r) f.
Proof. intros H. destruct r; cbn; now rewrite H. Qed.
Lemma lookup_in c a r g f : r <> nil -> dget f c = Some (HGroup a g) -> lookup (c :: r) f = lookup r g.
Proof. intros N H. destruct r; [contradiction|]. cbn [lookup]. now rewrite H. Qed.

Lemma upd_other q k h f f' p : only k h -> h5_upd q h f = Ok f' -> apart p (q ++ [k]) -> lookup p f' = lookup p f.
Proof.
  intros O. revert f f' p. induction q as [|c q IH]; intros f f' p H A.
  - cbn in H, A. destruct p as [|x r]; [reflexivity|]. apply lookup_hd. apply (O _ _ _ H). intros ->. destruct A as [_ A]. now apply (A r).
  - cbn in H. cbn in A. destruct p as [|x r]; [reflexivity|].
    destruct (String.eqb_spec x c) as [->|N].
    + assert (NE : r <> nil). { intros ->. destruct A as [A _]. now apply (A (q ++ [k])). }
      assert (A' := apart_tl _ _ _ A).
      destruct (dget f c) as [[|y g0]|] eqn:D; [discriminate| |];
        (match type of H with rbind ?m _ = _ => destruct m as [g1|] eqn:Q end; [|discriminate]); injection H as <-.
      * rewrite (lookup_in c y r g1) by (assumption || apply dget_dset_eq). rewrite (lookup_in c y r g0) by assumption. now apply (IH _ _ _ Q).
      * rewrite (lookup_in c nil r g1) by (assumption || now apply dget_hins_eq). rewrite (IH _ _ _ Q A'), (lookup_empty r NE).
        destruct r; [contradiction|]. cbn [lookup]. now rewrite D.
    + apply lookup_hd. destruct (dget f c) as [[|y g0]|] eqn:D; [discriminate| |];
        (match type of H with rbind ?m _ = _ => destruct m as [g1|] eqn:Q end; [|discriminate]); injection H as <-.
      * now apply dget_dset_neq.
      * rewrite dget_hins by assumption. destruct (String.eqb_spec x c); [contradiction|reflexivity].
Qed.
Lemma vacant_hd (x : string) r f f' : dget f' x = dget f x -> vacant (x :: r) f -> vacant (x :: r) f'.
Proof. intros H. cbn. now rewrite H. Qed.
Lemma upd_vacant q k h f f' p : only k h -> h5_upd q h f = Ok f' -> apart p (q ++ [k]) -> vacant p f -> vacant p f'.
Proof.
  intros O. revert f f' p. induction q as [|c q IH]; intros f f' p H A VA.
  - cbn in H, A. destruct p as [|x r]; [exact VA|]. eapply vacant_hd; [|exact VA]. apply (O _ _ _ H). intros ->. destruct A as [_ A]. now apply (A r).
  - cbn in H. cbn in A. destruct p as [|x r]; [exact VA|].
    destruct (String.eqb_spec x c) as [->|N].
    + assert (NE : r <> nil). { intros ->. destruct A as [A _]. now apply (A (q ++ [k])). }
      assert (A' := apart_tl _ _ _ A). cbn in VA |- *.
      destruct (dget f c) as [[|y g0]|] eqn:D; [discriminate| |];
        (match type of H with rbind ?m _ = _ => destruct m as [g1|] eqn:Q end; [|discriminate]); injection H as <-.
      * rewrite dget_dset_eq. now apply (IH _ _ _ Q).
      * rewrite dget_hins_eq by assumption. apply (IH _ _ _ Q A'). destruct r; [contradiction|exact I].
    + eapply vacant_hd; [|exact VA]. destruct (dget f c) as [[|y g0]|] eqn:D; [discriminate| |];
        (match type of H with rbind ?m _ = _ => destruct m as [g1|] eqn:Q end; [|discriminate]); injection H as <-.
      * now apply dget_dset_neq.
      * rewrite dget_hins by assumption. destruct (String.eqb_spec x c); [contradiction|reflexivity].
Qed.
End M.

Section P.
Context (E : env) (utf8 : string -> bool).
Notation V := (Env.V E).
Implicit Types f : dict (h5 V).

(** [addto] works at its own path only, whether it succeeds or not. *)
Lemma addto_path (p : population E) name f r f' : addto p name f = (r, f') ->
  f' = f \/ exists q k f1, comps name = q ++ [k] /\ h5_upd q (addl k (HGroup nil nil)) f = Ok f1 /\
     (f' = f1 \/ exists n, h5_upd q (fun l => Ok (dset l k n)) f1 = Ok f').
Proof.
  unfold addto, hlink. intros H. destruct (has_nul name); [injection H as _ <-; now left|].
  destruct (rev (comps name)) as [|k pre] eqn:C; [injection H as _ <-; now left|].
  destruct (h5_upd (rev pre) (addl k (HGroup nil nil)) f) as [f1|e] eqn:U; [|injection H as _ <-; now left].
  right. exists (rev pre), k, f1. split; [rewrite <- (rev_involutive (comps name)), C; reflexivity|]. split; [exact U|].
  destruct (write_pop p (nil, nil)) as [r0 g]. match type of H with match ?m with _ => _ end = _ => destruct m as [f2|] eqn:U2 end; injection H as _ <-; [right; eauto|now left].
Qed.
Lemma addto_other (p : population E) name f r f' path : addto p name f = (r, f') -> apart path (comps name) -> lookup path f' = lookup path f /\ (vacant path f -> vacant path f').
Proof.
  intros H A. destruct (addto_path _ _ _ _ _ H) as [->|(q & k & f1 & C & U & X)]; [split; auto|]. rewrite C in A.
  assert (L := upd_other _ _ _ _ _ _ path (only_addl _ _ _) U A). assert (W := upd_vacant _ _ _ _ _ _ path (only_addl _ _ _) U A).
  destruct X as [->|[n X]]; [split; assumption|].
  rewrite (upd_other _ _ _ _ _ _ path (only_dset _ _ _) X A). split; [exact L|]. intros Y. apply (upd_vacant _ _ _ _ _ _ path (only_dset _ _ _) X A). auto.
Qed.
Lemma from_other (p : population E) name f r f' n : addto p name f = (r, f') -> apart (comps n) (comps name) -> from_group E utf8 n f' = from_group E utf8 n f.
Proof. intros H A. unfold from_group. now rewrite (proj1 (addto_other _ _ _ _ _ _ H A)). Qed.

Lemma add_all_ok (ps : list (string * population E)) : forall f, room_for ps f ->
  (forall name p, In (name, p) ps -> exists g, writeto p = (Ok tt, g)) ->
  exists f', add_all ps f = (Ok tt, f') /\ (forall name p g, In (name, p) ps -> writeto p = (Ok tt, g) -> from_group E utf8 name f' = load_pop utf8 g) /\
    (forall n, (forall name p, In (name, p) ps -> apart (comps n) (comps name)) -> from_group E utf8 n f' = from_group E utf8 n f).
Proof.
  induction ps as [|[name p] ps IH]; intros f [RN RA] W.
  - exists f. split; [reflexivity|]. split; [intros ? ? ? []|reflexivity].
  - destruct (RN name p (or_introl eq_refl)) as [N VA]. destruct (W name p (or_introl eq_refl)) as [g WR].
    destruct (addto_ok E utf8 p g name f WR N VA) as (f1 & AD & FG & _). inversion RA as [|? ? FA RA']; subst.
    rewrite Forall_forall in FA.
    destruct (IH f1) as (f' & AA & RD & OT).
    + split; [|exact RA']. intros n q I. destruct (RN n q (or_intror I)) as [N' VA']. split; [exact N'|].
      apply (proj2 (addto_other _ _ _ _ _ (comps n) AD (apart_sym _ _ (FA (n, q) I)))). exact VA'.
    + intros n q I. apply (W n q). now right.
    + exists f'. cbn [add_all]. rewrite AD. split; [exact AA|]. split.
      * intros n q g' [I|I] WR'; [|now apply (RD _ q)]. injection I as <- <-. rewrite WR in WR'. injection WR' as <-.
        rewrite <- FG. apply OT. intros n q I. exact (FA (n, q) I).
      * intros n A. rewrite OT by (intros n' q I; apply (A n' q); now right). apply (from_other _ _ _ _ _ _ AD). apply (A name p). now left.
Qed.

(** A failed [addto] leaves a group behind. *)
Lemma upd_some q h f f1 k : (forall l l', h l = Ok l' -> exists n, dget l' k = Some n) -> h5_upd q h f = Ok f1 -> exists n, lookup (q ++ [k]) f1 = Ok n.
Proof.
  intros O. revert f f1. induction q as [|c q IH]; intros f f1 H; cbn [app].
  - cbn in H. destruct (O _ _ H) as [n D]. exists n. cbn. now rewrite D.
  - cbn in H. destruct (dget f c) as [[|y g0]|] eqn:D; [discriminate| |];
      (match type of H with rbind ?m _ = _ => destruct m as [g1|] eqn:Q end; [|discriminate]); injection H as <-; destruct (IH _ _ Q) as [n L]; exists n.
    + rewrite (lookup_in _ c y _ g1); [exact L|now destruct q|apply dget_dset_eq].
    + rewrite (lookup_in _ c nil _ g1); [exact L|now destruct q|now apply dget_hins_eq].
Qed.
Lemma failed_add (p q : population E) name f e f' : no_nul name -> vacant (comps name) f -> addto p name f = (Err e, f') ->
  exists f'', addto q name f' = (Err ValueError, f'').
Proof.
  intros N VA H. destruct (comps_last _ _ VA) as (c & k & C). apply (addto_taken E q name c k f' C N).
  assert (VA' := VA). rewrite C in VA'. destruct (vacant_add c k (HGroup nil nil) f VA') as (f1 & U1).
  destruct (addto_path _ _ _ _ _ H) as [->|(q' & k' & f2 & C' & U & X)].
  - exfalso. apply nul_iff in N. unfold addto in H. rewrite (hlink_eq _ _ _ _ _ C N), U1 in H. destruct (write_pop p (nil, nil)) as [r g].
    rewrite C, rev_app_distr in H. cbn [rev app] in H. rewrite rev_involutive in H.
    destruct (vacant_add c k (HGroup (fst g) (snd g)) f VA') as (f2 & U2). rewrite (upd_replace E _ _ _ _ _ _ _ U1 U2) in H.
    injection H as _ H. subst f2. destruct (upd_some c (addl k (HGroup (fst g) (snd g))) f f k) as [n L]; [|exact U2|].
    + intros l l' Q. unfold addl in Q. destruct (dget l k) eqn:D; [discriminate|]. injection Q as <-. eexists. now apply dget_hins_eq.
    + clear - L VA'. revert f L VA'. induction c as [|x c IH]; intros f L VA.
      * cbn in *. destruct (dget f k); [destruct h; contradiction|discriminate].
      * cbn [app vacant] in VA. destruct (dget f x) as [[|y g0]|] eqn:D; [contradiction| |].
        -- cbn [app] in L. rewrite (lookup_in _ x y _ g0) in L; [|now destruct c|exact D]. now apply (IH g0).
        -- cbn [app] in L. destruct (c ++ [k]) eqn:Z; [now destruct c|]. cbn [lookup] in L. rewrite D in L. discriminate.
  - rewrite C in C'. apply app_inj_tail in C' as [<- <-]. destruct X as [->|[n X]].
    + apply (upd_some c _ _ _ k) in U; [exact U|]. intros l l' Q. unfold addl in Q. destruct (dget l k) eqn:D; [discriminate|]. injection Q as <-. eexists. now apply dget_hins_eq.
    + apply (upd_some c _ _ _ k) in X; [exact X|]. intros l l' Q. injection Q as <-. eexists. apply dget_dset_eq.
Qed.
Lemma failed_write (p : population E) name f : fst (writeto p) <> Ok tt -> exists e f', addto p name f = (Err e, f').
Proof.
  intros H. unfold addto. destruct (hlink name (HGroup nil nil) f) as [[u|e] f1]; [|eauto]. unfold writeto in H.
  destruct (write_pop p (nil, nil)) as [r g]. destruct (rev (comps name)) as [|k pre]; [eauto|]. match goal with |- context [match ?m with _ => _ end] => destruct m as [f2|e] end; [|eauto].
  destruct r as [[]|e]; [now contradiction H|eauto].
Qed.
End P.
