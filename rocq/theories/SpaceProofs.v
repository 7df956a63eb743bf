(** Model spaces (C74). *)
From Coq Require Import Reals ZArith List String Lra Lia.
From Verif Require Import Base BaseFacts Env DistModel AuxModel PopModel PopSpec SynthModel SynthInv SynthFrame LibModel LibGeo RealModel SpaceSpec.
From Verif Require SurveyProofs PopProofs.
Import ListNotations.
Open Scope R_scope.
Open Scope list_scope.

Lemma linspace_length E a b n : List.length (@linspace E a b n) = n.
Proof. destruct n as [|[|n]]; try reflexivity. cbn [linspace]. rewrite app_length, map_length, seq_length. cbn. lia. Qed.
Section S.
Variable m : machine.
Notation E := (real_env m).
Lemma linspace_nth (a b : R) n i (x : R) : nth_error (@linspace E a b n : list R) i = Some x -> x = a + INR i * ((b - a) / INR (n - 1)).
Proof.
  intros N. destruct n as [|[|n]].
  - destruct i; discriminate N.
  - destruct i as [|[|i]]; cbn in N; try discriminate N. injection N as <-. cbn. lra.
  - change (S (S n) - 1)%nat with (S n). cbn [linspace] in N. destruct (Nat.ltb i (S n)) eqn:L.
    + apply PeanoNat.Nat.ltb_lt in L. rewrite nth_error_app1 in N by (rewrite map_length, seq_length; exact L).
      rewrite nth_error_map in N. rewrite (nth_error_nth' _ 0%nat) in N by (rewrite seq_length; exact L). rewrite seq_nth in N by exact L. injection N as <-.
      reflexivity.
    + apply PeanoNat.Nat.ltb_ge in L. rewrite nth_error_app2 in N by (rewrite map_length, seq_length; exact L). rewrite map_length, seq_length in N.
      destruct (i - S n)%nat as [|k] eqn:K; [|destruct k; discriminate N]. injection N as <-. replace i with (S n) by lia.
      assert (P := lt_0_INR (S n) ltac:(lia)). change (@eq R b (a + INR (S n) * ((b - a) / INR (S n)))). field. lra.
Qed.
Lemma linear_space (a b : R) n : points_from_to false a b n (@linspace E a b n).
Proof.
  split; [exact (linspace_length E a b n)|]. split; [|split].
  - intros x N. apply linspace_nth in N. rewrite N. cbn. lra.
  - intros x L N. apply linspace_nth in N. rewrite N. assert (P := lt_0_INR (n - 1) ltac:(lia)). field. lra.
  - exists ((b - a) / INR (n - 1)). intros i x x' N N'. apply linspace_nth in N, N'. rewrite N, N', S_INR. ring.
Qed.
Lemma log_space (a b : R) n : 0 < a -> 0 < b -> points_from_to true a b n (map (vexp10 E) (@linspace E (log10 a) (log10 b) n)).
Proof.
  intros A B. split; [rewrite map_length; exact (linspace_length E (log10 a) (log10 b) n)|]. split; [|split].
  - intros x N. rewrite nth_error_map in N. destruct (nth_error _ _) as [z|] eqn:Z; [|discriminate N]. injection N as <-. apply linspace_nth in Z. rewrite Z.
    cbn [vexp10 real_env]. apply eq_trans with (Rpower 10 (log10 a)); [apply (f_equal (Rpower 10)); cbn [INR]; lra|exact (p10_log10 a A)].
  - intros x L N. rewrite nth_error_map in N. destruct (nth_error _ _) as [z|] eqn:Z; [|discriminate N]. injection N as <-. apply linspace_nth in Z. rewrite Z.
    cbn [vexp10 real_env]. apply eq_trans with (Rpower 10 (log10 b)); [apply (f_equal (Rpower 10))|exact (p10_log10 b B)]. assert (P := lt_0_INR (n - 1) ltac:(lia)). field. lra.
  - exists (Rpower 10 ((log10 b - log10 a) / INR (n - 1))). intros i x x' N N'. rewrite nth_error_map in N, N'.
    destruct (nth_error _ i) as [z|] eqn:Z; [|discriminate N]. injection N as <-. destruct (nth_error _ (S i)) as [z'|] eqn:Z'; [|discriminate N']. injection N' as <-.
    apply linspace_nth in Z, Z'. rewrite Z, Z'. cbn [vexp10 real_env]. rewrite <- Rpower_plus. apply (f_equal (Rpower 10)). rewrite S_INR. ring.
Qed.

(** ** After the requests *)
Definition space_for (r : request) n : list R := let '(_, a, b, lg) := r in
  if lg then map (vexp10 E) (@linspace E (log10 a) (log10 b) n) else @linspace E a b n.
Lemma asked rs : forall (y : synth E), exists y', ask rs y = (Ok tt, y') /\ y_nmodel y' = y_nmodel y /\
  forall nm, dget (y_spaces y') nm = match last_request rs nm with Some r => Some (space_for r (y_nmodel y)) | None => dget (y_spaces y) nm end.
Proof.
  induction rs as [|[[[nm0 a] b] lg] rs IH]; intros y.
  - exists y. split; [reflexivity|]. split; reflexivity.
  - unfold ask. cbn [iterM]. destruct (IH (with_spaces y (dset (y_spaces y) nm0 (space_for (nm0, a, b, lg) (y_nmodel y))))) as (y' & H & N & G).
    exists y'. split; [exact H|]. split; [exact N|]. intros nm. rewrite (G nm). unfold last_request. cbn [rev].
    assert (FA : forall (l1 l2 : list request) f, find f (l1 ++ l2) = match find f l1 with Some x => Some x | None => find f l2 end).
    { clear. intros l1 l2 f. induction l1 as [|x l1 IH]; cbn; [reflexivity|]. destruct (f x); [reflexivity|exact IH]. }
    rewrite FA. destruct (find (named_as nm) (rev rs)); [reflexivity|]. cbn [find named_as y_spaces with_spaces].
    destruct (String.eqb_spec nm0 nm) as [->|NE]; [apply dget_dset_eq|apply dget_dset_neq; congruence].
Qed.
Lemma survey_spaces (E0 : env) prog fuel rl fs l10 ns norm (y : synth E0) p y' :
  draw_survey prog fuel rl fs l10 ns norm y = (Ok p, y') -> pa_spaces (p_args p) = Some (y_spaces y) /\ pa_nmodel (p_args p) = y_nmodel y.
Proof.
  intros H. destruct (survey_steps _ _ _ _ _ _ _ _ _ _ _ H) as (t & S). assert (P := sp_pop _ _ _ _ _ _ _ _ _ _ _ _ S). apply SurveyProofs.pop_new_built in P.
  rewrite (SurveyProofs.bu_args _ _ _ P). split; reflexivity.
Qed.
Theorem model_spaces rs (y y1 : synth E) prog fuel rl fs l10 ns norm p y2 : ask rs y = (Ok tt, y1) ->
  draw_survey prog fuel rl fs l10 ns norm y1 = (Ok p, y2) -> exists sp, pa_spaces (p_args p) = Some sp /\
  (forall nm a b lg, last_request rs nm = Some (nm, a, b, lg) -> (lg = true -> 0 < a /\ 0 < b) ->
     exists l, dget sp nm = Some l /\ points_from_to lg a b (y_nmodel y) l) /\
  forall nm, last_request rs nm = None -> dget sp nm = dget (y_spaces y) nm.
Proof.
  intros A H. destruct (asked rs y) as (y1' & A' & N & G). rewrite A in A'. injection A' as <-.
  destruct (survey_spaces _ _ _ _ _ _ _ _ _ _ _ H) as [Q _]. exists (y_spaces y1). split; [exact Q|]. split.
  - intros nm a b lg L P. exists (space_for (nm, a, b, lg) (y_nmodel y)). split; [rewrite (G nm), L; reflexivity|]. destruct lg; [apply log_space; now apply P|apply linear_space].
  - intros nm L. now rewrite (G nm), L.
Qed.
Lemma last_name rs nm r : last_request rs nm = Some r -> let '(k, _, _, _) := r in k = nm.
Proof. intros H. apply find_some in H. destruct H as [_ H]. destruct r as [[[k a] b] lg]. now apply String.eqb_eq in H. Qed.
(** What Stan gets. *)
Theorem stan_spaces rs (y y1 : synth E) prog fuel rl fs l10 ns norm p y2 d : ask rs y = (Ok tt, y1) ->
  draw_survey prog fuel rl fs l10 ns norm y1 = (Ok p, y2) -> stan_data p = Ok d ->
  (forall sp ax, pa_spaces (p_args p) = Some sp -> pa_aux (p_args p) = Some ax -> stan_keys_apart E sp ax) ->
  dget d "N_model" = Some (SNat E (y_nmodel y)) /\
  forall nm a b lg, last_request rs nm = Some (nm, a, b, lg) -> (lg = true -> 0 < a /\ 0 < b) ->
     exists l, entry_is d nm l /\ points_from_to lg a b (y_nmodel y) l.
Proof.
  intros A H SD AP. destruct (model_spaces _ _ _ _ _ _ _ _ _ _ _ _ A H) as (sp & Q & G & _).
  destruct (asked rs y) as (y1' & A' & N & _). rewrite A in A'. injection A' as <-. destruct (survey_spaces _ _ _ _ _ _ _ _ _ _ _ H) as [_ NM].
  destruct (survey_steps _ _ _ _ _ _ _ _ _ _ _ H) as (t & S). assert (P := sp_pop _ _ _ _ _ _ _ _ _ _ _ _ S).
  assert (B := P). apply SurveyProofs.pop_new_built in B. assert (BA := SurveyProofs.bu_args _ _ _ B). rewrite <- BA in P.
  assert (QA : pa_aux (p_args p) = Some (tr_aux E t)) by now rewrite BA.
  assert (C := PopProofs.stan_contents _ _ _ _ _ _ P SD Q QA (AP _ _ Q QA)). cbv zeta in C.
  destruct C as (_ & _ & _ & _ & _ & _ & _ & _ & _ & _ & _ & _ & _ & _ & _ & _ & CN & CS & _).
  split; [rewrite CN, NM, N; reflexivity|]. intros nm a b lg L PP. destruct (G nm a b lg L PP) as (l & DG & PF). exists l. split; [|exact PF]. apply CS. now apply dget_In.
Qed.
End S.
