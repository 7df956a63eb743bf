(** Concrete cases for the selector theorems. *)
From Verif Require Import Base Env Toy ParamModel SelModel SelSpec SelProofs.
Open Scope string_scope.

Definition mk (k : selkind toy) (pars : dict (option Z)) : selector toy :=
  with_par (new_selector k "T" "t" true false false false) (PObj pars None).
Definition ex_lower : selector toy :=
  set_observed_value (mk (KLower toy) [("boundary", Some 3%Z)]) [1; 3; 5]%Z.
Definition ex_box : selector toy :=
  set_observed_value (mk (KBox toy) [("vmin", Some 2%Z); ("vmax", Some 3%Z)]) [1; 2; 3; 4]%Z.
Definition ex_soft : selector toy :=
  set_observed_value (mk (KSoft toy) [("strength", Some 1%Z); ("boundary", Some 4%Z)]) [4; 5; 5]%Z.
Definition ex_bern : selector toy := mk (KBernoulli toy) [("probability", Some 1%Z)].
Definition ex_pos : spvals toy := @SpVals toy [10; 20; 30]%Z [0; 90; 200]%Z [1; 2; 3]%Z.
Definition ex_gal : selector toy :=
  with_data (mk (KGalactic toy) [("b_limit", Some 20%Z)]) (@SelData toy None None None None (Some ex_pos)).
Definition ex_dist : selector toy :=
  with_data (mk (KDistance toy) [("min_distance", Some 20%Z); ("max_distance", Some 30%Z)])
            (@SelData toy None None None None (Some ex_pos)).

(** Run [draw] and look at outcome, mask and generator. *)
Lemma draws_eval p n (s : selector toy) g m g' :
  (let x := sel_draw p n (s, g) in (fst x, s_mask (fst (snd x)), snd (snd x))) = (Ok tt, Some m, g') ->
  draws p n s g m g'.
Proof.
  unfold draws. destruct (sel_draw p n (s, g)) as [r [s1 g1]]. cbn. intros H.
  injection H as -> H2 ->. eauto.
Qed.
Ltac run := apply draws_eval; vm_compute; reflexivity.

Ltac ispar := eexists; split; reflexivity.

Example lower_hyps : s_kind ex_lower = KLower toy /\ selects_on ex_lower (Some [1; 3; 5]%Z) /\
  par_is ex_lower "boundary" 3%Z.
Proof. repeat split; [right; right; left; auto|ispar]. Qed.
Example lower_result : draws false 3 ex_lower 0%Z [false; true; true] 0%Z.
Proof. run. Qed.
Example box_result : draws false 4 ex_box 0%Z [false; true; true; false] 0%Z.
Proof. run. Qed.
Example soft_result : draws true 3 ex_soft 4%Z [false; false; true] 7%Z.
Proof. run. Qed.
Example bern_result : draws true 4 ex_bern 0%Z [true; false; true; false] 4%Z /\
                      draws false 4 ex_bern 0%Z [true; false; true; false] 4%Z.
Proof. split; run. Qed.
Example gal_result : draws false 3 ex_gal 0%Z [true; false; true] 0%Z.
Proof. run. Qed.
Example dist_result : draws false 3 ex_dist 0%Z [false; true; true] 0%Z.
Proof. run. Qed.
Example toy_le_trans : le_trans toy.
Proof. intros a b c. cbn. lia. Qed.

(** A luminosity flag wins over an observed-value flag. *)
Example flag_priority :
  let s := set_luminosity (set_observed_value
     (with_par (new_selector (KUpper toy) "T" "t" true true true false) (PObj [("boundary", Some 3%Z)] None))
     [1; 1]%Z) [2; 9]%Z in
  draws false 2 s 0%Z [true; false] 0%Z.
Proof. run. Qed.

Example add_result :
  rmap (@s_mask toy) (sel_add (with_mask (unity toy "a") (Some [true; true; false]))
                       (with_mask (unity toy "b") (Some [true; false; false]))) =
  Ok (Some [true; false; false]).
Proof. reflexivity. Qed.

Example select_history :
  let st := snd (sel_select false 3 (ex_lower, 0%Z)) in
  s_mask (fst (selrun [OSetVal toy [9; 9; 0]%Z; OSelect toy false 7] st)) = Some [false; true; true] /\
  s_mask (fst (selrun [OSetVal toy [9; 9; 0]%Z; OReset toy; OSelect toy false 7] st)) = Some [true; true; false].
Proof. split; reflexivity. Qed.

Example index_result :
  selection_index (with_mask ex_lower (Some [false; true; true; false])) = Ok [1; 2] /\
  non_selection_index (with_mask ex_lower (Some [false; true; true; false])) = Ok [0; 3].
Proof. split; reflexivity. Qed.

(** A latitude limit of 91 is refused. *)
Example limit_91_refused : bounded (E:=toy) (KGalactic toy) "b_limit" 0%Z (Some 90%Z) /\
  exists h, Some 90%Z = Some h /\ vle toy 91%Z h = false.
Proof. split; [right; right; left; repeat split|exists 90%Z; split; reflexivity]. Qed.
