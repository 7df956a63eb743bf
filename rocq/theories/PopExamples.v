(** Concrete populations: cases that meet the hypotheses of the theorems and
    counterexamples. *)
From Verif Require SurveyProofs.
From Verif Require Import Base BaseFacts Env AuxModel Tree SimVarModel SimVarSpec PopModel SynthModel SynthSpec PopSpec Toy SynthExamples.
Open Scope string_scope.
Open Scope list_scope.
Open Scope nat_scope.

Lemma run1 {A} (x : res A) (B : Type) (f : A -> B) b : match x with Ok p => Some (f p) | Err _ => None end = Some b -> exists p, x = Ok p /\ f p = b.
Proof. destruct x; [|discriminate]. intros H. injection H as H. eauto. Qed.
Lemma run2 {A A2} (x : res A) (k : A -> res A2) (B : Type) (f : A -> A2 -> B) b :
  match x with Ok p => match k p with Ok q => Some (f p q) | Err _ => None end | Err _ => None end = Some b ->
  exists p q, x = Ok p /\ k p = Ok q /\ f p q = b.
Proof. destruct x as [p|]; [|discriminate]. destruct (k p) as [q|] eqn:Q; [|discriminate]. intros H. injection H as H. eauto. Qed.

(** Four objects, the first, third and fourth detected. *)
Definition sel4 := [true; false; true; true].
Definition args (sel : list bool) (dist known : list Z) (ki ui : list nat) (spaces : dict (list Z)) (aux : dict (list Z * list Z)) : popargs toy :=
  PopArgs toy [10; 20; 30; 40]%Z dist known ki ui [1; 2; 3; 4]%Z [2; 3; 4; 5]%Z sel 1%Z 50%Z 2 None []
    (Some spaces) 1234%Z (PyStr "demo") "form" None (Some aux) [] g_empty [0; 0; 1; 1]%Z [1; 1; 0; 0]%Z None (Some [1; 1; 1; 1]%Z).
Definition demo (k : string) : popargs toy :=
  args sel4 [5; 6; 7; 8]%Z [5; 8]%Z [0; 2] [1] [("grid", [0; 1]%Z)] [(k, ([1; 2; 3; 4]%Z, [5; 6; 7; 8]%Z))].

Lemma demo_ok : consistent (demo "x") /\ free_names (demo "x").
Proof.
  split.
  - split; [|split].
    + unfold aligned. repeat (split; [reflexivity|]). split.
      * intros q H. injection H as <-. reflexivity.
      * intros x k t o H I; injection H as <-; destruct I as [I|[]]. injection I as <- <- <-. split; reflexivity.
    + reflexivity.
    + intros x k l H I; injection H as <-; destruct I as [I|[]]. injection I as <- <-. reflexivity.
  - intros x k v H I; injection H as <-; destruct I as [I|[]]. injection I as <- <-. intros J. apply SurveyProofs.mem_In in J. discriminate J.
Qed.

Lemma demo_new : exists p, pop_new (demo "x") = Ok p /\ p_nobj p = 4 /\ p_ndet p = 3 /\ p_nnon p = 1.
Proof.
  destruct (run1 (pop_new (demo "x")) _ (fun p => (p_nobj p, p_ndet p, p_nnon p)) (4, 3, 1)) as (p & H & Q); [vm_compute; reflexivity|].
  exists p. injection Q as Q1 Q2 Q3. auto.
Qed.
(** Each kind of inconsistency. *)
Lemma inconsistent_mask : ~ consistent (args [true; false; true] [5; 6; 7; 8]%Z [5]%Z [0] [1] [] []) /\
  free_names (args [true; false; true] [5; 6; 7; 8]%Z [5]%Z [0] [1] [] []).
Proof. split; [intros ((L & _) & _); discriminate L|]. intros x k v H I. injection H as <-. destruct I. Qed.
Lemma inconsistent_known : ~ consistent (args sel4 [5; 6; 7; 8]%Z [5]%Z [0] [1] [] []).
Proof. intros (_ & L & _). discriminate L. Qed.
Lemma inconsistent_space : ~ consistent (args sel4 [5; 6; 7; 8]%Z [5; 8]%Z [0; 2] [1] [("grid", [0; 1; 2]%Z)] []).
Proof. intros (_ & _ & L). specialize (L _ "grid" _ eq_refl (or_introl eq_refl)). discriminate L. Qed.

(** ** C39: the name of a quantity *)
Lemma bad_name : exists k, consistent (demo k) /\ pop_new (demo k) = Err AttributeError.
Proof.
  exists "theta". split; [|reflexivity]. destruct demo_ok as ((A & B & C) & _). split; [|split; [exact B|exact C]].
  destruct A as (A1 & A2 & A3 & A4 & A5 & A6 & A7 & A8). unfold aligned. repeat (split; [assumption|]).
  intros x k t o H I; injection H as <-; destruct I as [I|[]]. injection I as <- <- <-. split; reflexivity.
Qed.
(** A quantity with a property's name hides a wrong model space. *)
Lemma bad_name_first : exists a : popargs toy, ~ spaces_fit a /\ pop_new a = Err AttributeError.
Proof.
  exists (args sel4 [5; 6; 7; 8]%Z [5; 8]%Z [0; 2] [1] [("grid", [0; 1; 2]%Z)] [("graph", ([1; 2; 3; 4]%Z, [5; 6; 7; 8]%Z))]).
  split; [|reflexivity]. intros L. specialize (L _ "grid" _ eq_refl (or_introl eq_refl)). discriminate L.
Qed.

(** ** C40 *)
Definition keyb (sp : dict (list Z)) (ax : dict (list Z * list Z)) : list string :=
  stan_keys ++ map fst sp ++ map (fun kv => fst kv ++ "_obs")%string ax.
Lemma nodupb l : (fix go (l : list string) : bool := match l with [] => true | x :: r => negb (existsb (String.eqb x) r) && go r end) l = true -> NoDup l.
Proof.
  induction l as [|x l IH]; intros H; [constructor|]. apply andb_true_iff in H. destruct H as (H1 & H2). constructor; [|now apply IH].
  intros I. apply negb_true_iff in H1. assert (X : existsb (String.eqb x) l = true) by (apply existsb_exists; exists x; split; [easy|apply String.eqb_refl]). congruence.
Qed.
Lemma demo_apart : stan_keys_apart toy [("grid", [0; 1]%Z)] [("x", ([1; 2; 3; 4]%Z, [5; 6; 7; 8]%Z))].
Proof. apply nodupb. vm_compute. reflexivity. Qed.
Lemma demo_stan : exists p d, pop_new (demo "x") = Ok p /\ stan_data p = Ok d /\
  dget d "N" = Some (SNat toy 3) /\ dget d "z_idx" = Some (SIdx toy [1; 3]) /\ dget d "z_nidx" = Some (SIdx toy [2]) /\
  dget d "flux_obs" = Some (SArr toy [2; 4; 5]%Z) /\ dget d "x_obs" = Some (SArr toy [5; 7; 8]%Z).
Proof.
  destruct (run2 (pop_new (demo "x")) (stan_data (E := toy)) _ (fun _ d => (dget d "N", dget d "z_idx", dget d "z_nidx", dget d "flux_obs", dget d "x_obs"))
    (Some (SNat toy 3), Some (SIdx toy [1; 3]), Some (SIdx toy [2]), Some (SArr toy [2; 4; 5]%Z), Some (SArr toy [5; 7; 8]%Z))) as (p & d & H & D & Q); [reflexivity|].
  exists p, d. injection Q as Q1 Q2 Q3 Q4 Q5. repeat (split; [assumption|]). assumption.
Qed.
(** A survey whose Stan data meets the hypotheses. *)
Lemma survey_stan : exists p y', survey None (Some 4) false (unlucky 1) = (Ok p, y') /\ p_ndet p = 4 /\
  pa_spaces (p_args p) = Some [] /\ pa_aux (p_args p) = Some [] /\ stan_keys_apart toy [] [].
Proof.
  destruct (survey_run (survey None (Some 4) false (unlucky 1)) _ (fun p _ => (p_ndet p, pa_spaces (p_args p), pa_aux (p_args p))) (4, Some [], Some []))
    as (p & y' & H & Q); [vm_compute; reflexivity|].
  exists p, y'. split; [exact H|]. assert (Q1 := f_equal fst Q). assert (Q2 := f_equal snd Q). cbn [fst snd] in Q1, Q2.
  assert (Q3 := f_equal fst Q1). assert (Q4 := f_equal snd Q1). cbn [fst snd] in Q3, Q4. repeat (split; [assumption|]).
  apply nodupb. vm_compute. reflexivity.
Qed.
(** A quantity called "flux" replaces the fluxes. *)
Lemma stan_overwritten : exists p d, pop_new (demo "flux") = Ok p /\ stan_data p = Ok d /\
  dget d "flux_obs" = Some (SArr toy [5; 7; 8]%Z) /\ keep true (sv_obs (p_flux p)) (pa_sel (p_args p)) = [2; 4; 5]%Z.
Proof.
  destruct (run2 (pop_new (demo "flux")) (stan_data (E := toy)) _ (fun p d => (dget d "flux_obs", keep true (sv_obs (p_flux p)) (pa_sel (p_args p))))
    (Some (SArr toy [5; 7; 8]%Z), [2; 4; 5]%Z)) as (p & d & H & D & Q); [reflexivity|].
  exists p, d. injection Q as Q1 Q2. repeat (split; [assumption|]). assumption.
Qed.
(** A model space called "N" replaces the number of detections. *)
Definition named_n := args sel4 [5; 6; 7; 8]%Z [5; 8]%Z [0; 2] [1] [("N", [0; 1]%Z)] [].
Lemma stan_count_overwritten : exists p d, pop_new named_n = Ok p /\ stan_data p = Ok d /\ dget d "N" = Some (SArr toy [0; 1]%Z) /\ p_ndet p = 3.
Proof.
  destruct (run2 (pop_new named_n) (stan_data (E := toy)) _ (fun p d => (dget d "N", p_ndet p)) (Some (SArr toy [0; 1]%Z), 3)) as (p & d & H & D & Q); [reflexivity|].
  exists p, d. injection Q as Q1 Q2. repeat (split; [assumption|]). assumption.
Qed.
(** The constructor does not look at the index arrays. *)
Definition overlapping := args sel4 [5; 6; 7; 8]%Z [5; 8]%Z [0; 1] [1] [] [].
Lemma stan_overlap : exists p d, pop_new overlapping = Ok p /\ stan_data p = Ok d /\
  dget d "z_idx" = Some (SIdx toy [1; 2]) /\ dget d "z_nidx" = Some (SIdx toy [2]) /\ ~ splits_one_to 3 [1; 2] [2].
Proof.
  destruct (run2 (pop_new overlapping) (stan_data (E := toy)) _ (fun p d => (dget d "z_idx", dget d "z_nidx"))
    (Some (SIdx toy [1; 2]), Some (SIdx toy [2]))) as (p & d & H & D & Q); [reflexivity|].
  exists p, d. injection Q as Q1 Q2. repeat (split; [assumption|]).
  intros (_ & _ & X & _). apply (X 2); [right; now left|now left].
Qed.

(** ** C41 *)
Lemma demo_sub : exists p q, pop_new (demo "x") = Ok p /\ sub_population true p = Ok q /\ p_nobj q = 3 /\
  sv_obs (p_flux q) = [2; 4; 5]%Z /\ sv_lat (p_flux q) = [1; 3; 4]%Z.
Proof.
  destruct (run2 (pop_new (demo "x")) (sub_population (E := toy) true) _ (fun _ q => (p_nobj q, sv_obs (p_flux q), sv_lat (p_flux q)))
    (3, [2; 4; 5]%Z, [1; 3; 4]%Z)) as (p & q & H & D & Q); [reflexivity|].
  exists p, q. injection Q as Q1 Q2 Q3. repeat (split; [assumption|]). assumption.
Qed.
(** Both known distances are forgotten. *)
Lemma sub_forgets : exists p q, pop_new (demo "x") = Ok p /\ sub_population true p = Ok q /\
  distance_known p 3 /\ becomes true p 3 2 /\ ~ In 2 (pa_kidx (p_args q)).
Proof.
  destruct (run2 (pop_new (demo "x")) (sub_population (E := toy) true) _ (fun p q => (pa_kidx (p_args p), pa_sel (p_args p), pa_kidx (p_args q)))
    ([0; 2], sel4, [])) as (p & q & H & D & Q); [reflexivity|].
  exists p, q. injection Q as Q1 Q2 Q3. split; [assumption|]. split; [assumption|]. unfold distance_known, becomes. rewrite Q1, Q2, Q3.
  split; [exists 2; split; [right; now left|split; reflexivity]|]. split; [split; reflexivity|]. intros [].
Qed.
(** The third object becomes known because some object is at distance 2. *)
Definition coincident := args sel4 [2; 6; 7; 8]%Z [2]%Z [0] [1; 2] [] [].
Lemma sub_invents : exists p q, pop_new coincident = Ok p /\ sub_population true p = Ok q /\
  ~ distance_known p 2 /\ becomes true p 2 1 /\ In 1 (pa_kidx (p_args q)).
Proof.
  destruct (run2 (pop_new coincident) (sub_population (E := toy) true) _ (fun p q => (pa_kidx (p_args p), pa_sel (p_args p), pa_kidx (p_args q)))
    ([0], sel4, [1])) as (p & q & H & D & Q); [reflexivity|].
  exists p, q. injection Q as Q1 Q2 Q3. split; [assumption|]. split; [assumption|]. unfold distance_known, becomes. rewrite Q1, Q2, Q3. split.
  - intros (i & [<-|[]] & (_ & C)). discriminate C.
  - split; [split; reflexivity|]. now left.
Qed.

(** ** C43 *)
(** Attribute values: numbers or lists of names. *)
Definition value := (Z + list string)%type.
Definition value_names (v : value) : option (list string) := match v with inr l => Some l | inl _ => None end.
Definition start : attrs value := Attrs (Names []) [("_theta", inl 0%Z)].
Definition quants : list (string * value) := [("x", inl 1%Z); ("y", inl 2%Z)].
Lemma demo_attrs : exists o, finish value_names quants (inl 9%Z) start = (Ok tt, o) /\ at_prot o = Names ["x"; "y"].
Proof. eexists. split; reflexivity. Qed.
Definition assign_history : list (attr_op value) := [Assign "z" (inl 3%Z); Assign "y" (inl 7%Z); Delete "z"; Delete "y"; Assign "_auxiliary_quantities" (inl 0%Z)].
Lemma history_harmless : forall op, In op assign_history -> op_name op <> "_protected_names" /\ op <> Delete "x".
Proof. intros op I. repeat (destruct I as [<-|I]; [split; discriminate|]). destruct I. Qed.
(** Assigning the list of protected names lifts the protection. *)
Lemma unprotected : exists o o1 o2, finish value_names quants (inl 9%Z) start = (Ok tt, o) /\
  setattr value_names "_protected_names" (inr []) o = (Ok tt, o1) /\ setattr value_names "x" (inl 5%Z) o1 = (Ok tt, o2) /\
  dget (at_vals o) "x" = Some (inl 1%Z) /\ dget (at_vals o2) "x" = Some (inl 5%Z).
Proof. do 3 eexists. repeat split. Qed.
(** A quantity can be deleted. *)
Lemma deleted : exists o o1, finish value_names quants (inl 9%Z) start = (Ok tt, o) /\
  delattr "x" o = (Ok tt, o1) /\ dget (at_vals o) "x" = Some (inl 1%Z) /\ dget (at_vals o1) "x" = None.
Proof. do 2 eexists. repeat split. Qed.
