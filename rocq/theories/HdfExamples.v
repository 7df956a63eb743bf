(** Concrete dictionaries, graphs and populations in HDF5 files. *)
From Coq Require Import Ascii Permutation Sorted.
From Verif Require Import Base BaseFacts Env AuxModel Tree SimVarModel PopModel PopSpec HdfModel HdfSpec HdfProofs HdfPop Toy PopExamples.
Open Scope string_scope.
Open Scope nat_scope.

Lemma plain k : plainb k = true -> plain_name k.
Proof. apply plainb_ok. Qed.

(** A nested dictionary with every kind of value. *)
Definition nested : dict (tree Z) :=
  [("z", TNum 3%Z); ("flag", TBool true); ("names", TList [TStr "b"; TStr "a"; TStr "b"]);
   ("sub", TDict [("n", TInt 7); ("text", TStr "hello"); ("raw", TBytes "abc"); ("empty", TDict nil); ("arr", TArr [1; 2]%Z)])].
Lemma nested_storable : storable (TDict nested) /\ nested <> nil.
Proof.
  assert (NN : forall s, has_nul s = false -> no_nul s) by (intros s; apply nul_iff).
  split; [|discriminate]. unfold nested. cbn [storable].
  repeat match goal with
  | |- _ /\ _ => split
  | |- plain_name _ => apply plain; reflexivity
  | |- NoDup _ => apply HdfPop.nodupb_ok; reflexivity
  | |- True => exact I
  | |- no_nul _ => apply NN; reflexivity
  | |- fits64 _ => split; reflexivity || discriminate
  | |- _ <> _ => discriminate
  end.
Qed.
Lemma nested_run : let (r, f) := save "conf" nested [("other", HData (HNum 1%Z))] in
  r = Ok tt /\ load (fun _ => true) "conf" f = Ok (TDict
    [("flag", TNpb true); ("names", TDict [("a", TDict nil); ("b", TDict nil)]);
     ("sub", TDict [("arr", TArr [1; 2]%Z); ("empty", TDict nil); ("n", TInt 7); ("raw", TStr "abc"); ("text", TStr "hello")]);
     ("z", TNum 3%Z)]).
Proof. vm_compute. auto. Qed.
Lemma nested_vacant : vacant (comps "conf") [("other", HData (HNum 1%Z))] /\ vacant (comps "a/b") ([("a", HGroup nil nil)] : dict (h5 Z)).
Proof. vm_compute. auto. Qed.

(** Values of unsupported types. *)
Definition odd : dict (tree Z) := [("a", TNum 1%Z); ("b", TDict [("c", TNone)])].
Lemma odd_bad : clean_but_types (TDict odd) /\ unsupported (TDict odd).
Proof.
  split.
  - unfold odd. cbn.
    repeat match goal with
    | |- _ /\ _ => split
    | |- plain_name _ => apply plain; reflexivity
    | |- NoDup _ => apply HdfPop.nodupb_ok; reflexivity
    | |- True => exact I
    | |- True \/ _ => left; exact I
    | |- False \/ _ => right; constructor
    end.
  - apply us_dict with (k := "b") (t := TDict [("c", TNone)]); [right; now left|].
    apply us_dict with (k := "c") (t := TNone); [now left|constructor].
Qed.
(** The numpy bool that comes back cannot be saved again. *)
Lemma npb_refused : forall path key b (f : dict (h5 Z)), fst (save path [(key, TNpb b)] f) = Err ValueError.
Proof. reflexivity. Qed.
(** A dictionary under a key in use is merged into what is there. *)
Lemma merged : let (_, f) := save "p" [("a", TDict [("x", TNum 1%Z)])] nil in
  let (r, f') := save "p" [("a", TDict [("y", TNum 2%Z)])] f in
  r = Ok tt /\ load (fun _ => true) "p" f' = Ok (TDict [("a", TDict [("x", TNum 1%Z); ("y", TNum 2%Z)])]).
Proof. vm_compute. auto. Qed.

(** A graph with one edge. *)
Definition arrow : graph := Graph [("u", Some false); ("v", Some true); ("w", None)] [("u", "v")].
Lemma arrow_sound : sound_graph arrow /\ gr_nodes arrow <> nil /\ forall k, In k (dkeys (gr_nodes arrow)) -> plain_name k.
Proof.
  split; [split|split; [discriminate|]].
  - apply HdfPop.nodupb_ok. reflexivity.
  - constructor; [intros []|constructor].
  - intros u v [I|[]]. injection I as <- <-. cbn. auto.
  - intros k [<-|[<-|[<-|[]]]]; apply plain; reflexivity.
Qed.

(** A population with everything: luminosity parameters, a quantity, a model space,
    truth, graph, configuration and probabilities. *)
Definition conf0 : dict (tree Z) :=
  [("seed", TInt 1234); ("spatial distribution", TDict [("T", TDict [("Lambda", TNum 5%Z)]); ("is_rate", TBool true)]);
   ("auxiliary samplers", TDict nil)].
Definition full : popargs toy :=
  PopArgs toy [10; 20; 30; 40]%Z [5; 6; 7; 8]%Z [5; 8]%Z [0; 2] [1] [1; 2; 3; 4]%Z [2; 3; 4; 5]%Z sel4 1%Z 50%Z 2
    (Some [("mu", Some 2%Z); ("alpha", Some 1%Z)]) [("Lambda", Some 5%Z); ("delta", Some 3%Z)]
    (Some [("grid", [0; 1]%Z)]) 1234%Z (PyStr "demo") "form" (Some "lf") (Some [("x", ([1; 2; 3; 4]%Z, [5; 6; 7; 8]%Z))])
    [("pop", [("Lambda", 5%Z)]); ("lf", [("mu", 2%Z); ("alpha", 1%Z)]); ("x", nil)] arrow [0; 0; 1; 1]%Z [1; 1; 0; 0]%Z
    (Some (TDict conf0)) (Some [1; 1; 1; 1]%Z).
Lemma named A (d : list (string * A)) : HdfPop.nodupb (dkeys d) = true -> forallb plainb (dkeys d) = true -> plain_names d.
Proof.
  intros N P. split; [now apply HdfPop.nodupb_ok|]. intros k I. apply plain. rewrite forallb_forall in P. now apply P.
Qed.
Lemma full_writable : writable full "demo" [("x", ([1; 2; 3; 4]%Z, [5; 6; 7; 8]%Z))] [("grid", [0; 1]%Z)] conf0.
Proof.
  split; try reflexivity.
  - split; [apply named; reflexivity|]. intros k [I|[I|[]]]; discriminate I.
  - cbn. split; [apply named; reflexivity|]. split; [intros k [I|[I|[]]]; discriminate I|]. exists "lf". auto.
  - split; reflexivity || discriminate.
  - split; reflexivity || discriminate.
  - split; [reflexivity|apply named; reflexivity].
  - split; [reflexivity|apply named; reflexivity].
  - split; [discriminate|]. split; [apply named; reflexivity|].
    intros k d [I|[I|[I|[]]]]; injection I as <- <-; apply named; reflexivity.
  - cbn [pa_graph full]. destruct arrow_sound as (A & B & C). auto.
  - split; [reflexivity|]. split; [discriminate|]. cbn [storable conf0].
    repeat match goal with
    | |- _ /\ _ => split
    | |- plain_name _ => apply plain; reflexivity
    | |- NoDup _ => apply HdfPop.nodupb_ok; reflexivity
    | |- True => exact I
    | |- fits64 _ => split; reflexivity || discriminate
    end.
Qed.
Lemma full_new : exists p, pop_new full = Ok p /\ p_ndet p = 3.
Proof. destruct (run1 (pop_new full) _ (fun p => p_ndet p) 3) as (p & H & Q); [vm_compute; reflexivity|]. eauto. Qed.
Lemma full_bool : has_bool (TDict conf0).
Proof.
  apply hb_dict with (k := "spatial distribution") (t := TDict [("T", TDict [("Lambda", TNum 5%Z)]); ("is_rate", TBool true)]); [right; now left|].
  apply hb_dict with (k := "is_rate") (t := TBool true); [right; now left|constructor].
Qed.
(** Written and read. *)
Lemma full_run : exists p q, pop_new full = Ok p /\ load_pop (E := toy) (fun _ => true) (snd (writeto p)) = Ok q /\
  (fst (writeto p), pa_prob (p_args q), pa_name (p_args q), pa_spform (p_args q), pa_lfform (p_args q), pa_lum (p_args q), pa_sel (p_args q),
   pa_lfpar (p_args q), gr_edges (pa_graph (p_args q)), pa_truth (p_args q)) =
  (Ok tt, None, PyBytes "demo", "b'form'", Some "b'lf'", [10; 20; 30; 40]%Z, sel4,
   Some [("alpha", Some 1%Z); ("mu", Some 2%Z)], [("u", "v"); ("v", "u")],
   [("lf", [("alpha", 1%Z); ("mu", 2%Z)]); ("pop", [("Lambda", 5%Z)]); ("x", nil)]).
Proof.
  apply (run2 (pop_new full) (fun p => load_pop (E := toy) (fun _ => true) (snd (writeto p))) _
    (fun p q => (fst (writeto p), pa_prob (p_args q), pa_name (p_args q), pa_spform (p_args q), pa_lfform (p_args q), pa_lum (p_args q), pa_sel (p_args q),
       pa_lfpar (p_args q), gr_edges (pa_graph (p_args q)), pa_truth (p_args q)))). vm_compute. reflexivity.
Qed.
