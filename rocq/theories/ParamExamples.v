(** Concrete cases: the hypotheses of the parameter theorems are met, and the
    counterexamples. *)
From Verif Require Import Base ParamModel ParamSpec.
Open Scope string_scope.

Definition exc : pclass Z :=
  [("Lambda", PDecl (Some 1%Z) (Some 0%Z) None true true);
   ("delta",  PDecl None (Some (-5)%Z) (Some 5%Z) true false)].

Definition exh : list (pop Z) :=
  [PSet 0 "Lambda" (Some 7%Z); PSet 1 "delta" (Some 9%Z); PSet 0 "Lambda" (Some (-3)%Z);
   PGet Z 1 "Lambda"; PSet 1 "delta" (Some 2%Z)].

(** Two instances, five operations, two of them rejected. *)
Example exh_outcomes :
  fst (prun Z.geb Z.leb (pinit exc 2) exh) =
  [Ok None; Err RuntimeError; Err RuntimeError; Ok (Some 1%Z); Ok None].
Proof. reflexivity. Qed.

Example exh_reads :
  map (fun p => reads Z.geb Z.leb (snd (prun Z.geb Z.leb (pinit exc 2) exh)) (fst p) (snd p))
      [(0, "Lambda"); (1, "Lambda"); (0, "delta"); (1, "delta")] =
  [Ok (Some 7%Z); Ok (Some 1%Z); Err AssertionError; Ok (Some 2%Z)].
Proof. reflexivity. Qed.

Example exh_hyps : no_norm_set exh /\ 1 < 2 /\ exists d, dget exc "delta" = Some d.
Proof.
  split; [|split; [lia|eexists; reflexivity]].
  intros i v I. cbn in I. repeat (destruct I as [I|I]; [discriminate|]). easy.
Qed.

(** The setter of [normalization_parameter] bypasses the bounds. *)
Lemma norm_setter_breaks_bounds :
  exists (c : pclass Z) (d : pdecl Z) (h : list (pop Z)),
    dget c "Lambda" = Some d /\ pd_vmin d = Some 0%Z /\ pd_default d = Some 1%Z /\
    reads Z.geb Z.leb (snd (prun Z.geb Z.leb (pinit c 1) h)) 0 "Lambda" = Ok (Some (-1)%Z).
Proof.
  exists exc. eexists. exists [PSet 0 "Lambda" (Some 2%Z); PNormSet 0 (Some (-1)%Z)].
  repeat split.
Qed.

(** A rejected assignment is visible in one place: it announces the parameter as
    the normalisation parameter. *)
Lemma rejected_set_touches_norm :
  exists (o : pobj Z) d,
    fst (param_set Z.geb Z.leb d "Lambda" (Some (-1)%Z) o) = Err RuntimeError /\
    norm_get o = Err KeyError /\
    po_norm (snd (param_set Z.geb Z.leb d "Lambda" (Some (-1)%Z) o)) = Some "Lambda".
Proof.
  exists (pobj_new Z), (PDecl (Some 1%Z) (Some 0%Z) None true true). repeat split.
Qed.

(** Reading a parameter that was never assigned adds it to [truth]/[params]. *)
Lemma read_adds_default_to_truth :
  exists (o : pobj Z) d k,
    truth o = nil /\ truth (snd (param_get d k o)) = [(k, 1%Z)].
Proof.
  exists (pobj_new Z), (PDecl (Some 1%Z) (Some 0%Z) None true true), "Lambda". split; reflexivity.
Qed.

(** Two normalisation parameters are accepted; the one in force is the last
    one touched. *)
Lemma two_normalizations :
  exists attrs : list (string * option (pdecl Z)),
    length (filter (fun a => match snd a with Some d => pd_norm d | None => false end) attrs) = 2 /\
    meta_new attrs = Ok tt.
Proof.
  exists [("A", Some (PDecl (Some 1%Z) None None true true));
          ("B", Some (PDecl (Some 1%Z) None None true true))]. split; reflexivity.
Qed.

Example fixed_hyps :
  exists s d, dget (ps_class s) "Lambda" = Some d /\ pd_free d = false /\
    s = snd (prun Z.geb Z.leb (pinit exc 2) [PSet 0 "Lambda" (Some 7%Z); PFix Z "Lambda" true]) /\
    fst (prun Z.geb Z.leb s [PSet 1 "Lambda" (Some 3%Z); PGet Z 0 "Lambda"]) =
    [Err RuntimeError; Ok (Some 7%Z)].
Proof. do 2 eexists. repeat split; reflexivity. Qed.
