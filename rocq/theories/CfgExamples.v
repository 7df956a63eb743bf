(** Concrete configurations; numbers are integers here. *)
From Verif Require Import Base BaseFacts CfgModel CfgSpec.
Open Scope string_scope.
Definition zbool (u : yaml Z) : option bool := match u with YBool b => Some b | YStr "on" => Some true | YStr "off" => Some false | _ => None end.
Definition znum (u : yaml Z) : option Z := match u with YNum _ v => Some v | _ => None end.
Definition zstr (u : yaml Z) : option string := match u with YStr s => Some s | YBool true => Some "True" | YBool false => Some "False" | _ => None end.
Lemma zlawful : lawful Z zbool znum zstr.
Proof. now split. Qed.
Definition default_cfg : cfg Z := defaults Z 307%Z 677%Z.
Lemma default_proper : proper_cfg Z default_cfg.
Proof.
  assert (ND : forall l : list string, (fix f l := match l with nil => True | x :: r => (fix g r := match r with nil => True | y :: q => x <> y /\ g q end) r /\ f r end) l -> NoDup l).
  { induction l as [|x r IH]; intros H; [constructor|]. destruct H as (A & B). constructor; [|exact (IH B)]. clear IH B.
    induction r as [|y q IHq]; intros I; [destruct I|]. destruct A as (A & A'). destruct I as [->|I]; [now apply A|exact (IHq A' I)]. }
  unfold default_cfg, defaults. constructor; [apply ND; cbn; repeat split; discriminate|].
  intros k c [I|[I|[I|[]]]]; injection I as <- <-; constructor; try (apply ND; cbn; repeat split; discriminate).
  - intros k c [I|[I|[I|[]]]]; injection I as <- <-; constructor; try (apply ND; cbn; repeat split; discriminate);
    (intros k c [I|[I|[]]]; injection I as <- <-; constructor).
  - intros k c [I|[I|[]]]; injection I as <- <-; constructor.
Qed.
Definition user_file : yaml Z := YMap Z [("show_progress", YStr "off"); ("logging", YMap Z [("console", YMap Z [("level", YStr "DEBUG")])])].
Lemma user_proper : proper Z user_file.
Proof.
  assert (X : forall k (u : yaml Z), proper Z u -> proper Z (YMap Z [(k, u)])).
  { intros k u P. constructor; [constructor; [intros []|constructor]|]. intros k' u' [I|[]]. now injection I as <- <-. }
  constructor.
  - constructor; [intros [I|[]]; discriminate I|]. constructor; [intros []|constructor].
  - intros k u [I|[I|[]]]; injection I as <- <-; [constructor|]. do 2 apply X. constructor.
Qed.
Lemma user_run : exists c, fst (load Z zbool znum zstr default_cfg (Some user_file)) = Ok c /\
  setting Z c ["logging"; "console"; "level"] = Some (CStr "DEBUG") /\ setting Z c ["logging"; "file"; "level"] = Some (CStr "WARNING") /\
  setting Z c ["show_progress"] = Some (CBool false) /\ setting Z c ["cosmology"; "Om"] = Some (CNum Z 307%Z).
Proof. eexists. split; [reflexivity|]. repeat split. Qed.
Lemma unknown_run : fst (load Z zbool znum zstr default_cfg (Some (YMap Z [("colour", YStr "red")]))) = Err KeyError /\
  fst (load Z zbool znum zstr default_cfg (Some (YMap Z [("cosmology", YMap Z [("Om", YStr "many")])]))) = Err ValueError /\
  fst (load Z zbool znum zstr default_cfg (Some (YMap Z [("logging", YBool false)]))) = Err ValueError.
Proof. repeat split. Qed.
Lemma first_run : load Z zbool znum zstr default_cfg None = (Ok default_cfg, Some (to_yaml Z default_cfg)).
Proof. reflexivity. Qed.
