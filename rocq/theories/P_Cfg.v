(** C59: configuration. *)
From Verif Require Import Base CfgModel CfgSpec.
From Verif Require CfgProofs.

Section Cfg.
Variables (V : Type) (as_bool : yaml V -> option bool) (as_num : yaml V -> option V) (as_str : yaml V -> option string).
(** With a file: a named key has the user's value, converted to the key's type; the
    others have their defaults; no key appears or disappears; the file stays. *)
Theorem C59_overrides : forall defaults u c f, proper V u -> load V as_bool as_num as_str defaults (Some u) = (Ok c, f) ->
  f = Some u /\
  (forall p l, setting V defaults p = Some l -> leaf V l ->
     match named V u p with
     | Some x => exists l', setting V c p = Some l' /\ is_value V as_bool as_num as_str l x l'
     | None => setting V c p = Some l
     end) /\
  forall p, setting V c p = None <-> setting V defaults p = None.
Proof.
  intros d u c f P H. cbn in H. injection H as H <-. split; [reflexivity|]. split; intros p.
  - apply (CfgProofs.merge_get V as_bool as_num as_str u P d c H p).
  - apply (CfgProofs.merge_get V as_bool as_num as_str u P d c H p).
Qed.
(** Loading succeeds exactly if the file names nothing unknown and only values that
    can be converted. *)
Theorem C59_accepted : forall defaults u, proper V u ->
  (is_ok (fst (load V as_bool as_num as_str defaults (Some u))) = true <-> acceptable V as_bool as_num as_str defaults u).
Proof.
  intros d u P. cbn. split.
  - destruct (merge V as_bool as_num as_str d u) eqn:Q; [intros _|discriminate]. exact (CfgProofs.merge_known V as_bool as_num as_str u P _ _ Q).
  - intros A. destruct (CfgProofs.merge_accepts V as_bool as_num as_str u P d A) as (c & ->). reflexivity.
Qed.
(** Without a file: the defaults, which are written; loading again gives the same. *)
Theorem C59_defaults_written : forall defaults, proper_cfg V defaults -> lawful V as_bool as_num as_str ->
  exists f, load V as_bool as_num as_str defaults None = (Ok defaults, f) /\ f <> None /\
    load V as_bool as_num as_str defaults f = (Ok defaults, f).
Proof.
  intros d P L. exists (Some (to_yaml V d)). split; [reflexivity|]. split; [discriminate|]. cbn.
  now rewrite (CfgProofs.again V as_bool as_num as_str d L P).
Qed.
End Cfg.
Print Assumptions C59_overrides.
Print Assumptions C59_accepted.
Print Assumptions C59_defaults_written.
