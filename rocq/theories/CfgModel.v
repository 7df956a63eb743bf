(** Model of [popsynth/utils/configuration.py].  OmegaConf itself is an external
    library; what the module relies on is modelled here: a structured configuration
    knows its keys and the types of its values, [merge] overwrites what the other
    configuration names, unknown keys and values of the wrong type are refused. *)
From Verif Require Import Base.
Open Scope string_scope.

Section Cfg.
(** Numbers, and the conversions OmegaConf applies to a value found in a file:
    python's [float()], [str()] and the reading of a boolean.  [None]: refused. *)
Variable V : Type.

(** A value of a YAML file; [YMap] has its keys in the order of the file. *)
Inductive yaml := YNull | YBool (b : bool) | YNum (v : V) | YStr (s : string) | YList (l : list yaml) | YMap (d : list (string * yaml)).
Variable as_bool : yaml -> option bool.
Variable as_num : yaml -> option V.
Variable as_str : yaml -> option string.

(** A configuration: a typed value, or a group of them (18-50). *)
Inductive cfg := CBool (b : bool) | CNum (v : V) | CStr (s : string) | CGroup (d : list (string * cfg)).

(** A value for a typed key; containers and null are refused. *)
Definition conv {A} (c : A -> cfg) (f : yaml -> option A) (u : yaml) : res cfg :=
  match u with
  | YNull | YList _ | YMap _ => Err ValueError
  | _ => match f u with Some a => Ok (c a) | None => Err ValueError end
  end.

(** [OmegaConf.merge(c, u)]: [KeyError] for a key the group does not have
    (ConfigKeyError), [ValueError] for a value that cannot be converted
    (ValidationError).  Keys are merged in the order of the file.  The part for one
    key of a group is [merge1]. *)
Definition merge1 (f : cfg -> yaml -> res cfg) (k : string) (u : yaml) (d : list (string * cfg)) : res (list (string * cfg)) :=
  let? c := of_opt KeyError (dget d k) in
  let? c' := f c u in
  Ok (dset d k c').
Fixpoint merge (c : cfg) (u : yaml) {struct u} : res cfg :=
  match c with
  | CBool _ => conv CBool as_bool u
  | CNum _ => conv CNum as_num u
  | CStr _ => conv CStr as_str u
  | CGroup d =>
      match u with
      | YMap e => rmap CGroup ((fix go e d := match e with
                                              | nil => Ok d
                                              | (k, u') :: r => let? d' := merge1 (fun c x => merge c u') k u' d in go r d'
                                              end) e d)
      | _ => Err ValueError
      end
  end.

(** [OmegaConf.save] *)
Fixpoint to_yaml (c : cfg) : yaml :=
  match c with
  | CBool b => YBool b
  | CNum v => YNum v
  | CStr s => YStr s
  | CGroup d => YMap ((fix go d := match d with nil => nil | (k, c') :: r => (k, to_yaml c') :: go r end) d)
  end.

(** Import of the module (53-74): [file] is what the configuration file holds, if
    there is one.  The result is [popsynth_config] and the file afterwards. *)
Definition load (defaults : cfg) (file : option yaml) : res cfg * option yaml :=
  match file with
  | Some u => (merge defaults u, file)
  | None => (Ok defaults, Some (to_yaml defaults))
  end.

(** The defaults (18-50); [om] and [h0] are the numbers 0.307 and 67.7. *)
Definition defaults (om h0 : V) : cfg :=
  CGroup [("logging", CGroup [("debug", CBool false);
                              ("console", CGroup [("on", CBool true); ("level", CStr "WARNING")]);
                              ("file", CGroup [("on", CBool true); ("level", CStr "WARNING")])]);
          ("cosmology", CGroup [("Om", CNum om); ("h0", CNum h0)]);
          ("show_progress", CBool true)].

(** [config[k1][k2]...] and the same in a file. *)
Fixpoint setting (c : cfg) (p : list string) : option cfg :=
  match p with
  | nil => Some c
  | k :: r => match c with CGroup d => match dget d k with Some c' => setting c' r | None => None end | _ => None end
  end.
Fixpoint named (u : yaml) (p : list string) : option yaml :=
  match p with
  | nil => Some u
  | k :: r => match u with YMap d => match dget d k with Some u' => named u' r | None => None end | _ => None end
  end.
End Cfg.
Arguments CBool {V} b.
Arguments CStr {V} s.
Arguments YNull {V}.
Arguments YBool {V} b.
Arguments YStr {V} s.
