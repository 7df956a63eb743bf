(** Model of class statements: [ParameterMeta] (utils/meta.py:137-207), the registries
    (utils/registry.py:1-7) and the metaclasses [AutoRegister(registry,
    base_type=ParameterMeta)] of distributions (distribution.py:27-31), selections
    (selection_probability/selection_probability.py:18-20) and samplers
    (auxiliary_sampler.py:167-172).

    Python's method resolution order and the library class_registry are modelled as their
    documentation describes them: [AutoRegister] registers every class that is not
    abstract, under the value of the attribute the registry was made with, replacing an
    earlier class of that name. *)
From Verif Require Import Base.
Set Implicit Arguments.
Open Scope string_scope.
Open Scope list_scope.

(** The three families, one metaclass each. *)
Inductive hier := HDist | HSel | HAux.
Definition hier_eqb (a b : hier) : bool :=
  match a, b with HDist, HDist | HSel, HSel | HAux, HAux => true | _, _ => false end.
(** registry.py:3-7 *)
Definition attr_name (h : hier) : string :=
  match h with HDist => "_distribution_name" | HSel => "_selection_name" | HAux => "_auxiliary_sampler_name" end.

(** Class attributes: marked abstract, a string, anything else. *)
Inductive attr := Abstract | Str (s : string) | Other.
(** A class: its metaclass ([None]: [type]), what its body defines, its [__mro__] and its
    [__abstractmethods__]. *)
Record klass := Klass { k_meta : option hier; k_attrs : dict attr; k_mro : list nat; k_abs : list string }.
Record classes := Classes { cl : list klass; cl_reg : hier -> dict nat }.

(** ** Method resolution order: python's C3 merge *)
Definition in_tail (c : nat) (l : list nat) : bool := existsb (Nat.eqb c) (tl l).
Definition heads (ls : list (list nat)) : list nat := flat_map (fun l => match l with nil => nil | h :: _ => [h] end) ls.
Definition pop (c : nat) (l : list nat) : list nat :=
  match l with nil => nil | h :: t => if Nat.eqb h c then t else l end.
Fixpoint merge (fuel : nat) (ls : list (list nat)) : option (list nat) :=
  match heads ls with
  | nil => Some nil
  | hs =>
    match fuel with
    | O => None
    | S n =>
      match find (fun c => negb (existsb (in_tail c) ls)) hs with
      | None => None
      | Some c => option_map (cons c) (merge n (map (pop c) ls))
      end
    end
  end.

(** [getattr(cls, name)] for class attributes: the first class of the order that defines
    it. *)
Fixpoint first_attr (cs : list klass) (mro : list nat) (n : string) : option attr :=
  match mro with
  | nil => None
  | c :: r => match nth_error cs c with
              | Some k => match dget (k_attrs k) n with Some v => Some v | None => first_attr cs r n end
              | None => None
              end
  end.
Definition class_attr (w : classes) (c : nat) (n : string) : option attr :=
  match nth_error (cl w) c with Some k => first_attr (cl w) (k_mro k) n | None => None end.

(** The metaclass of a class statement: the most derived one. *)
Definition join (a b : option hier) : res (option hier) :=
  match a, b with
  | None, x | x, None => Ok x
  | Some h, Some h' => if hier_eqb h h' then Ok (Some h) else Err TypeError
  end.
Fixpoint joins (l : list (option hier)) : res (option hier) :=
  match l with nil => Ok None | a :: r => let? b := joins r in join a b end.

Definition is_abstract (o : option attr) : bool := match o with Some Abstract => true | _ => false end.
Definition get_classes (w : classes) (bs : list nat) : res (list klass) :=
  rmapM (fun b => of_opt Unmodelled (nth_error (cl w) b)) bs.

(** [ParameterMeta.__new__] (138-153): the names of abstract methods.  [cs] already holds
    the new class. *)
Definition abstracts (cs : list klass) (mro : list nat) (attrs : dict attr) (bases : list klass) : list string :=
  filter (fun n => is_abstract (dget attrs n)) (dkeys attrs) ++
  filter (fun n => is_abstract (first_attr cs mro n)) (flat_map k_abs bases).

(** [class X(bases, metaclass=meta): attrs].  Nothing is left behind by a class statement
    that raises.  The check for two normalisations never raises (157-172).  Class bodies
    are dictionaries. *)
Definition class_statement (meta : option hier) (bases : list nat) (attrs : dict attr) (w : classes) : res nat * classes :=
  match
    (let? bs := get_classes w bases in
     let? m := joins (meta :: map k_meta bs) in
     let ls := map k_mro bs ++ [bases] in
     let? r := of_opt TypeError (merge (length (List.concat ls)) ls) in
     let c := length (cl w) in
     let mro := c :: r in
     let k0 := Klass m attrs mro nil in
     let cs := cl w ++ [k0] in
     match m with
     | None => Ok (c, Classes cs (cl_reg w))
     | Some h =>
         let abs := abstracts cs mro attrs bs in
         let cs := cl w ++ [Klass m attrs mro abs] in
         match abs with
         | _ :: _ => Ok (c, Classes cs (cl_reg w))
         | nil => match first_attr cs mro (attr_name h) with
                  | None => Err AttributeError
                  | Some (Str s) => Ok (c, Classes cs (fun h' => if hier_eqb h h' then dset (cl_reg w h') s c else cl_reg w h'))
                  | Some _ => Err Unmodelled
                  end
         end
     end)
  with
  | Ok (c, w') => (Ok c, w')
  | Err e => (Err e, w)
  end.

(** Before any class statement: [object] is class 0. *)
Definition start : classes := Classes [Klass None nil [0] nil] (fun _ => nil).
(** A history of class statements; failed ones leave nothing. *)
Definition statement : Type := option hier * list nat * dict attr.
Definition run1 (w : classes) (s : statement) : classes := let '(m, b, a) := s in snd (class_statement m b a w).
Definition run (l : list statement) : classes := fold_left run1 l start.

(** ** Uses *)
(** [cls(...)]: [object.__new__] refuses abstract classes. *)
Definition instantiate (w : classes) (c : nat) : res nat :=
  let? k := of_opt Unmodelled (nth_error (cl w) c) in
  match k_abs k with nil => Ok c | _ => Err TypeError end.
(** [registry[name]] and [registry.get(name, ...)]: an instance; class_registry raises a
    [KeyError] for unknown names. *)
Definition registry_make (w : classes) (h : hier) (name : string) : res nat :=
  let? c := of_opt KeyError (dget (cl_reg w h) name) in instantiate w c.
(** [isinstance(x, cls)] for an instance of class [c]. *)
Definition isinstance (w : classes) (c cls : nat) : res bool :=
  let? k := of_opt Unmodelled (nth_error (cl w) c) in Ok (existsb (Nat.eqb cls) (k_mro k)).
(** [cls._abc_cache], [cls._abc_registry]: attributes that [ABCMeta] makes, [ParameterMeta]
    does not. *)
Definition need (w : classes) (cls : nat) (n : string) : res bool :=
  match class_attr w cls n with None => Err AttributeError | Some _ => Err Unmodelled end.
(** [issubclass(c, cls)] (meta.py:176-207). *)
Definition issubclass (w : classes) (c cls : nat) : res bool :=
  let? k := of_opt Unmodelled (nth_error (cl w) c) in
  let? kc := of_opt Unmodelled (nth_error (cl w) cls) in
  match k_meta kc with
  | None => Ok (existsb (Nat.eqb cls) (k_mro k))
  | Some _ =>
      match class_attr w cls "__subclasshook__" with
      | Some _ => Err Unmodelled
      | None => if existsb (Nat.eqb cls) (k_mro k) then need w cls "_abc_cache" else need w cls "_abc_registry"
      end
  end.
