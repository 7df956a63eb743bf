(** Python's literals for bytes, read the way Python reads them.  Nothing here refers to
    the model. *)
From Coq Require Import Ascii Bool.
From Verif Require Import Base.
Open Scope string_scope.

(** A character that is shown as it is. *)
Definition printable (c : ascii) : Prop := (32 <= nat_of_ascii c /\ nat_of_ascii c <= 126)%nat.
(** A hexadecimal digit. *)
Definition hex_digit (c : ascii) : option nat :=
  let n := nat_of_ascii c in
  if (Nat.leb 48 n && Nat.leb n 57)%bool then Some (n - 48)%nat
  else if (Nat.leb 97 n && Nat.leb n 102)%bool then Some (n - 87)%nat else None.
(** The bytes up to the closing quotation mark, which must end the text. *)
Fixpoint unquote (q : ascii) (t : string) : option string :=
  match t with
  | EmptyString => None
  | String c r =>
    if Ascii.eqb c q then match r with EmptyString => Some "" | _ => None end
    else if Ascii.eqb c "\" then
      match r with
      | String "x" (String h (String l r')) =>
        match hex_digit h, hex_digit l, unquote q r' with
        | Some a, Some b, Some s => Some (String (ascii_of_nat (16 * a + b)) s)
        | _, _, _ => None end
      | String "t" r' => option_map (String (ascii_of_nat 9)) (unquote q r')
      | String "n" r' => option_map (String (ascii_of_nat 10)) (unquote q r')
      | String "r" r' => option_map (String (ascii_of_nat 13)) (unquote q r')
      | String d r' => if Ascii.eqb d "\" || Ascii.eqb d "'" || Ascii.eqb d "034"
                       then option_map (String d) (unquote q r') else None
      | EmptyString => None end
    else option_map (String c) (unquote q r)
  end.
(** The text is the literal [b'...'] or [b"..."] of these bytes. *)
Definition literal_of (s t : string) : Prop :=
  exists q r, (q = "'"%char \/ q = "034"%char) /\ t = String "b" (String q r) /\ unquote q r = Some s.
