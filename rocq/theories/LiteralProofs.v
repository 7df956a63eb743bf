From Coq Require Import Ascii Bool Lia Arith.
From Verif Require Import Base HdfModel LiteralSpec.
Open Scope string_scope.

Lemma app_assoc_s a b c : (a ++ b) ++ c = a ++ (b ++ c).
Proof. induction a; cbn; congruence. Qed.
Lemma hex_back k : (k < 16)%nat -> hex_digit (hex1 k) = Some k.
Proof. intros H. do 16 (destruct k as [|k]; [reflexivity|]). lia. Qed.
Lemma back_ascii c n : nat_of_ascii c = n -> c = ascii_of_nat n.
Proof. intros <-. now rewrite ascii_nat_embedding. Qed.
Lemma esc_back q c r s : q = squote \/ q = dquote -> unquote q r = Some s ->
  unquote q (esc q c ++ r) = Some (String c s).
Proof.
  intros Q H. assert (QB : Ascii.eqb "\" q = false) by (destruct Q; subst q; reflexivity).
  unfold esc. set (n := nat_of_ascii c).
  destruct (Ascii.eqb c q || Ascii.eqb c "\") eqn:A.
  { apply orb_true_iff in A. assert (D : c = "'"%char \/ c = "034"%char \/ c = "\"%char).
    { destruct A as [A|A]; apply Ascii.eqb_eq in A; subst c; [destruct Q; subst q; auto|auto]. }
    cbn [append unquote]. rewrite QB. destruct D as [D|[D|D]]; subst c; cbn [Ascii.eqb Bool.eqb]; cbn; rewrite H; reflexivity. }
  apply orb_false_iff in A. destruct A as (A1 & A2).
  destruct (Nat.eqb n 9) eqn:E9; [apply Nat.eqb_eq in E9; rewrite (back_ascii c 9 E9); cbn [append unquote]; rewrite QB, H; reflexivity|].
  destruct (Nat.eqb n 10) eqn:E10; [apply Nat.eqb_eq in E10; rewrite (back_ascii c 10 E10); cbn [append unquote]; rewrite QB, H; reflexivity|].
  destruct (Nat.eqb n 13) eqn:E13; [apply Nat.eqb_eq in E13; rewrite (back_ascii c 13 E13); cbn [append unquote]; rewrite QB, H; reflexivity|].
  destruct (_ || _)%bool.
  - assert (N : (n < 256)%nat) by apply nat_ascii_bounded.
    cbn [append unquote]. rewrite QB. cbn [Ascii.eqb Bool.eqb].
    rewrite (hex_back (n / 16)), (hex_back (n mod 16)), H.
    + f_equal. f_equal. symmetry. apply back_ascii. change (nat_of_ascii c = 16 * (n / 16) + n mod 16)%nat. apply Nat.div_mod. lia.
    + apply Nat.mod_upper_bound. lia.
    + apply Nat.div_lt_upper_bound; lia.
  - cbn [append unquote]. rewrite A1, A2, H. reflexivity.
Qed.
Lemma esc_all_back q s : q = squote \/ q = dquote -> unquote q (esc_all q s ++ String q "") = Some s.
Proof.
  intros Q. induction s as [|c s IH].
  - destruct Q; subst q; reflexivity.
  - change (esc_all q (String c s)) with (esc q c ++ esc_all q s). rewrite app_assoc_s. now apply esc_back.
Qed.
Lemma repr_literal s : literal_of s (bytes_repr s).
Proof.
  unfold bytes_repr, literal_of. set (q := if _ : bool then _ else _).
  assert (Q : q = squote \/ q = dquote) by (unfold q; destruct (_ && _)%bool; auto).
  exists q, (esc_all q s ++ String q ""). split; [exact Q|]. split; [reflexivity|]. now apply esc_all_back.
Qed.
Lemma app_list a b : list_ascii_of_string (a ++ b) = (list_ascii_of_string a ++ list_ascii_of_string b)%list.
Proof. induction a; cbn; congruence. Qed.
Lemma quote_printable q : q = squote \/ q = dquote -> printable q.
Proof. intros [H|H]; subst q; split; vm_compute; repeat constructor. Qed.
Definition shown (c : ascii) : bool := Nat.leb 32 (nat_of_ascii c) && Nat.leb (nat_of_ascii c) 126.
Lemma esc_printable q c : q = squote \/ q = dquote -> Forall printable (list_ascii_of_string (esc q c)).
Proof.
  intros Q. assert (A : forallb shown (list_ascii_of_string (esc q c)) = true).
  { destruct Q as [Q|Q]; subst q; destruct c as [[] [] [] [] [] [] [] []]; vm_compute; reflexivity. }
  apply Forall_forall. intros x I. assert (B := proj1 (forallb_forall _ _) A x I). apply andb_true_iff in B.
  destruct B as (B & C). apply Nat.leb_le in B, C. now split.
Qed.
Lemma quote_b : printable "b".
Proof. split; vm_compute; repeat constructor. Qed.
Lemma repr_printable s : Forall printable (list_ascii_of_string (bytes_repr s)).
Proof.
  unfold bytes_repr. set (q := if _ : bool then _ else _).
  assert (Q : q = squote \/ q = dquote) by (unfold q; destruct (_ && _)%bool; auto).
  cbn [append list_ascii_of_string]. apply Forall_cons; [apply quote_b|]. apply Forall_cons; [now apply quote_printable|].
  rewrite app_list. apply Forall_app. split.
  - clearbody q. induction s as [|c s IH]; cbn; [constructor|]. rewrite app_list. apply Forall_app. split; [now apply esc_printable|exact IH].
  - cbn [list_ascii_of_string]. apply Forall_cons; [now apply quote_printable|apply Forall_nil].
Qed.
