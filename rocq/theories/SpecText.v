(** What the texts of names, labels and pointers mean: a specification that does not refer to
    the functions of [Names] that write and read them. *)
From Verif Require Import Prelude Names.
#[global] Open Scope nat_scope.

(** the value of a list of digits, most significant first *)
Fixpoint digits_value (base a : N) (ds : list N) : N :=
  match ds with [] => a | d :: ds' => digits_value base (a * base + d)%N ds' end.

(** the value of one digit, in either case *)
Definition digit_of (base : N) (b : nat) (d : N) : Prop :=
  (d < base)%N ∧ (b = 48 + N.to_nat d ∧ (d < 10)%N
                  ∨ b = 87 + N.to_nat d ∧ (10 ≤ d < 36)%N ∨ b = 55 + N.to_nat d ∧ (10 ≤ d < 36)%N).

(** the number [v] written in base [base], perhaps with a plus in front *)
Definition number_text (base : N) (s : bytes) (v : N) : Prop :=
  ∃ sign ds, s = sign ++ ds ∧ (sign = [] ∨ sign = [43]) ∧ ds ≠ [] ∧
  ∃ dv, Forall2 (digit_of base) ds dv ∧ v = digits_value base 0 dv.

(** the name [n] written with 40 characters, eight for each word *)
Definition name_text (s : bytes) (n : lname) : Prop :=
  ∃ ws, s = mjoin ws ∧ length n = 5 ∧ Forall2 (λ w v, length w = 8 ∧ number_text 16 w v) ws n.

(** ends of lines *)
Definition eol (e : bytes) : Prop := e = [10] ∨ e = [13; 10].

(** what a label file with version [v] and layer [n] may look like *)
Definition label_text (s : bytes) (v : N) (n : option lname) : Prop :=
  ∃ vs e1 ns e2, s = vs ++ e1 ++ ns ++ e2 ∧ eol e1 ∧ number_text 10 vs v ∧
  match n with
  | None => ns = [] ∧ eol e2
  | Some n => name_text ns n ∧ name_ok n ∧ (eol e2 ∨ e2 = [])
  end.

(** hexadecimal digits, and the lower case of a letter *)
Definition is_hex (b : nat) : Prop := 48 ≤ b ≤ 57 ∨ 97 ≤ b ≤ 102 ∨ 65 ≤ b ≤ 70.
Definition lower (b : nat) : nat := if decide (65 ≤ b ≤ 90) then b + 32 else b.
