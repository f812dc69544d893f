(** Model of how layer names, label files, parent files and rollup files are written and read
    (src/storage/layer.rs, src/storage/directory.rs).  Bytes are numbers below 256; a Rust
    [String] is its UTF-8 bytes. *)
From Verif Require Import Prelude.
From Coq Require Export NArith.

Notation bytes := (list nat) (only parsing).

(** What a fallible call gives: a value, an [io::Error] of some kind, or a panic *)
Inductive ekind := NotFound | AlreadyExists | InvalidInput | InvalidData | UnexpectedEof | OtherError.
Inductive outcome (A : Type) := Ok (a : A) | Err (k : ekind) | Panic.
Arguments Ok {A}. Arguments Err {A}. Arguments Panic {A}.
#[global] Instance ekind_eq_dec : EqDecision ekind.
Proof. solve_decision. Defined.
#[global] Instance outcome_eq_dec {A} `{EqDecision A} : EqDecision (outcome A).
Proof. solve_decision. Defined.
(** the operator [?] *)
Definition obind {A B} (x : outcome A) (f : A → outcome B) : outcome B :=
  match x with Ok a => f a | Err k => Err k | Panic => Panic end.

(** [[u32; 5]], the name of a layer *)
Notation lname := (list N) (only parsing).
Definition u32_max : N := 4294967295.
Definition u64_max : N := 18446744073709551615.
Definition name_ok (n : lname) : Prop := length n = 5 ∧ Forall (λ w, (w ≤ u32_max)%N) n.

(** ** Numbers as text: Rust's [core::fmt] and [from_str_radix] *)
(** the digits of [n], most significant first; [fuel] bounds their number *)
Fixpoint num_digits (fuel : nat) (base n : N) (acc : list N) : list N :=
  match fuel with
  | 0 => acc
  | S f =>
      let acc := (n mod base)%N :: acc in
      if (n <? base)%N then acc else num_digits f base (n / base)%N acc
  end.
Definition digit_char (d : N) : nat := if (d <? 10)%N then 48 + N.to_nat d else 87 + N.to_nat d.
Definition fmt_radix (base n : N) : bytes := digit_char <$> num_digits 64 base n [].
Definition pad_left (w c : nat) (s : bytes) : bytes := replicate (w - length s) c ++ s.

(** [char::to_digit] *)
Definition to_digit (base : N) (b : nat) : option N :=
  let d := if decide (48 ≤ b ≤ 57) then Some (N.of_nat (b - 48))
           else if decide (97 ≤ b ≤ 122) then Some (N.of_nat (b - 87))
           else if decide (65 ≤ b ≤ 90) then Some (N.of_nat (b - 55))
           else None in
  d ← d; if (d <? base)%N then Some d else None.
Fixpoint parse_digits (base mx acc : N) (s : bytes) : option N :=
  match s with
  | [] => Some acc
  | b :: s' =>
      d ← to_digit base b;
      let acc := (acc * base + d)%N in
      if (mx <? acc)%N then None else parse_digits base mx acc s'
  end.
(** [u32::from_str_radix], [u64::from_str_radix]: a single sign is an error, a leading plus is
    skipped, a leading minus is no digit *)
Definition from_str_radix (base mx : N) (s : bytes) : option N :=
  match s with
  | [] => None
  | 43 :: [] => None
  | 43 :: s' => parse_digits base mx 0 s'
  | _ => parse_digits base mx 0 s
  end.

(** ** UTF-8 *)
Definition is_cont (b : nat) : bool := bool_decide (128 ≤ b < 192).
Definition in_range (lo hi b : nat) : bool := bool_decide (lo ≤ b ≤ hi).
(** The number of bytes that [String::from_utf8_lossy] takes at once, and whether they are a
    character; the missing bytes at the end of the input count as 0. *)
Definition next_char (b : nat) (r : bytes) : nat * bool :=
  let n1 := r !!! 0 in let n2 := r !!! 1 in let n3 := r !!! 2 in
  if decide (b < 128) then (1, true)
  else if in_range 194 223 b then if is_cont n1 then (2, true) else (1, false)
  else if in_range 224 239 b then
    if (if decide (b = 224) then in_range 160 191 n1
        else if decide (b = 237) then in_range 128 159 n1
        else in_range 128 191 n1)
    then if is_cont n2 then (3, true) else (2, false)
    else (1, false)
  else if in_range 240 244 b then
    if (if decide (b = 240) then in_range 144 191 n1
        else if decide (b = 244) then in_range 128 143 n1
        else in_range 128 191 n1)
    then if is_cont n2 then if is_cont n3 then (4, true) else (3, false) else (2, false)
    else (1, false)
  else (1, false).
Fixpoint lossy_loop (fuel : nat) (s : bytes) : bytes :=
  match fuel, s with
  | S f, b :: r =>
      let '(n, ok) := next_char b r in
      (if (ok : bool) then take n s else [239; 191; 189]) ++ lossy_loop f (drop n s)
  | _, _ => []
  end.
Definition from_utf8_lossy (s : bytes) : bytes := lossy_loop (length s) s.

(** [&s[i..j]]: panics unless both ends are character boundaries *)
Definition char_boundary (s : bytes) (i : nat) : bool :=
  match s !! i with None => bool_decide (i = length s) | Some b => negb (is_cont b) end.
Definition slice (s : bytes) (i j : nat) : outcome bytes :=
  if (char_boundary s i && char_boundary s j)%bool then Ok (take (j - i) (drop i s)) else Panic.

(** [str::lines]: the text between line feeds, without a carriage return before the line feed;
    what follows the last line feed counts when it is not empty *)
Definition strip_cr (l : bytes) : bytes :=
  match reverse l with 13 :: r => reverse r | _ => l end.
Fixpoint lines_loop (cur s : bytes) : list bytes :=
  match s with
  | [] => match cur with [] => [] | _ => [reverse cur] end
  | 10 :: s' => strip_cr (reverse cur) :: lines_loop [] s'
  | b :: s' => lines_loop (b :: cur) s'
  end.
Definition text_lines (s : bytes) : list bytes := lines_loop [] s.

(** ** Layer names *)
(** layer.rs:1387-1392 [name_to_string]: five times [{:08x}] *)
Definition name_to_string (n : lname) : bytes :=
  mjoin ((λ w, pad_left 8 48 (fmt_radix 16 w)) <$> n).
(** layer.rs:1400-1410: one word *)
Definition string_word (s : bytes) (i : nat) : outcome N :=
  obind (slice s (8 * i) (8 * i + 8)) (λ w,
    match from_str_radix 16 u32_max w with Some n => Ok n | None => Err InvalidData end).
(** layer.rs:1394-1413 [string_to_name] *)
Definition string_to_name (s : bytes) : outcome lname :=
  if decide (length s ≠ 40) then Err OtherError
  else
    obind (string_word s 0) (λ n1, obind (string_word s 1) (λ n2, obind (string_word s 2) (λ n3,
    obind (string_word s 3) (λ n4, obind (string_word s 4) (λ n5, Ok [n1; n2; n3; n4; n5]))))).
(** layer.rs:1415-1423 [bytes_to_name] *)
Definition bytes_to_name (b : bytes) : outcome lname :=
  if decide (length b ≠ 40) then Err OtherError else string_to_name (from_utf8_lossy b).

(** ** Label files *)
(** label.rs:6-10 [Label] *)
Record label := Label { lb_name : bytes; lb_layer : option lname; lb_version : N }.
#[global] Instance label_eq_dec : EqDecision label.
Proof. solve_decision. Defined.
(** the fields fit their types *)
Definition layer_ok (n : option lname) : Prop := match n with None => True | Some n => name_ok n end.
Definition label_ok (l : label) : Prop := (lb_version l ≤ u64_max)%N ∧ layer_ok (lb_layer l).
(** label.rs:13-19 [new_empty] *)
Definition label_new_empty (name : bytes) : label := Label name None 0.
(** label.rs:28-34 [with_updated_layer]; the addition panics when it overflows (with overflow
    checks off it would wrap to 0) *)
Definition with_updated_layer (l : label) (layer : option lname) : option label :=
  if (u64_max <=? lb_version l)%N then None
  else Some (Label (lb_name l) layer (lb_version l + 1)%N).
(** directory.rs:263-268, 408-413 *)
Definition label_contents (l : label) : bytes :=
  match lb_layer l with
  | None => fmt_radix 10 (lb_version l) ++ [10; 10]
  | Some n => fmt_radix 10 (lb_version l) ++ [10] ++ name_to_string n ++ [10]
  end.
(** directory.rs:222, 367: the contents of a new label file, "0\n\n" *)
Definition new_label_contents : bytes := [48; 10; 10].
(** directory.rs:128-169 [get_label_from_data] *)
Definition get_label_from_data (name data : bytes) : outcome label :=
  match text_lines (from_utf8_lossy data) with
  | [v; n] =>
      match from_str_radix 10 u64_max v with
      | None => Err InvalidData
      | Some v =>
          match n with
          | [] => Ok (Label name None v)
          | _ => obind (string_to_name n) (λ n, Ok (Label name (Some n) v))
          end
      end
  | _ => Err InvalidData
  end.

(** ** Parent and rollup files *)
(** layer.rs:654-665 [write_parent_file] *)
Definition parent_contents (n : lname) : bytes := name_to_string n.
(** layer.rs:667-675 [read_parent_file]: [read_exact] of 40 bytes *)
Definition read_parent (data : bytes) : outcome lname :=
  if decide (length data < 40) then Err UnexpectedEof else bytes_to_name (take 40 data).
(** layer.rs:678-690 [write_rollup_file] *)
Definition rollup_contents (n : lname) : bytes := fmt_radix 10 1 ++ [10] ++ name_to_string n ++ [10].
(** layer.rs:692-715 [read_rollup_file]; the version in the first line is ignored *)
Definition read_rollup (data : bytes) : outcome lname :=
  match text_lines (from_utf8_lossy data) with
  | [_; n] => string_to_name n
  | _ => Err InvalidData
  end.
