(** Properties of the text formats: layer names (C19), label files (C20), parent and rollup
    pointers (C41).  The specification of the texts is in [SpecText], that of UTF-8 in
    [SpecUtf8]. *)
From Verif Require Import Prelude Names SpecText NamesFacts SpecUtf8 Utf8Facts.

(** ** C19.  Layer names. *)
Theorem C19_round_trip n : name_ok n → string_to_name (name_to_string n) = Ok n.
Proof. exact (string_to_name_round n). Qed.
Print Assumptions C19_round_trip.
Theorem C19_injective n m : name_ok n → name_ok m → name_to_string n = name_to_string m → n = m.
Proof. exact (name_to_string_inj n m). Qed.
Print Assumptions C19_injective.
Theorem C19_length n : name_ok n → length (name_to_string n) = 40.
Proof. exact (name_to_string_len n). Qed.
Print Assumptions C19_length.
(** only the characters 0-9 and a-f *)
Theorem C19_lower_case_hex n : name_ok n → Forall (λ b, 48 ≤ b ≤ 57 ∨ 97 ≤ b ≤ 102) (name_to_string n).
Proof. exact (name_to_string_hex n). Qed.
Print Assumptions C19_lower_case_hex.
Theorem C19_other_lengths_rejected s : length s ≠ 40 → string_to_name s = Err OtherError.
Proof. exact (string_to_name_len s). Qed.
Print Assumptions C19_other_lengths_rejected.
(** exactly the names that the text denotes, where each word may have a plus in front *)
Theorem C19_accepted s n : string_to_name s = Ok n ↔ name_text s n ∧ name_ok n.
Proof. exact (string_to_name_spec s n). Qed.
Print Assumptions C19_accepted.
(** every string of 40 hexadecimal digits is the name of a layer, printed in lower case *)
Theorem C19_every_hex_string s : length s = 40 → Forall is_hex s →
  ∃ n, string_to_name s = Ok n ∧ name_to_string n = lower <$> s.
Proof. exact (hex_name s). Qed.
Print Assumptions C19_every_hex_string.
Theorem C19_other_characters_rejected s n : string_to_name s = Ok n → length s = 40 ∧ Forall (λ b, is_hex b ∨ b = 43) s.
Proof. exact (string_to_name_chars s n). Qed.
Print Assumptions C19_other_characters_rejected.
Theorem C19_ascii_never_panics s : Forall (λ b, b < 128) s → string_to_name s ≠ Panic.
Proof. exact (string_to_name_no_panic s). Qed.
Print Assumptions C19_ascii_never_panics.

Definition ex_name : lname := [3735928559; 0; 1; 4294967295; 2271560481]%N.
Definition ex_name2 : lname := [0; 1; 2; 3; 4]%N.
Example ex_name_ok : name_ok ex_name.
Proof. split; [done|]. repeat (apply Forall_cons; split; [by vm_compute|]). constructor. Qed.
Example C19_example : name_to_string ex_name = (* deadbeef0000000000000001ffffffff87654321 *)
  [100; 101; 97; 100; 98; 101; 101; 102; 48; 48; 48; 48; 48; 48; 48; 48; 48; 48; 48; 48; 48; 48; 48; 49;
   102; 102; 102; 102; 102; 102; 102; 102; 56; 55; 54; 53; 52; 51; 50; 49].
Proof. by vm_compute. Qed.
(** a text with a plus that is read as a name but is not printed for any *)
Example C19_plus : string_to_name (mjoin (replicate 5 ([43] ++ replicate 6 48 ++ [49]))) = Ok (replicate 5 1%N).
Proof. by vm_compute. Qed.
(** a string with a character across two words makes the function panic *)
Definition odd_name : bytes := replicate 7 48 ++ [195; 169] ++ replicate 31 48.
Theorem C19_panics_refuted : ∃ s, from_utf8_lossy s = s ∧ length s = 40 ∧ string_to_name s = Panic.
Proof. exists odd_name. vm_compute. split_and!; reflexivity. Qed.
Print Assumptions C19_panics_refuted.

(** ** C20.  Label files. *)
Theorem C20_round_trip l : label_ok l → get_label_from_data (lb_name l) (label_contents l) = Ok l.
Proof. exact (label_round l). Qed.
Print Assumptions C20_round_trip.
Theorem C20_new_label name : get_label_from_data name new_label_contents = Ok (label_new_empty name).
Proof. exact (new_label_text name). Qed.
Print Assumptions C20_new_label.
(** exactly the texts of the two-line form are accepted, with the numbers they denote *)
Theorem C20_accepted name s l : get_label_from_data name s = Ok l ↔
  lb_name l = name ∧ (lb_version l ≤ u64_max)%N ∧ label_text s (lb_version l) (lb_layer l).
Proof. exact (get_label_from_data_spec name s l). Qed.
Print Assumptions C20_accepted.
Theorem C20_unambiguous s v n v' n' : (v ≤ u64_max)%N → (v' ≤ u64_max)%N →
  label_text s v n → label_text s v' n' → v = v' ∧ n = n'.
Proof. exact (label_text_unique s v n v' n'). Qed.
Print Assumptions C20_unambiguous.
Theorem C20_injective l l' : label_ok l → label_ok l' → lb_name l = lb_name l' → label_contents l = label_contents l' → l = l'.
Proof. exact (label_contents_inj l l'). Qed.
Print Assumptions C20_injective.
(** a file that was cut off is an error, unless only the last line feed is missing *)
Theorem C20_cut_off l k : label_ok l → k < length (label_contents l) →
  (∃ e, get_label_from_data (lb_name l) (take k (label_contents l)) = Err e)
  ∨ get_label_from_data (lb_name l) (take k (label_contents l)) = Ok l
    ∧ k = length (label_contents l) - 1 ∧ lb_layer l ≠ None.
Proof. exact (label_prefix l k). Qed.
Print Assumptions C20_cut_off.
Definition ex_label : label := Label [109; 97; 105; 110] (Some ex_name) u64_max.
Example C20_example : label_ok ex_label ∧ length (label_contents ex_label) = 62 ∧
  label_contents (Label [] None 17) = [49; 55; 10; 10].
Proof. split; [split; [by vm_compute|exact ex_name_ok]|]. by vm_compute. Qed.
(** a file of the two-line form with an unusual second line makes reading panic *)
Theorem C20_panics_refuted : ∃ name s, get_label_from_data name s = Panic.
Proof. exists [], ([49; 10] ++ odd_name ++ [10]). by vm_compute. Qed.
Print Assumptions C20_panics_refuted.

(** ** C41.  Parent and rollup pointers.  What is read is taken for UTF-8; a text stays as it is, anything else is made
    a text. *)
Theorem C41_text s : from_utf8_lossy s = s ↔ utf8_text s.
Proof. exact (lossy_iff s). Qed.
Print Assumptions C41_text.
Theorem C41_made_text s : utf8_text (from_utf8_lossy s).
Proof. exact (lossy_valid s). Qed.
Print Assumptions C41_made_text.
Example C41_text_example : from_utf8_lossy (utf8_char 233 ++ utf8_char 8364 ++ utf8_char 128512) = utf8_char 233 ++ utf8_char 8364 ++ utf8_char 128512
  ∧ utf8_char 8364 = [226; 130; 172] ∧ from_utf8_lossy [237; 160; 128; 65] = utf8_char 65533 ++ utf8_char 65533 ++ utf8_char 65533 ++ [65].
Proof. vm_compute. split_and!; reflexivity. Qed.
Theorem C41_parent_round_trip n rest : name_ok n → read_parent (parent_contents n ++ rest) = Ok n.
Proof. exact (read_parent_round n rest). Qed.
Print Assumptions C41_parent_round_trip.
Theorem C41_parent_accepted s n : read_parent s = Ok n ↔ ∃ t rest, s = t ++ rest ∧ name_text t n ∧ name_ok n.
Proof. exact (read_parent_spec s n). Qed.
Print Assumptions C41_parent_accepted.
Theorem C41_rollup_round_trip n : name_ok n → read_rollup (rollup_contents n) = Ok n.
Proof. exact (read_rollup_round n). Qed.
Print Assumptions C41_rollup_round_trip.
Theorem C41_rollup_accepted s n : utf8_text s → read_rollup s = Ok n →
  ∃ v e1 ns e2, s = v ++ e1 ++ ns ++ e2 ∧ Forall (λ b, b ≠ 10) v ∧ eol e1 ∧ name_text ns n ∧ name_ok n ∧ (eol e2 ∨ e2 = []).
Proof. exact (read_rollup_utf8 s n). Qed.
Print Assumptions C41_rollup_accepted.
(** a pointer that was cut off is an error, unless only the last line feed is missing: it never points to another layer; *)
Theorem C41_parent_cut_off n k : name_ok n → k < length (parent_contents n) → read_parent (take k (parent_contents n)) = Err UnexpectedEof.
Proof. exact (parent_prefix n k). Qed.
Print Assumptions C41_parent_cut_off.
Theorem C41_rollup_cut_off n k : name_ok n → k < length (rollup_contents n) →
  (∃ e, read_rollup (take k (rollup_contents n)) = Err e)
  ∨ read_rollup (take k (rollup_contents n)) = Ok n ∧ k = length (rollup_contents n) - 1.
Proof. exact (rollup_prefix n k). Qed.
Print Assumptions C41_rollup_cut_off.
(** but a pointer that was half overwritten by another one may. *)
Theorem C41_half_overwritten_refuted : ∃ n n' k m, name_ok n ∧ name_ok n' ∧
  read_rollup (take k (rollup_contents n') ++ drop k (rollup_contents n)) = Ok m ∧ m ≠ n ∧ m ≠ n'.
Proof.
  exists [1; 2; 3; 4; 5]%N, [6; 7; 8; 9; 10]%N, 20, [6; 7; 3; 4; 5]%N. split; [split; [done|by repeat constructor]|].
  split; [split; [done|by repeat constructor]|]. split; [by vm_compute|done].
Qed.
Print Assumptions C41_half_overwritten_refuted.
Example C41_example : read_parent (parent_contents ex_name) = Ok ex_name ∧
  read_rollup (rollup_contents ex_name) = Ok ex_name ∧ read_parent (take 39 (parent_contents ex_name)) = Err UnexpectedEof ∧
  read_rollup (take 41 (rollup_contents ex_name)) = Err OtherError.
Proof. vm_compute. split_and!; reflexivity. Qed.
Theorem C41_panics_refuted : ∃ s, read_parent s = Panic.
Proof. exists odd_name. by vm_compute. Qed.
Print Assumptions C41_panics_refuted.
