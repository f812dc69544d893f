(** UTF-8 (Unicode 15, table 3-6), independently of the functions of [Names]. *)
From Verif Require Import Prelude.

(** code points, without the surrogates *)
Definition scalar (c : N) : Prop := (c < 55296 ∨ 57344 ≤ c < 1114112)%N.
Definition utf8_char (c : N) : list nat :=
  N.to_nat <$>
  (if decide (c < 128) then [c]
   else if decide (c < 2048) then [192 + c / 64; 128 + c mod 64]
   else if decide (c < 65536) then [224 + c / 4096; 128 + c / 64 mod 64; 128 + c mod 64]
   else [240 + c / 262144; 128 + c / 4096 mod 64; 128 + c / 64 mod 64; 128 + c mod 64])%N.
(** a text *)
Definition utf8_text (s : list nat) : Prop := ∃ cs, Forall scalar cs ∧ s = mjoin (utf8_char <$> cs).
