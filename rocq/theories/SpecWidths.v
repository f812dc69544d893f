(** What tdb-succinct's [util::calculate_width] is relied on for: every number up to [m] can be written with [width m] bits. *)
From Verif Require Import Prelude.
Definition enough (width : nat → nat) : Prop := ∀ n m, n ≤ m → n < 2 ^ width m.
