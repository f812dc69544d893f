(** What the properties of the archive store say, in terms of the calls made *)
From Verif Require Import Prelude Names FileNames Archive ArchiveStore.

(** the bytes successfully written to a file, in order *)
Definition write_of (h : nat) (i : aitem) : option bytes :=
  match i with IWrite h' b (Ok _) => if decide (h' = h) then Some b else None | _ => None end.
Definition writes_to (h : nat) (tr : list aitem) : bytes := mjoin (omap (write_of h) tr).
(** by these calls the file [ft] of layer [n] was opened, given the contents [b] and synced *)
Definition file_written (tr : list aitem) (n : lname) (ft : nat) (b : bytes) : Prop :=
  ∃ h, IOpen n ft h ∈ tr ∧ ISync h (Ok tt) ∈ tr ∧ b = writes_to h tr.
(** the name was given to a new layer only once; names are random, or chosen by who imports *)
Definition created_once (n : lname) (tr : list aitem) : Prop :=
  ∀ tr1 tr2, tr = tr1 ++ ICreate n (Ok tt) :: tr2 → ICreate n (Ok tt) ∉ tr1.

(** ** Readers: what a sequence of calls of [poll_read], each with its room, has given *)
Inductive polls {S} (step : S → nat → poll → S → Prop) (s : S) : list (nat * poll) → S → Prop :=
  | polls_nil : polls step s [] s
  | polls_snoc tr s1 room p s2 : polls step s tr s1 → step s1 room p s2 → polls step s (tr ++ [(room, p)]) s2.
Definition delivered (tr : list (nat * poll)) : bytes :=
  mjoin ((λ x : nat * poll, match x.2 with PollOk b => b | _ => [] end) <$> tr).
(** the reader delivers [data] in order, never more than there is room for, and reports the end
    (a successful read of nothing although there is room) only when everything is delivered *)
Definition reads_exactly (data : bytes) (tr : list (nat * poll)) : Prop :=
  (∃ rest, data = delivered tr ++ rest) ∧
  (∀ room p, (room, p) ∈ tr → p ≠ PollErr ∧ ∀ b, p = PollOk b → length b ≤ room) ∧
  (∀ tr1 room tr2, tr = tr1 ++ (room, PollOk []) :: tr2 → 0 < room → delivered tr1 = data).
(** the two readers of archive.rs *)
Definition bytes_step (s : bytes) (room : nat) (p : poll) (s' : bytes) : Prop :=
  ∃ b, bytes_poll s room = (b, s') ∧ p = PollOk b.
Definition slice_step (errors : bool) (s : bytes * nat) (room : nat) (p : poll) (s' : bytes * nat) : Prop :=
  ∃ o, os_read_ok s.1 room o ∧ (errors = false → o ≠ OsError) ∧ slice_poll s room o = (p, s').
