(** Contract models of the structures of the crate [tdb-succinct] (0.1.1), which /repo
    uses but does not contain.  Each structure is modelled by the sequence of numbers or
    bits it stores, and each function by what it computes on that sequence.  These
    definitions are part of the trusted base (DESIGN.md, section 4).  A panic of the crate
    (index out of range, unwrap of a missing select) is [None]. *)
From Verif Require Import Prelude.

(** [BitIndex::rank1], shifted: number of ones strictly before position [n]. *)
Definition rank1 (bs : list bool) (n : nat) : nat :=
  length (filter (λ b, b = true) (take n bs)).
#[global] Arguments rank1 : simpl never.

(** [BitIndex::select1]: position of the [k]-th one, counting from 1. *)
Fixpoint select1 (bs : list bool) (k : nat) : option nat :=
  match bs with
  | [] => None
  | b :: bs' =>
      if b then match k with
                | 0 => None
                | 1 => Some 0
                | S k' => S <$> select1 bs' k'
                end
      else match k with 0 => None | _ => S <$> select1 bs' k end
  end.

(** [AdjacencyList]: a number array and a bit array of the same length; a set bit closes
    the run of numbers that belong to one left-hand side.  Left-hand sides are numbered
    from 1. *)
Record adj := Adj { adj_nums : list nat; adj_bits : list bool }.

Definition left_count (a : adj) : nat := rank1 (adj_bits a) (length (adj_bits a)).
Definition right_count (a : adj) : nat := length (adj_nums a).
Definition num_at_pos (a : adj) (n : nat) : option nat := adj_nums a !! n.
Definition bit_at_pos (a : adj) (n : nat) : option bool := adj_bits a !! n.
(** [offset_for]: position of the first number of left-hand side [i]. *)
Definition offset_for (a : adj) (i : nat) : option nat :=
  match i with
  | 0 => None
  | 1 => Some 0
  | S i' => S <$> select1 (adj_bits a) i'
  end.
Definition left_at_pos (a : adj) (n : nat) : nat := S (rank1 (adj_bits a) n).
Definition pair_at_pos (a : adj) (n : nat) : option (nat * nat) :=
  num ← num_at_pos a n; Some (left_at_pos a n, num).

(** [adjacency_list_stream_pairs]: the stored pairs in order, without the padding
    entries (number 0) that fill gaps between left-hand sides. *)
Definition adj_pairs (a : adj) : list (nat * nat) :=
  imap (λ n num, (left_at_pos a n, num)) (adj_nums a).
Definition adj_stream_pairs (a : adj) : list (nat * nat) :=
  filter (λ pr, pr.2 ≠ 0) (adj_pairs a).

(** [AdjacencyListBuilder]: the bit array lags one behind the number array, because the
    bit of an entry is known only when the next pair arrives. *)
Record adjb := AdjB {
  b_nums : list nat; b_bits : list bool; b_last_left : nat; b_last_right : nat }.
Definition adjb_new : adjb := AdjB [] [] 0 0.
(** [push]: panics on pairs that are not in strictly ascending order; fills gaps between
    left-hand sides with a closed run holding the number 0. *)
Definition adjb_push (b : adjb) (left right : nat) : option adjb :=
  if decide (left < b_last_left b ∨ (left = b_last_left b ∧ right ≤ b_last_right b)) then None
  else
    let skip := left - b_last_left b in
    let '(bits, nums) :=
      if decide (b_last_left b = 0 ∧ skip = 1) then ([], [])
      else if decide (skip = 0) then ([false], [])
      else (replicate (if decide (b_last_left b = 0) then skip - 1 else skip) true,
            replicate (skip - 1) 0) in
    Some (AdjB (b_nums b ++ nums ++ [right]) (b_bits b ++ bits) left right).
(** [count]: number of bits pushed so far *)
Definition adjb_count (b : adjb) : nat := length (b_bits b).
Definition adjb_finalize (b : adjb) : adj :=
  Adj (b_nums b) (if decide (b_nums b = []) then b_bits b else b_bits b ++ [true]).
(** [push_all] *)
Fixpoint adjb_push_all (b : adjb) (prs : list (nat * nat)) : option adjb :=
  match prs with
  | [] => Some b
  | (l, r) :: prs' => b' ← adjb_push b l r; adjb_push_all b' prs'
  end.

(** [MonotonicLogArray]: an ascending list of numbers. *)
Definition mla_entry (l : list nat) (i : nat) : option nat := l !! i.
Definition mla_index_of (l : list nat) (x : nat) : option nat := fst <$> list_find (x =.) l.
(** first index whose entry is at least [x]; the length when there is none *)
Fixpoint mla_nearest_index_of (l : list nat) (x : nat) : nat :=
  match l with
  | [] => 0
  | y :: l' => if decide (x ≤ y) then 0 else S (mla_nearest_index_of l' x)
  end.

(** [WaveletTree]: a sequence of numbers; [lookup] gives the ascending positions of a
    number, [None] if it does not occur; [lookup_one] the first of them;
    [decode_one] the number at a position. *)
Definition wt_positions (l : list nat) (x : nat) : list nat :=
  filter (λ i, l !! i = Some x) (seq 0 (length l)).
Definition wt_lookup (l : list nat) (x : nat) : option (list nat) :=
  match wt_positions l x with [] => None | ps => Some ps end.
Definition wt_lookup_one (l : list nat) (x : nat) : option nat := head (wt_positions l x).
Definition wt_decode_one (l : list nat) (i : nat) : option nat := l !! i.

(** [StringDict], [TypedDict]: a sorted list of entries with ids from 1. *)
Definition dict_id {A} `{EqDecision A} (d : list A) (x : A) : option nat :=
  (λ p, S (fst p)) <$> list_find (x =.) d.
Definition dict_get {A} (d : list A) (id : nat) : option A :=
  match id with 0 => None | S i => d !! i end.
