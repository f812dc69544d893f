(** Model of the iterators that merge the additions and removals of all layers of a stack
    (src/layer/internal/{subject,predicate,object}_iterator.rs).  The three copies of the
    code differ only in the iterator of one layer and in the sort key, so they are modelled
    once, over both.  [None] is a panic (or a loop that does not end). *)
From Verif Require Import Prelude Succinct TripleFiles.

(** subject_iterator.rs:173-215, predicate_iterator.rs:98-115, object_iterator.rs:144-181:
    the [Opt...] wrappers, for layers that have no such files *)
Definition opt_next {St} (next : St → option (option triple * St)) (st : option St)
  : option (option triple * option St) :=
  match st with
  | None => Some (None, None)
  | Some s => '(o, s') ← next s; Some (o, Some s')
  end.
Definition opt_seek {St} (seek : St → option St) (st : option St) : option (option St) :=
  match st with
  | None => Some None
  | Some s => s' ← seek s; Some (Some s')
  end.
(** seeking all positives, then all negatives, subject_iterator.rs:248-270 *)
Fixpoint seek_all {St} (seek : St → option St) (sts : list (option St))
  : option (list (option St)) :=
  match sts with
  | [] => Some []
  | st :: sts' => st' ← opt_seek seek st; r ← seek_all seek sts'; Some (st' :: r)
  end.

Section merged.
  Context {St : Type} {K : Type} `{Ord K}.
  Context (key : triple → K).
  Context (next peek : St → option (option triple * St)).

  (** [iter_mut().map(|p| p.peek())] *)
  Fixpoint peek_all (sts : list St) : option (list (option triple) * list St) :=
    match sts with
    | [] => Some ([], [])
    | st :: sts' =>
        '(o, st') ← peek st;
        '(os, r) ← peek_all sts';
        Some (o :: os, st' :: r)
    end.

  (** [enumerate().filter(is_some).min_by_key(..)]: index of the first smallest element *)
  Fixpoint lowest (ps : list (option triple)) : option (nat * triple) :=
    match ps with
    | [] => None
    | None :: ps' => '(i, u) ← lowest ps'; Some (S i, u)
    | Some t :: ps' =>
        match lowest ps' with
        | Some (i, u) => if decide (olt (key u) (key t)) then Some (S i, u) else Some (0, t)
        | None => Some (0, t)
        end
    end.

  (** [self.positives[i].next().unwrap()] *)
  Fixpoint next_at (i : nat) (sts : list St) : option (triple * list St) :=
    match sts, i with
    | [], _ => None
    | st :: sts', 0 =>
        '(o, st') ← next st;
        match o with None => None | Some t => Some (t, st' :: sts') end
    | st :: sts', S i' => '(t, r) ← next_at i' sts'; Some (t, st :: r)
    end.

  (** subject_iterator.rs:296-301: look for the removal of [t] in the first [n] negatives *)
  Fixpoint cancel (n : nat) (t : triple) (negs : list St) : option (bool * list St) :=
    match n, negs with
    | 0, _ => Some (false, negs)
    | S _, [] => None
    | S n', st :: negs' =>
        '(o, st') ← peek st;
        if decide (o = Some t) then
          '(_, st'') ← next st'; Some (true, st'' :: negs')
        else
          '(b, r) ← cancel n' t negs'; Some (b, st' :: r)
    end.

  (** subject_iterator.rs:276-307, predicate_iterator.rs:147-180, object_iterator.rs:224-262 *)
  Fixpoint merged_next (fuel : nat) (its : list St * list St)
    : option (option triple * (list St * list St)) :=
    match fuel with
    | 0 => None
    | S f =>
        '(ps, pos) ← peek_all its.1;
        match lowest ps with
        | None => Some (None, (pos, its.2))
        | Some (i, _) =>
            '(t, pos') ← next_at i pos;
            '(found, negs') ← cancel i t its.2;
            if (found : bool) then merged_next f (pos', negs')
            else Some (Some t, (pos', negs'))
        end
    end.

  (** subject_iterator.rs:387-453 [InternalTripleStackIterator::next]; [true] marks an
      addition, [false] a removal *)
  Fixpoint change_next (fuel : nat) (its : list St * list St)
    : option (option (bool * triple) * (list St * list St)) :=
    match fuel with
    | 0 => None
    | S f =>
        '(ps, pos) ← peek_all its.1;
        '(ns, neg) ← peek_all its.2;
        match lowest ps, lowest ns with
        | None, None => Some (None, (pos, neg))
        | Some (i, _), None =>
            '(t, pos') ← next_at i pos; Some (Some (true, t), (pos', neg))
        | None, Some (j, _) =>
            '(t, neg') ← next_at j neg; Some (Some (false, t), (pos, neg'))
        | Some (i, t), Some (j, u) =>
            if decide (olt (key t) (key u)) then
              '(t, pos') ← next_at i pos; Some (Some (true, t), (pos', neg))
            else if decide (olt (key u) (key t)) then
              '(u, neg') ← next_at j neg; Some (Some (false, u), (pos, neg'))
            else
              '(_, pos') ← next_at i pos;
              '(_, neg') ← next_at j neg;
              change_next f (pos', neg')
        end
    end.
End merged.
