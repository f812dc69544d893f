(** What it means that label calls happen one at a time.  Definitions only. *)
From Verif Require Import Prelude Names LabelSeq LabelConc LabelSpec LabelTimed.

(** A name has no label, a label that is being created, or a label *)
Inductive nstate := Absent | Making | Holding (l : label).
(** one call on a name, all at once, and what it returns *)
Inductive call_on : nstate → lev → nstate → Prop :=
  | on_get l t i : call_on (Holding l) (EvGet t (lb_name l) i (Ok (Some l))) (Holding l)
  | on_get_absent t n : call_on Absent (EvGet t n None (Ok None)) Absent
  | on_get_making t n i : call_on Making (EvGet t n i (Err InvalidData)) Making
  | on_set l nl t i : updates l nl → call_on (Holding l) (EvSet t l nl i (Ok (Some nl))) (Holding nl)
  | on_set_other m l nl t i : m ≠ l → call_on (Holding m) (EvSet t l nl i (Ok None)) (Holding m)
  | on_set_absent l nl t : call_on Absent (EvSet t l nl None (Err NotFound)) Absent
  | on_set_making l nl t i : call_on Making (EvSet t l nl i (Err InvalidData)) Making
  | on_create t n i : call_on Making (EvCreate t n i (Ok (Label n None 0))) (Holding (Label n None 0))
  | on_create_taken c t n k : c ≠ Absent → k = InvalidInput ∨ k = AlreadyExists → call_on c (EvCreate t n None (Err k)) c
  | on_delete c t n : c ≠ Absent → call_on c (EvDelete t n true) Absent
  | on_delete_absent t n : call_on Absent (EvDelete t n false) Absent.
(** calls on a name, one after the other; in between the creation of a label may begin *)
Inductive calls_on : nstate → list lev → nstate → Prop :=
  | calls_nil c : calls_on c [] c
  | calls_begin es c : calls_on Making es c → calls_on Absent es c
  | calls_cons c e c' es c'' : call_on c e c' → calls_on c' es c'' → calls_on c (e :: es) c''.

Definition ev_tid (e : lev) : tid := match e with EvGet t _ _ _ | EvSet t _ _ _ _ | EvCreate t _ _ _ | EvDelete t _ _ => t end.
(** the call that an answer belongs to *)
Definition answers (c : lcall) (e : lev) : Prop :=
  match c, e with
  | CGet n, EvGet _ m _ _ => m = n
  | CSet l layer, EvSet _ m nl _ _ => m = l ∧ with_updated_layer l layer = Some nl
  | CCreate n, EvCreate _ m _ _ => m = n
  | CDelete n, EvDelete _ m _ => m = n
  | _, _ => False
  end.
(** A call: when it began, when it returned, and what.  Between the two its caller did nothing else. *)
Notation timed := (nat * nat * lev)%type (only parsing).
Definition call_in (tr : list titem) (x : timed) : Prop :=
  let '(b, j, e) := x in
  b < j ∧ tr !! j = Some (Ends e) ∧ (∃ c, tr !! b = Some (Begins (ev_tid e) c) ∧ answers c e) ∧
  ∀ k, b < k < j → ∀ c, tr !! k ≠ Some (Begins (ev_tid e) c).
(** one call returned before the other began *)
Definition earlier (x y : timed) : Prop := x.1.2 < y.1.1.
Definition named (n : bytes) (xs : list timed) : list lev := on_name n (snd <$> xs).
(** All calls that returned can be put in an order in which they might have been made one after the other: it keeps the order of calls
    of which one returned before the other began, and on every name they answer as if each had happened all at once. *)
Definition linearizable (tr : list titem) : Prop := ∃ xs : list timed,
  NoDup xs ∧ (∀ x, x ∈ xs ↔ call_in tr x) ∧
  (∀ i j x y, i < j → xs !! i = Some x → xs !! j = Some y → ¬ earlier y x) ∧
  ∀ n, ∃ c, calls_on Absent (named n xs) c.
(** what was returned *)
Fixpoint ends (tr : list titem) : list lev :=
  match tr with [] => [] | Begins _ _ :: tr => ends tr | Ends e :: tr => e :: ends tr end.
