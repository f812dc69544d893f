(** Vocabulary for stating what the builder does with ids that stand for nothing.
    Definitions only. *)
From Verif Require Import Prelude Succinct TripleFiles Merge Layer Builder Spec.

(** None of the ids of the triple is above the number of nodes and values, or of predicates,
    of the parent.  0 is the id of nothing. *)
Definition ids_within (st : stack) (t : triple) : Prop :=
  t_s t ≤ nv_count st ∧ t_p t ≤ pred_count st ∧ t_o t ≤ nv_count st.
(** One of the ids is 0. *)
Definition has_zero (t : triple) : Prop := t_s t = 0 ∨ t_p t = 0 ∨ t_o t = 0.

(** The calls with ids that this property is about.  Removing: any ids that are not above the
    numbers of the parent, whether or not they stand for a triple of strings.  Adding: ids of
    a triple of strings, or ids of which one is 0. *)
Definition id_call_within (st : stack) (c : op) : Prop :=
  match c with
  | AddValue _ | RemoveValue _ => True
  | AddId t => op_ok st c ∨ (has_zero t ∧ ids_within st t)
  | RemoveId t => ids_within st t
  end.
(** The same with any ids in removals. *)
Definition id_call_any (st : stack) (c : op) : Prop :=
  match c with
  | AddValue _ | RemoveValue _ | RemoveId _ => True
  | AddId t => op_ok st c ∨ (has_zero t ∧ ids_within st t)
  end.
(** The parent knows the three strings. *)
Definition strings_known (st : stack) (vt : vtriple) : Prop := ∃ t, id_vt st t = Some vt.

#[global] Instance op_ok_dec st c : Decision (op_ok st c).
Proof. unfold op_ok. apply _. Defined.
