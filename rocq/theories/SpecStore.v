(** Vocabulary for stating properties of a layer store by names.  Definitions only. *)
From Verif Require Import Prelude Succinct TripleFiles Merge Layer Builder Rollup Squash MergeBase Names Spec Store.

(** The layer [x] is in the store: its files and those of its ancestors are there.  The list
    has the names and the layers as they were written, from [x] down to its base layer. *)
Inductive stored (s : store) : lname → list (lname * layer) → Prop :=
  | stored_base x l : s_files s x = Some l → l_neg l = None → s_parent s x = None → stored s x [(x, l)]
  | stored_child x l p c : s_files s x = Some l → is_Some (l_neg l) → s_parent s x = Some p →
      stored s p c → stored s x ((x, l) :: c).

(** The states a store can be in, and what happened before. *)
Definition reached (cached : bool) (tr : list gev) (g : gstate) : Prop := gexec cached gstate_init tr g.

(** [a] is a proper ancestor of [x]; both are in the store. *)
Definition proper_ancestor (s : store) (x a : lname) : Prop :=
  ∃ top ca, stored s x (top ++ ca) ∧ stored s a ca ∧ top ≠ [].

(** The names of a layer and its ancestors, from the top down, as the parent files say. *)
Inductive ancestry (s : store) : lname → list lname → Prop :=
  | ancestry_base x : s_parent s x = None → ancestry s x [x]
  | ancestry_child x p ns : s_parent s x = Some p → ancestry s p ns → ancestry s x (x :: ns).
Definition child_of (s : store) (x p : lname) : Prop := s_parent s x = Some p.

(** Two results of loading a layer are the same, up to how the layers are put together: no layer, or a
    failure, or a layer with the same name, parent and answers. *)
Definition alike (r r' : outcome (option loaded)) : Prop :=
  match r, r' with
  | Ok (Some L), Ok (Some L') => l_name L = l_name L' ∧ l_parent L = l_parent L' ∧ same_answers (layers L) (layers L')
  | Ok None, Ok None => True
  | Err _, Err _ | Err _, Panic | Panic, Err _ | Panic, Panic => True
  | _, _ => False
  end.
(** The calls that make a layer with a new name. *)
Definition makes_new (k : scall) : Prop :=
  match k with SBase _ _ _ | SChild _ _ _ _ | SSquash _ | SSquashUpto _ _ | SMerge _ => True | _ => False end.
(** The layer that a call works on, for the calls that name one. *)
Definition call_target (k : scall) : option lname :=
  match k with
  | SGet x | SChild _ _ x _ | SRollup x | SRollupUpto x _ | SImprecise x _ | SSquash x | SSquashUpto x _ => Some x
  | SBase _ _ _ | SMerge _ | SImport _ _ => None
  end.
(** What the calls say of a layer that is not there: loading finds nothing, the others fail with "not found". *)
Definition not_there (k : scall) (r : outcome sres) : Prop :=
  match k with SGet _ => r = Ok (RLayer None) | _ => r = Err NotFound end.
