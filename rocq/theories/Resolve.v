(** Partially resolved triples, layer/layer.rs:118-140, 192-325 *)
From Verif Require Import Prelude Succinct TripleFiles Merge Layer.

(** layer.rs:256-259 [PossiblyResolved] *)
Inductive possibly (T : Type) := Unresolved (x : T) | Resolved (i : nat).
Arguments Unresolved {T} x.
Arguments Resolved {T} i.
(** layer.rs:297-301 [PartiallyResolvedTriple] *)
Record ptriple := PTriple { pt_s : possibly str; pt_p : possibly str; pt_o : possibly obj }.
(** layer.rs:263-268 [is_resolved] *)
Definition is_resolved {T} (x : possibly T) : bool := match x with Resolved _ => true | Unresolved _ => false end.
(** layer.rs:193-199 [IdTriple::to_resolved] and 245-251 [ValueTriple::to_unresolved] *)
Definition to_resolved (t : triple) : ptriple := PTriple (Resolved (t_s t)) (Resolved (t_p t)) (Resolved (t_o t)).
Definition to_unresolved (vt : vtriple) : ptriple := PTriple (Unresolved vt.1.1) (Unresolved vt.1.2) (Unresolved vt.2).
Definition or_unresolved {T} (x : T) (i : option nat) : possibly T := match i with Some i => Resolved i | None => Unresolved x end.
(** layer.rs:118-140 [value_triple_to_partially_resolved] *)
Definition partially_resolved (st : stack) (vt : vtriple) : option ptriple :=
  s ← subject_id st vt.1.1;
  p ← predicate_id st vt.1.2;
  o ← object_id st vt.2;
  Some (PTriple (or_unresolved vt.1.1 s) (or_unresolved vt.1.2 p) (or_unresolved vt.2 o)).
(** layer.rs:305-330 [resolve_with]; the maps are given by their [get] *)
Definition resolve_with (nodes preds : str → option nat) (vals : val → option nat) (pt : ptriple) : option triple :=
  s ← match pt_s pt with Unresolved x => nodes x | Resolved i => Some i end;
  p ← match pt_p pt with Unresolved x => preds x | Resolved i => Some i end;
  o ← match pt_o pt with Unresolved (inl n) => nodes n | Unresolved (inr v) => vals v | Resolved i => Some i end;
  Some (mkt s p o).
