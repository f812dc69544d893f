(** Vocabulary for stating properties of layers: which string triples a layer shows, which
    string triples a sequence of builder calls asks to add and to remove, and which layers can
    come about.  Definitions only. *)
From Verif Require Import Prelude Succinct TripleFiles Merge Layer Builder Rollup Squash MergeBase.

(** The string triples a layer shows: [triples()] followed by [id_triple_to_string] on every
    triple.  [None] when one of the calls panics or an id does not resolve. *)
Definition shown (st : stack) : option (list vtriple) :=
  ts ← triples st; mapM (λ t, r ← id_triple_to_string st t; r) ts.

(** The string triple named by an id triple. *)
Definition id_vt (st : stack) (t : triple) : option vtriple :=
  match id_triple_to_string st t with Some (Some vt) => Some vt | _ => None end.
(** The string triple a call of the builder is about, given the parent. *)
Definition op_vt (st : stack) (c : op) : option vtriple :=
  match c with
  | AddValue vt | RemoveValue vt => Some vt
  | AddId t | RemoveId t => id_vt st t
  end.
Definition op_added (st : stack) (c : op) : option vtriple :=
  match c with AddValue _ | AddId _ => op_vt st c | _ => None end.
Definition op_removed (st : stack) (c : op) : option vtriple :=
  match c with RemoveValue _ | RemoveId _ => op_vt st c | _ => None end.
(** The string triples that calls of the builder ask to add, and to remove. *)
Definition added (st : stack) (cs : list op) : list vtriple := omap (op_added st) cs.
Definition removed (st : stack) (cs : list op) : list vtriple := omap (op_removed st) cs.
(** Ids given to the builder are ids of a triple of strings of the parent; there is no
    condition on calls with strings. *)
Definition op_ok (st : stack) (c : op) : Prop := is_Some (op_vt st c).

(** What a set of additions and a set of removals do to a set of triples: a triple that is
    both added and removed stays as it was. *)
Definition after_change (A R old : list vtriple) (vt : vtriple) : Prop :=
  (vt ∈ A ∧ vt ∉ R) ∨ (vt ∈ old ∧ ¬ (vt ∈ R ∧ vt ∉ A)).

(** A hash map may list its entries in any order. *)
Definition hash_order {A} (f : list A → list A) : Prop := ∀ m, f m ≡ₚ m.

(** One commit. *)
Definition commits_to (st : stack) (cs : list op) (st' : stack) : Prop :=
  Forall (op_ok st) cs ∧
  ∃ nvord prord, hash_order nvord ∧ hash_order prord ∧ build nvord prord st cs = Some st'.

(** Two layers give the same answers to every query of layer.rs:12-166.  [single_triple_sp]
    may pick another of several matching triples, and [triples_p] is compared for ids of
    predicates, which start at 1. *)
Record same_answers (st st' : list layer) : Prop := {
  sa_counts : all_counts st = all_counts st';
  sa_nv : nv_count st = nv_count st';
  sa_preds : pred_count st = pred_count st';
  sa_subject_id : ∀ s, subject_id st s = subject_id st' s;
  sa_predicate_id : ∀ s, predicate_id st s = predicate_id st' s;
  sa_object_node_id : ∀ s, object_node_id st s = object_node_id st' s;
  sa_object_value_id : ∀ v, object_value_id st v = object_value_id st' v;
  sa_id_subject : ∀ i, id_subject st i = id_subject st' i;
  sa_id_predicate : ∀ i, id_predicate st i = id_predicate st' i;
  sa_id_object : ∀ i, id_object st i = id_object st' i;
  sa_is_node : ∀ i, id_object_is_node st i = id_object_is_node st' i;
  sa_exists : ∀ t, triple_exists st t = triple_exists st' t;
  sa_value_exists : ∀ vt, value_triple_exists st vt = value_triple_exists st' vt;
  sa_triples : triples st = triples st';
  sa_triples_s : ∀ s, triples_s st s = triples_s st' s;
  sa_triples_sp : ∀ s p, triples_sp st s p = triples_sp st' s p;
  sa_triples_p : ∀ p, 1 ≤ p → triples_p st p = triples_p st' p;
  sa_triples_o : ∀ o, triples_o st o = triples_o st' o;
  sa_single : ∀ s p, single_triple_sp st s p = Some None ↔ single_triple_sp st' s p = Some None;
  sa_count : triple_count st = triple_count st';
  sa_shown : shown st = shown st' }.

(** Rollups.  A stack of layers is replaced: all of it ([rollup]), its topmost layers
    ([rollup_upto], [imprecise_rollup_upto]), or a part further down, when an ancestor is
    rolled up after its descendants were built.  The side condition of [rolled_upto] is met by
    loaded layers that are not partial rollups themselves. *)
Inductive rolled : list layer → list layer → Prop :=
  | rolled_full st l : st ≠ [] → rollup st = Some l → rolled st [l]
  | rolled_imprecise mem st l : mem ≠ [] → st ≠ [] → imprecise_rollup_upto mem = Some l → rolled (mem ++ st) (l :: st)
  | rolled_upto mem disk st l : mem ++ disk ≠ [] → st ≠ [] → Forall (λ k, l_nvmap k = l_pmap k) mem →
      rollup_upto mem disk = Some l → rolled (mem ++ disk ++ st) (l :: st)
  | rolled_below top st st' : rolled st st' → rolled (top ++ st) (top ++ st').

(** Steps that lead from a layer to a layer that carries on from it. *)
Inductive step : list layer → list layer → Prop :=
  | step_commit st cs st' : commits_to st cs st' → step st st'
  | step_rollup st st' : rolled st st' → step st st'.
(** Layers that can come about, and base layers that are written as such; the empty stack is
    the missing parent of a base layer. *)
Inductive reachable : list layer → Prop :=
  | reach_nil : reachable []
  | reach_step st st' : reachable st → step st st' → reachable st'
  | reach_squash_upto top st l : reachable (top ++ st) → st ≠ [] → squash_upto top st = Some l → reachable (l :: st)
  | reach_based l : based l → reachable [l]
with based : layer → Prop :=
  | based_commit cs l : commits_to [] cs [l] → based l
  | based_squash st l : reachable st → st ≠ [] → squash st = Some l → based l
  | based_merge ls l : (∀ k, k ∈ ls → based k) → merge_base_layers ls = Some l → based l.

(** The dictionaries of a layer hold the strings of the triples [L], each once, and nothing
    else. *)
Record exact_strings (l : layer) (L : list vtriple) : Prop := {
  es_nodes : ∀ s, s ∈ l_nodes l ↔ ∃ vt, vt ∈ L ∧ (s = vt.1.1 ∨ inl s = vt.2);
  es_preds : ∀ p, p ∈ l_preds l ↔ ∃ vt, vt ∈ L ∧ p = vt.1.2;
  es_vals : ∀ v, v ∈ l_vals l ↔ ∃ vt, vt ∈ L ∧ inr v = vt.2;
  es_nodup : NoDup (l_nodes l) ∧ NoDup (l_preds l) ∧ NoDup (l_vals l) }.
