(** Model of [StoreLayerBuilder], src/store/mod.rs:38-225: a builder shared between threads, and
    the calls that copy changes from other layers.  [None] of an option result is a panic. *)
From Verif Require Import Prelude Succinct TripleFiles Merge Layer Builder.

(** ** Sharing, mod.rs:45-165 *)
Notation btid := nat (only parsing).
(** The cell behind the lock; the builders that committing threads have taken out of it; what was
    written, which [commit] reads back *)
Record bstate := BState {
  b_cell : option builder;
  b_taken : gmap btid builder;
  b_written : list (list layer) }.
Definition bstate_new (st : stack) : bstate := BState (Some (builder_new st)) ∅ [].

(** What a commit returned: the new layer, the error that the builder has been committed, or any
    other error *)
Inductive commit_result := Committed (st : list layer) | AlreadyCommitted | CommitFailed.
(** The calls that returned *)
Inductive bev :=
  | BOp (t : btid) (c : op) (ok : bool)
  | BAsk (t : btid) (b : bool)            (* committed(), mod.rs:116-121 *)
  | BCommit (t : btid) (r : commit_result).

(** Steps of the threads, on a builder with parent [st].  The calls of mod.rs:66-121 hold the lock
    while they work, so each is one step.  A commit (mod.rs:124-149) first takes the builder, then
    writes the layer, which may fail.  The order in which hash maps list their entries is arbitrary. *)
Inductive bstep (st : stack) : bstate → option bev → bstate → Prop :=
  | b_op s t c b b' :
      b_cell s = Some b → do_op st b c = Some b' →
      bstep st s (Some (BOp t c true)) (BState (Some b') (b_taken s) (b_written s))
  | b_op_late s t c :
      b_cell s = None → bstep st s (Some (BOp t c false)) s
  | b_ask s t :
      bstep st s (Some (BAsk t (bool_decide (b_cell s = None)))) s
  | b_take s t b :
      b_cell s = Some b → b_taken s !! t = None →
      bstep st s None (BState None (<[t := b]> (b_taken s)) (b_written s))
  | b_commit_late s t :
      b_cell s = None → bstep st s (Some (BCommit t AlreadyCommitted)) s
  | b_commit s t b nvord prord l :
      b_taken s !! t = Some b → (∀ m, nvord m ≡ₚ m) → (∀ m, prord m ≡ₚ m) → commit nvord prord st b = Some l →
      bstep st s (Some (BCommit t (Committed (l :: st)))) (BState (b_cell s) (delete t (b_taken s)) ((l :: st) :: b_written s))
  | b_commit_fails s t b :
      b_taken s !! t = Some b →
      bstep st s (Some (BCommit t CommitFailed)) (BState (b_cell s) (delete t (b_taken s)) (b_written s)).
Inductive bexec (st : stack) : list bev → bstate → Prop :=
  | bexec_nil : bexec st [] (bstate_new st)
  | bexec_step tr s e s' : bexec st tr s → bstep st s e s' → bexec st (tr ++ option_list e) s'.

(** ** Copying changes *)
(** mod.rs:196-206, 209-219: [for_each] over triples, with the call that each leads to *)
Definition for_triples (st : stack) (f : vtriple → option (list op)) (ts : list triple) : option (list op) :=
  mjoin <$> mapM (λ t, r ← id_triple_to_string st t; match r with Some vt => f vt | None => Some [] end) ts.
Definition unless_exists (st : stack) (c : op) (vt : vtriple) : option (list op) :=
  e ← value_triple_exists st vt; Some (if (e : bool) then [] else [c]).
(** mod.rs:193-224 [apply_diff]: the calls made on the builder.  [this] is its parent, [] for none.
    The calls are made by several threads (rayon), in any order. *)
Definition diff_ops (this other : stack) : option (list op) :=
  rs ← match this with
       | [] => Some []
       | _ => ts ← triples this; for_triples this (λ vt, unless_exists other (RemoveValue vt) vt) ts
       end;
  ts ← triples other;
  adds ← for_triples other (λ vt, match this with
                                  | [] => Some [AddValue vt]
                                  | _ => unless_exists this (AddValue vt) vt
                                  end) ts;
  Some (rs ++ adds).
(** mod.rs:167-190 [apply_delta]: [l] is the layer itself, as it is on disk (layer.rs:2299-2325
    reads its own files even if it is rolled up), [other] is the same layer as it is loaded *)
Definition delta_ops (l : layer) (other : stack) : option (list op) :=
  A ← l_additions l;
  R ← l_removals l;
  adds ← for_triples other (λ vt, Some [AddValue vt]) A;
  rems ← for_triples other (λ vt, Some [RemoveValue vt]) R;
  Some (adds ++ rems).
