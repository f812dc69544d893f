(** Model of [with_builder], src/store/mod.rs:66-81, with closures of the caller that make any number of
    calls on the builder and may then panic.  The closure runs while the lock of the builder is held for
    writing, so that a panic poisons the lock; every later call takes the lock and panics ([expect],
    mod.rs:70-73, 117-120, 127-130).  A commit that has taken the builder does not look at the lock again.
    Simplified: a closure does not put another builder in the place of the one it is given. *)
From Verif Require Import Prelude Succinct TripleFiles Merge Layer Builder StoreBuilder.

Record pstate := PState { p_builder : bstate; p_poisoned : bool }.
Definition pstate_new (st : stack) : pstate := PState (bstate_new st) false.
(** What the callers see: [with_builder] with a closure that makes the calls [cs] and returns, or with one that
    panics, itself or within a call, and leaves the builder in any state; [with_builder] after the commit; [committed]; commits; a call that panics because of the lock *)
Inductive pev :=
  | PClosure (t : btid) (cs : list op)
  | PPanics (t : btid)
  | PLate (t : btid)
  | PAsk (t : btid) (b : bool)
  | PCommit (t : btid) (r : commit_result)
  | PPoisoned (t : btid).

Inductive pstep (st : stack) : pstate → option pev → pstate → Prop :=
  | p_closure s t cs b b' :
      b_cell s = Some b → do_ops st b cs = Some b' →
      pstep st (PState s false) (Some (PClosure t cs)) (PState (BState (Some b') (b_taken s) (b_written s)) false)
  | p_panics s t b b' :
      b_cell s = Some b →
      pstep st (PState s false) (Some (PPanics t)) (PState (BState (Some b') (b_taken s) (b_written s)) true)
  | p_late s t : b_cell s = None → pstep st (PState s false) (Some (PLate t)) (PState s false)
  | p_ask s t : pstep st (PState s false) (Some (PAsk t (bool_decide (b_cell s = None)))) (PState s false)
  | p_take s t b :
      b_cell s = Some b → b_taken s !! t = None →
      pstep st (PState s false) None (PState (BState None (<[t := b]> (b_taken s)) (b_written s)) false)
  | p_commit_late s t : b_cell s = None → pstep st (PState s false) (Some (PCommit t AlreadyCommitted)) (PState s false)
  | p_commit s p t b nvord prord l :
      b_taken s !! t = Some b → (∀ m, nvord m ≡ₚ m) → (∀ m, prord m ≡ₚ m) → commit nvord prord st b = Some l →
      pstep st (PState s p) (Some (PCommit t (Committed (l :: st))))
        (PState (BState (b_cell s) (delete t (b_taken s)) ((l :: st) :: b_written s)) p)
  | p_commit_fails s p t b :
      b_taken s !! t = Some b →
      pstep st (PState s p) (Some (PCommit t CommitFailed)) (PState (BState (b_cell s) (delete t (b_taken s)) (b_written s)) p)
  | p_poison s t : pstep st (PState s true) (Some (PPoisoned t)) (PState s true).
Inductive pexec (st : stack) : list pev → pstate → Prop :=
  | pexec_nil : pexec st [] (pstate_new st)
  | pexec_step tr s e s' : pexec st tr s → pstep st s e s' → pexec st (tr ++ option_list e) s'.
