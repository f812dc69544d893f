(** The directory label store on tokio's pool of blocking threads.  The calls of tokio::fs
    (directory.rs:171-307, locking.rs:87-104, 166-225) are run by a thread of the pool, and so is the
    wait for a lock that was not free at the first try (locking.rs:38-79, 94-97, 175-178, 195-198):
    that thread does nothing else until it has the lock.  The pool has at most [cap] threads (512
    unless the program that uses the store says otherwise); requests beyond that wait in a queue.
    Simplified: a request that does not wait for a lock is served in one step, when a thread is
    free; the queue may be served in any order; other users of the pool are left out. *)
From Verif Require Import Prelude Names LabelConc.

(** The request for a lock of a caller who did not get it at the first try: in the queue, or with a
    thread of the pool that waits in [lock_exclusive] or [lock_shared] (locking.rs:50-61) *)
Inductive request := Queued | Running.
Global Instance request_eq_dec : EqDecision request.
Proof. solve_decision. Defined.

Record pstate := PState { p_labels : lstate; p_requests : gmap tid request }.
Definition pstate_init : pstate := PState lstate_init ∅.
(** the threads of the pool that wait for a lock *)
Definition busy (w : gmap tid request) : nat := size (filter (λ x : tid * request, x.2 = Running) w).

(** the file whose lock comes next *)
Definition locking (p : pc) : option ino :=
  match p with PGetLock _ i | PSetLock _ _ i | PCreLock _ i => Some i | _ => None end.
(** locking.rs:94, 175, 195: whether [try_lock_shared] or [try_lock_exclusive] fails *)
Definition taken (s : lstate) (p : pc) (i : ino) : Prop :=
  ∃ nd, s_inodes s !! i = Some nd ∧
    (i_excl nd ≠ None ∨ i_shared nd ≠ [] ∧ match p with PGetLock _ _ => False | _ => True end).
(** what is done without the pool: looking at what was read and unlocking (locking.rs:149-160, 276-287);
    [seek] (directory.rs:193) is only reached when what was read is a label *)
Definition without_pool (p : pc) : bool :=
  match p with
  | PGetDone _ _ _ => true
  | PSetGot l _ _ d => match get_label_from_data (lb_name l) d with Ok _ => false | _ => true end
  | _ => false
  end.

(** a step of the caller [t], who gets on *)
Definition step_of (t : tid) (s : lstate) (e : option lev) (s' : lstate) : Prop :=
  lstep s e s' ∧ s_threads s' !! t ≠ s_threads s !! t ∧ ∀ u, u ≠ t → s_threads s' !! u = s_threads s !! u.

Inductive pstep (cap : nat) : pstate → option lev → pstate → Prop :=
  | pool_begin s w t s' :
      s_threads s !! t = None → step_of t s None s' →
      pstep cap (PState s w) None (PState s' w)
  | pool_without s w t p e s' :
      s_threads s !! t = Some p → without_pool p = true → step_of t s e s' →
      pstep cap (PState s w) e (PState s' w)
  | pool_work s w t p e s' :
      s_threads s !! t = Some p → locking p = None → without_pool p = false → busy w < cap → step_of t s e s' →
      pstep cap (PState s w) e (PState s' w)
  | pool_try s w t p i e s' :
      s_threads s !! t = Some p → locking p = Some i → w !! t = None → step_of t s e s' →
      pstep cap (PState s w) e (PState s' w)
  | pool_wait s w t p i :
      s_threads s !! t = Some p → locking p = Some i → w !! t = None → taken s p i →
      pstep cap (PState s w) None (PState s (<[t := Queued]> w))
  | pool_start s w t :
      w !! t = Some Queued → busy w < cap →
      pstep cap (PState s w) None (PState s (<[t := Running]> w))
  | pool_lock s w t p i e s' :
      s_threads s !! t = Some p → locking p = Some i → w !! t = Some Running → step_of t s e s' →
      pstep cap (PState s w) e (PState s' (delete t w)).

Inductive pexec (cap : nat) : list lev → pstate → Prop :=
  | pexec_nil : pexec cap [] pstate_init
  | pexec_step tr x e x' : pexec cap tr x → pstep cap x e x' → pexec cap (tr ++ option_list e) x'.
