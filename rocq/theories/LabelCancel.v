(** Label calls that are given up.  The calls of directory.rs:171-307 are asynchronous: whoever runs
    one may drop it at any [await], and dropping it drops the file it has locked, which unlocks it
    (locking.rs:149-160, 276-287).  An operation that a thread of tokio's pool has begun for the call
    is finished nevertheless, and the file stays open and locked until then; giving up a call in the
    middle of an operation is therefore giving it up before or after.  A thread that waits for a lock
    on behalf of a call that was given up (locking.rs:50-61) gets the lock at some time and drops it
    at once, which is left out. *)
From Verif Require Import Prelude Names LabelConc.

(** A call returned, or was given up: what it was, the file it had opened, and whether giving it up
    panicked *)
Inductive xlev :=
  | Returned (e : lev)
  | StopGet (t : tid) (n : bytes) (i : option ino) (r : outcome ())
  | StopSet (t : tid) (l nl : label) (i : option ino) (r : outcome ())
  | StopCreate (t : tid) (n : bytes) (i : option ino) (r : outcome ())
  | StopDelete (t : tid) (n : bytes).

Definition stop_event (t : tid) (p : pc) (r : outcome ()) : xlev :=
  match p with
  | PGetOpen n => StopGet t n None r
  | PGetLock n i | PGetRead n i | PGetDone n i _ => StopGet t n (Some i) r
  | PSetOpen l nl => StopSet t l nl None r
  | PSetLock l nl i | PSetRead l nl i | PSetGot l nl i _ | PSetWrite l nl i _ _ => StopSet t l nl (Some i) r
  | PCreStat n | PCreOpen n => StopCreate t n None r
  | PCreLock n i | PCreWrite n i _ _ => StopCreate t n (Some i) r
  | PDel n => StopDelete t n
  end.

(** locking.rs:149-160, 276-287: the file is unlocked, or closed *)
Definition released (s : lstate) (t : tid) (p : pc) : lstate :=
  match p with
  | PGetRead _ i | PGetDone _ i _ =>
      match s_inodes s !! i with Some nd => put s i (unlock_shared nd t) | None => s end
  | PSetRead _ _ i | PSetGot _ _ i _ | PSetWrite _ _ i _ _ | PCreWrite _ i _ _ =>
      match s_inodes s !! i with Some nd => put s i (unlock_excl nd) | None => s end
  | _ => s
  end.
(** locking.rs:153-156, 280-283: [try_into_std] refuses to give the file back while an operation on it
    is under way, and [expect] panics *)
Definition in_operation (p : pc) : Prop :=
  match p with PGetRead _ _ | PSetRead _ _ _ | PSetGot _ _ _ _ | PSetWrite _ _ _ _ _ | PCreWrite _ _ _ _ => True | _ => False end.

(** One step, where calls may be given up at the points [A] *)
Inductive xstep (A : pc → Prop) : lstate → option xlev → lstate → Prop :=
  | x_step s e s' : lstep s e s' → xstep A s (Returned <$> e) s'
  | x_stop s t p r :
      s_threads s !! t = Some p → A p → r = Ok () ∨ in_operation p ∧ r = Panic →
      xstep A s (Some (stop_event t p r)) (leave (released s t p) t)
  (* directory.rs:299: the file is removed after the call was given up *)
  | x_stop_delete s t n i :
      s_threads s !! t = Some (PDel n) → A (PDel n) → s_dir s !! n = Some i →
      xstep A s (Some (StopDelete t n)) (LState (delete n (s_dir s)) (s_inodes s) (delete t (s_threads s))).

Inductive xexec (A : pc → Prop) : list xlev → lstate → Prop :=
  | xexec_nil : xexec A [] lstate_init
  | xexec_step tr s e s' : xexec A tr s → xstep A s e s' → xexec A (tr ++ option_list e) s'.
