(** Vocabulary for several processes on one directory.  Definitions only. *)
From Verif Require Import Prelude Names Store StoreProcs.

(** The states that a directory and the processes that have it open can be in, and what happened before. *)
Definition preached (cached : nat → bool) (tr : list pev) (g : pstate) : Prop := pexec cached pstate_init tr g.
