(** Vocabulary for the calls on a shared builder that have returned.  Definitions only. *)
From Verif Require Import Prelude Layer Builder StoreBuilder.

(** The calls that took effect, in their order *)
Definition ok_op (e : bev) : option op := match e with BOp _ c true => Some c | _ => None end.
Definition ok_ops (tr : list bev) : list op := omap ok_op tr.
(** The commits that had the builder *)
Definition decisive (e : bev) : bool :=
  match e with BCommit _ (Committed _) => true | BCommit _ CommitFailed => true | _ => false end.
(** The calls that came too late *)
Definition too_late (e : bev) : bool :=
  match e with BOp _ _ false => true | BAsk _ true => true | BCommit _ AlreadyCommitted => true | _ => false end.
