(** Vocabulary for builders into which changes are copied while others use them.  Definitions only. *)
From Verif Require Import Prelude Layer Builder StoreBuilder SpecBuilder BuilderCopy.

(** The calls on the builder that have returned, with those made by copying calls *)
Definition builder_calls (tr : list citem) : list bev :=
  omap (λ x, match x with CSingle e => Some e | CMakes k c ok => Some (BOp k c ok) | _ => None end) tr.
(** The changes that were made, by anyone *)
Definition changes (tr : list citem) : list op := ok_ops (builder_calls tr).
(** The changes that copying call [k] has made *)
Definition made (k : nat) (tr : list citem) : list op :=
  omap (λ x, match x with CMakes k' c true => if decide (k' = k) then Some c else None | _ => None end) tr.
(** Some call of [commit] has begun *)
Definition commit_begun (tr : list citem) : Prop := ∃ t, CCommits t ∈ tr.
(** A call that shows that the builder has been committed: a commit that had it, or a call that came too late *)
Definition closes (x : citem) : Prop := ∃ e, x = CSingle e ∧ (decisive e = true ∨ too_late e = true).
