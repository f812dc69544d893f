(** Model of [apply_delta] and [apply_diff] on a builder that is shared with other callers,
    src/store/mod.rs:152-225.  The single calls and the commits are those of StoreBuilder.v. *)
From Verif Require Import Prelude Succinct TripleFiles Merge Layer Builder StoreBuilder.

(** The calls: [Delta l other] is [apply_delta] of the layer whose own files are [l] and which is loaded as
    [other], [Diff other] is [apply_diff].  The changes that they ask the builder for do not depend on the
    builder, because layers do not change (mod.rs:170-180, 196-219). *)
Inductive copy := Delta (l : layer) (other : list layer) | Diff (other : list layer).
Definition copy_ops (st : stack) (c : copy) : option (list op) :=
  match c with Delta l other => delta_ops l other | Diff other => diff_ops st other end.
(** What they return: Ok, an error from reading the layer (mod.rs:170-171), or a panic (mod.rs:202, 213, 216) *)
Inductive copy_result := CopyOk | CopyFailed | CopyPanic.

(** A copying call: what is left to do, whether it has left mod.rs:170-171 behind, whether one of its threads has
    panicked, and whether it has returned *)
Record copying := Copying { c_what : copy; c_left : list op; c_begun : bool; c_bad : bool; c_over : bool }.
(** The builder, the threads that are in a call of [commit], and the copying calls by number *)
Record cstate := CState { c_builder : bstate; c_wants : gset nat; c_copies : gmap nat copying }.
Definition cstate_new (st : stack) : cstate := CState (bstate_new st) ∅ ∅.

(** What happens: a call of the builder returned, a call of [commit] began, a copying call began, made one of
    its calls on the builder, or returned *)
Inductive citem :=
  | CSingle (e : bev)
  | CCommits (t : nat)
  | CStarts (k : nat) (c : copy)
  | CMakes (k : nat) (c : op) (ok : bool)
  | CReturns (k : nat) (r : copy_result).

Definition commits (e : bev) : option nat := match e with BCommit t _ => Some t | _ => None end.

(** The steps on a builder with parent [st].
    [c_single]: the calls of StoreBuilder.v other than commits.
    [c_commits], [c_takes], [c_committed]: a commit begins, takes the builder, and returns.
    [c_starts]: the triples are gone through by several threads (rayon), so the calls on the builder come in any
    order.
    [c_fails]: reading the layer failed.
    [c_makes], [c_misses]: one of the calls on the builder; if the builder is gone it gives an error, which
    [apply_delta] ignores (mod.rs:175-177, 183-185: the result of [map] is dropped) and on which [apply_diff]
    panics ([unwrap], mod.rs:202, 213, 216).  The lock of the builder is not held then, so it is not poisoned.
    [c_returns], [c_panics]: once all threads are done; a panic is passed on, and whether the other threads go
    through the rest then is left open. *)
Inductive cstep (st : stack) : cstate → option citem → cstate → Prop :=
  | c_single s ws cps e s' :
      commits e = None → bstep st s (Some e) s' →
      cstep st (CState s ws cps) (Some (CSingle e)) (CState s' ws cps)
  | c_commits s ws cps t :
      t ∉ ws → cstep st (CState s ws cps) (Some (CCommits t)) (CState s (ws ∪ {[t]}) cps)
  | c_takes s ws cps s' :
      bstep st s None s' → (∀ t, is_Some (b_taken s' !! t) → t ∈ ws) →
      cstep st (CState s ws cps) None (CState s' ws cps)
  | c_committed s ws cps e t s' :
      commits e = Some t → t ∈ ws → bstep st s (Some e) s' →
      cstep st (CState s ws cps) (Some (CSingle e)) (CState s' (ws ∖ {[t]}) cps)
  | c_starts s ws cps k c cs :
      cps !! k = None → copy_ops st c = Some cs →
      cstep st (CState s ws cps) (Some (CStarts k c)) (CState s ws (<[k := Copying c cs false false false]> cps))
  | c_fails s ws cps k l other cs :
      cps !! k = Some (Copying (Delta l other) cs false false false) →
      cstep st (CState s ws cps) (Some (CReturns k CopyFailed))
        (CState s ws (<[k := Copying (Delta l other) cs false false true]> cps))
  | c_makes s ws cps k c cs1 o cs2 b bad s' :
      cps !! k = Some (Copying c (cs1 ++ o :: cs2) b bad false) → bstep st s (Some (BOp k o true)) s' →
      cstep st (CState s ws cps) (Some (CMakes k o true)) (CState s' ws (<[k := Copying c (cs1 ++ cs2) true bad false]> cps))
  | c_misses s ws cps k c cs1 o cs2 b bad s' :
      cps !! k = Some (Copying c (cs1 ++ o :: cs2) b bad false) → bstep st s (Some (BOp k o false)) s' →
      cstep st (CState s ws cps) (Some (CMakes k o false))
        (CState s' ws (<[k := Copying c (cs1 ++ cs2) true (match c with Delta _ _ => bad | Diff _ => true end) false]> cps))
  | c_returns s ws cps k c b :
      cps !! k = Some (Copying c [] b false false) →
      cstep st (CState s ws cps) (Some (CReturns k CopyOk)) (CState s ws (<[k := Copying c [] b false true]> cps))
  | c_panics s ws cps k c cs b :
      cps !! k = Some (Copying c cs b true false) →
      cstep st (CState s ws cps) (Some (CReturns k CopyPanic)) (CState s ws (<[k := Copying c cs b true true]> cps)).
Inductive cexec (st : stack) : list citem → cstate → Prop :=
  | cexec_nil : cexec st [] (cstate_new st)
  | cexec_step tr s e s' : cexec st tr s → cstep st s e s' → cexec st (tr ++ option_list e) s'.
