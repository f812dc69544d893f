(** Vocabulary for closures that panic.  Definitions only. *)
From Verif Require Import Prelude Layer Builder StoreBuilder BuilderPanic.

(** The calls of the closures that returned, in their order *)
Definition closure_ops (tr : list pev) : list op := mjoin (omap (λ e, match e with PClosure _ cs => Some cs | _ => None end) tr).
(** A closure panicked *)
Definition panicked (tr : list pev) : Prop := ∃ t, PPanics t ∈ tr.
