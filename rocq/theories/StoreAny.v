(** The executions of Store.v without what is left out of account there: rollups of rollups, partial rollups of layers
    with different id maps, imprecise rollups with another bound, merges of layers with id maps, and builders that are
    given ids of no triple.  Definitions only. *)
From Verif Require Import Prelude Succinct TripleFiles Merge Layer Builder Rollup Squash MergeBase Names Spec Store SpecStore.

(** Only for imports the assumptions remain: the requested names are unused, and parents come first (pack.rs:63-134).
    Everything else is as in [gstep]. *)
Definition is_import (k : scall) : bool := match k with SImport _ _ => true | _ => false end.
Inductive astep (cached : bool) : gstate → option gev → gstate → Prop :=
  | a_start s c th t k :
      th !! t = None → call_ok k →
      astep cached (GState s c th) (Some (GStart t k)) (GState s c (<[t := (k, program cached k)]> th))
  | a_look s c th t k f :
      th !! t = Some (k, Look f) →
      astep cached (GState s c th) None (GState s c (<[t := (k, f s c)]> th))
  | a_alloc s c th t k f n :
      th !! t = Some (k, Alloc f) → s !! n = None →
      astep cached (GState s c th) None (GState (new_dir n s) c (<[t := (k, f n)]> th))
  | a_put s c th t k w p :
      th !! t = Some (k, Put w p) →
      astep cached (GState s c th) None (GState (write_store w s) (write_cache w c) (<[t := (k, p)]> th))
  | a_assume s c th t k b p :
      th !! t = Some (k, Assume b p) → (is_import k = true → b = true) →
      astep cached (GState s c th) None (GState s c (<[t := (k, p)]> th))
  | a_done s c th t k r :
      th !! t = Some (k, Ret r) →
      astep cached (GState s c th) (Some (GDone t k r)) (GState s c (delete t th))
  | a_drop s c th x :
      astep cached (GState s c th) None (GState s (delete x c) th)
  | a_crash s c th :
      astep cached (GState s c th) (Some GCrash) (GState s ∅ ∅).
Inductive aexec (cached : bool) : gstate → list gev → gstate → Prop :=
  | aexec_nil g : aexec cached g [] g
  | aexec_step g tr g' e g'' : aexec cached g tr g' → astep cached g' e g'' → aexec cached g (tr ++ option_list e) g''.

(** What never changes: the files that a directory has, the parent it has, and that a base layer has none. *)
Record kept (s s' : store) : Prop := {
  kept_files : ∀ x l, s_files s x = Some l → s_files s' x = Some l;
  kept_parent : ∀ x p, s_parent s x = Some p → s_parent s' x = Some p;
  kept_base : ∀ x l, s_files s x = Some l → l_neg l = None → s_parent s x = None → s_parent s' x = None }.
