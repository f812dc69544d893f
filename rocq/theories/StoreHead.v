(** Named graphs and the layer store together: the callers of [Head] get their layers from the calls of
    [Store], and all of them run on one store, interleaved in any way. *)
From Verif Require Import Prelude Names LabelConc Head Store.

(** A caller has a [StoreLayer] named [x]: a call returned it (mod.rs:46-63, 161-167, 262-363) *)
Definition held (tr : list gev) (x : lname) : Prop :=
  (∃ t k, GDone t k (Ok (RName x)) ∈ tr) ∨
  (∃ t y L, GDone t (SGet y) (Ok (RLayer (Some L))) ∈ tr ∧ l_name L = Some x).
(** [tr]: calls on the layer store; [its]: steps of the calls on named graphs.  The layers known there are layers that
    callers have, and their ancestors, with the parents that the parent files say. *)
Inductive cexec (cached : bool) : list gev → list hitem → gstate → hstate → Prop :=
  | c_nil : cexec cached [] [] gstate_init hstate_init
  | c_store tr its g h e g' :
      cexec cached tr its g h → gstep cached g e g' → e ≠ Some GCrash →
      cexec cached (tr ++ option_list e) its g' h
  | c_head tr its g h it h' :
      cexec cached tr its g h → hstep h it h' →
      (∀ x, x ∈ h_layers h' → x ∉ h_layers h →
        (∃ y, held tr y ∧ rtc (λ a b, s_parent (g_store g) a = Some b) y x) ∧ h_parents h' !! x = s_parent (g_store g) x) →
      cexec cached tr (its ++ [it]) g h'
  | c_crash tr its g h g' h' :
      cexec cached tr its g h → gstep cached g (Some GCrash) g' → h' = HState (h_layers h) (h_parents h) ∅ →
      cexec cached (tr ++ [GCrash]) (its ++ [HItem None None]) g' h'.
