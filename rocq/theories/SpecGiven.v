(** Vocabulary for saying which calls made a layer.  Definitions only. *)
From Verif Require Import Prelude Names Store.

(** The call [k] returned [r] and thereby gave the layer [x] to its caller: by its name, or because the caller had asked
    for it in an import. *)
Definition gave (k : scall) (r : outcome sres) (x : lname) : Prop :=
  r = Ok (RName x) ∨ ∃ pk ns, k = SImport pk ns ∧ r = Ok RDone ∧ x ∈ ns.
(** No call has been under way when the process stopped, and none is now. *)
Definition finished (tr : list gev) (g : gstate) : Prop := g_threads g = ∅ ∧ GCrash ∉ tr.
