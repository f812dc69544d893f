(** Vocabulary for versions of named graphs.  Definitions only. *)
From Verif Require Import Prelude Names LabelConc Head.

(** no update of the named graph [n] succeeds in these steps *)
Definition untouched (n : bytes) (its : list hitem) : Prop :=
  ∀ it t l nl i r, it ∈ its → it_lev it = Some (EvSet t l nl i (Ok (Some r))) → lb_name l ≠ n.
