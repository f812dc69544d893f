(** Vocabulary for stating that calls on labels and named graphs end.  Definitions only. *)
From Verif Require Import Prelude Names LabelConc LabelSpec LabelPool Head HeadSpec.

(** A call that is running does something: no call begins, and something changes (writing nothing is not counted). *)
Definition goes_on (s s' : lstate) : Prop :=
  (∃ e, lstep s e s') ∧ s' ≠ s ∧ ∀ t, s_threads s !! t = None → s_threads s' !! t = None.

(** A call on a named graph that is running does something: no call begins and no layer is committed, and it is not a
    call of the label store alone. *)
Definition heads_go_on (x y : list hitem * hstate) : Prop :=
  ∃ it, y.1 = x.1 ++ [it] ∧ hstep x.2 it y.2 ∧ (y.2 ≠ x.2 ∨ it_lev it = None) ∧
    h_threads x.2 ≠ ∅ ∧ h_layers y.2 = h_layers x.2 ∧ ∀ t, h_threads x.2 !! t = None → h_threads y.2 !! t = None.
(** the label store goes on to answer as it promises *)
Definition served (x : list hitem * hstate) : Prop := ∀ n, serves n x.1.
(** the caller [t] tried to update a label, and the label was another one by then *)
Definition lost (t : tid) (it : hitem) : bool :=
  match it_lev it with Some (EvSet u _ _ _ (Ok None)) => bool_decide (u = t) | _ => false end.

(** The same on a pool of threads: a call that is running does something, or a request for a lock gets a thread *)
Definition pool_goes_on (cap : nat) (x y : pstate) : Prop :=
  (∃ e, pstep cap x e y) ∧ ∀ t, s_threads (p_labels x) !! t = None → s_threads (p_labels y) !! t = None.

(** A caller has locked a file, for itself alone or together with other readers *)
Definition has_locked (p : pc) (i : ino) (alone : bool) : Prop :=
  match p with
  | PGetRead _ j | PGetDone _ j _ => j = i ∧ alone = false
  | PSetRead _ _ j | PSetGot _ _ j _ | PSetWrite _ _ j _ _ | PCreWrite _ j _ _ => j = i ∧ alone = true
  | _ => False
  end.
(** A caller has come to lock a file *)
Definition wants_lock (p : pc) (i : ino) (alone : bool) : Prop :=
  match p with
  | PGetLock _ j => j = i ∧ alone = false
  | PSetLock _ _ j | PCreLock _ j => j = i ∧ alone = true
  | _ => False
  end.
(** Another caller is in the way of [t] *)
Definition in_the_way (s : lstate) (t : tid) (i : ino) (alone : bool) : Prop :=
  ∃ u q a, u ≠ t ∧ s_threads s !! u = Some q ∧ has_locked q i a ∧ (a || alone) = true.
