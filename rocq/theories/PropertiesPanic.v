(** Property C66: a caller that panics leaves no half-made changes. *)
From Verif Require Import Prelude Layer Builder Spec ReachFacts PropertiesLayer StoreBuilder BuilderPanic SpecPanic PanicFacts.

(** ** C66.  [pexec st tr s]: callers that share a builder on the layer [st] can have seen the calls [tr], where a call
    may give [with_builder] a closure that panics.  A layer that is committed has all the calls of the closures that
    returned, one closure after the other, and nothing of a closure that panicked: there is none. *)
Theorem C66_content st tr s t st' : pexec st tr s → PCommit t (Committed st') ∈ tr → ¬ panicked tr ∧
  ∃ nvord prord, hash_order nvord ∧ hash_order prord ∧ build nvord prord st (closure_ops tr) = Some st'.
Proof. exact (panic_content st tr s t st'). Qed.
Print Assumptions C66_content.
(** After a panic no layer has been written and none is about to be *)
Theorem C66_nothing st tr s : pexec st tr s → panicked tr → b_written (p_builder s) = [] ∧ b_taken (p_builder s) = ∅.
Proof. exact (panic_nothing st tr s). Qed.
Print Assumptions C66_nothing.
(** and every later call of every caller panics *)
Theorem C66_dead st tr s pre t post : pexec st tr s → tr = pre ++ PPanics t :: post → ∀ e, e ∈ post → ∃ u, e = PPoisoned u.
Proof. exact (panic_dead st tr s pre t post). Qed.
Print Assumptions C66_dead.
(** Every layer written was returned by a commit *)
Theorem C66_written st tr s : pexec st tr s → ∀ st', st' ∈ b_written (p_builder s) → ∃ t, PCommit t (Committed st') ∈ tr.
Proof. exact (panic_written st tr s). Qed.
Print Assumptions C66_written.
(** Calls panic for no other reason *)
Theorem C66_cause st tr s pre u post : pexec st tr s → tr = pre ++ PPoisoned u :: post → panicked pre.
Proof. exact (poisoned_cause st tr s pre u post). Qed.
Print Assumptions C66_cause.
(** A closure that comes after the commit is not run, so that its panic does no harm: until some closure panics, every caller gets an answer *)
Theorem C66_late st tr s : pexec st tr s → b_cell (p_builder s) = None → ¬ panicked tr ∧
  (∀ t e s', pstep st s (Some e) s' → e ≠ PPanics t ∧ e ≠ PPoisoned t).
Proof. exact (panic_late st tr s). Qed.
Print Assumptions C66_late.

(** A first closure adds a triple, [committed] is asked, a second closure adds and removes, a commit succeeds, a further closure is refused *)
Definition c66_ops1 : list op := [AddValue (s_cow, s_likes, inl s_cow)].
Definition c66_ops2 : list op := [RemoveValue (s_cow, s_likes, inl s_duck); AddValue (s_duck, s_likes, inl s_cow)].
Definition c66_calls : list pev := [PClosure 1 c66_ops1; PAsk 2 false; PClosure 2 c66_ops2;
  PCommit 1 (Committed (default [] (build id id ex_base (c66_ops1 ++ c66_ops2)))); PLate 2].
Lemma p_ask_as st s t b : bool_decide (b_cell s = None) = b → pstep st (PState s false) (Some (PAsk t b)) (PState s false).
Proof. intros <-. constructor. Qed.
Lemma p_commit_as st s p t b l st' : b_taken s !! t = Some b → commit id id st b = Some l → st' = l :: st →
  pstep st (PState s p) (Some (PCommit t (Committed st'))) (PState (BState (b_cell s) (delete t (b_taken s)) (st' :: b_written s)) p).
Proof. intros H1 H2 ->. by apply (p_commit st s p t b id id l). Qed.
Example C66_example : ∃ s, pexec ex_base c66_calls s.
Proof.
  pose proof (pexec_nil ex_base) as H.
  eapply pexec_step in H; [|eapply (p_closure _ _ 1 c66_ops1); [reflexivity|vm_compute; reflexivity]].
  eapply pexec_step in H; [|eapply (p_ask_as _ _ 2 false); reflexivity].
  eapply pexec_step in H; [|eapply (p_closure _ _ 2 c66_ops2); [reflexivity|vm_compute; reflexivity]].
  eapply pexec_step in H; [|eapply (p_take _ _ 1); reflexivity].
  eapply pexec_step in H; [|eapply (p_commit_as _ _ _ 1); [reflexivity|vm_compute; reflexivity|reflexivity]].
  eapply pexec_step in H; [|eapply (p_late _ _ 2); reflexivity].
  eexists. match goal with H : pexec _ ?tr _ |- pexec _ ?tr' _ => replace tr' with tr by (vm_compute; reflexivity) end.
  exact H.
Qed.
(** A closure returns, another panics after a removal, a third caller wants to commit *)
Example C66_panic_example : ∃ s, pexec ex_base [PClosure 1 c66_ops1; PPanics 2; PPoisoned 3] s.
Proof.
  pose proof (pexec_nil ex_base) as H.
  eapply pexec_step in H; [|eapply (p_closure _ _ 1 c66_ops1); [reflexivity|vm_compute; reflexivity]].
  eapply pexec_step in H; [|eapply (p_panics _ _ 2 _ (builder_new ex_base)); reflexivity].
  eapply pexec_step in H; [|eapply (p_poison _ _ 3)].
  eexists. exact H.
Qed.

(** Limit of C66: the panic of one caller takes the builder from all others.  A caller whose closure returned before it
    can make no layer of its changes and is not told so by an error: all its calls panic, whatever happens next. *)
Theorem C66_others_refuted : ∃ st tr s t u cs, reachable st ∧ pexec st tr s ∧ t ≠ u ∧ PClosure t cs ∈ tr ∧ cs ≠ [] ∧ PPanics u ∈ tr ∧
  ∀ e s', pstep st s e s' → ∃ v, e = Some (PPoisoned v) ∧ s' = s.
Proof.
  destruct C66_panic_example as [s H]. eexists _, _, s, 1, 2, c66_ops1. split; [exact ex_reach1|]. split; [exact H|].
  split; [lia|]. split; [apply (elem_of_list_lookup_2 _ 0); reflexivity|]. split; [discriminate|].
  split; [apply (elem_of_list_lookup_2 _ 1); reflexivity|]. apply (panic_stuck _ _ s H).
  exists 2. apply (elem_of_list_lookup_2 _ 1); reflexivity.
Qed.
Print Assumptions C66_others_refuted.
