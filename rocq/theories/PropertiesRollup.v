(** The properties of rollups: C14 and C15.  [same_answers] and [rolled] are defined in
    Spec.v.  The examples continue those of PropertiesLayer.v. *)
From Verif Require Import Prelude Succinct TripleFiles Merge Layer Builder Rollup Spec HistoryFacts ReachFacts ApiFacts PropertiesLayer.

(** ** C14.  Rolling up any layer succeeds, and the rollup answers every query as the layer
    does.  Commits on top of it write the very layer they would write on the original, and
    the result answers every query alike.  The descendants of a rolled up layer answer as
    before. *)
Theorem C14_rollup_same_answers st : reachable st → st ≠ [] → ∃ l, rollup st = Some l ∧ same_answers [l] st.
Proof. exact (λ H, rollup_answers st (reachable_wf st H)). Qed.
Print Assumptions C14_rollup_same_answers.
Theorem C14_rolled_same_answers st st' : reachable st → rolled st st' → same_answers st' st.
Proof. exact (λ H, rolled_answers st st' (reachable_wf st H)). Qed.
Print Assumptions C14_rolled_same_answers.
Theorem C14_commits_alike st st' cs nvord prord nvord' prord' :
  reachable st → rolled st st' → Forall (op_ok st) cs →
  hash_order nvord → hash_order prord → hash_order nvord' → hash_order prord' →
  ∃ l, build nvord prord st cs = Some (l :: st) ∧ build nvord' prord' st' cs = Some (l :: st') ∧
    same_answers (l :: st') (l :: st).
Proof. exact (λ H, rolled_commit st st' cs nvord prord nvord' prord' (reachable_wf st H)). Qed.
Print Assumptions C14_commits_alike.
Definition ex_rollup : list layer := from_option (λ l, [l]) [] (rollup ex_top).
Definition roll_ops1 : list op := [AddValue ([5], [3], inl [2]); AddValue ([5], [3], inr (0, [1]))].
Definition roll_ops2 : list op := [AddValue ([3], [2], inl [5]); RemoveValue ([5], [3], inl [2]); AddValue ([4], [1], inr (0, [0]))].
Definition roll_base : list layer := default [] (build id id [] roll_ops1).
Definition roll_st : list layer := default [] (build id id roll_base roll_ops2).
Definition roll_all : list layer := from_option (λ l, [l]) [] (rollup roll_st).
Example roll_reach1 : reachable roll_base.
Proof.
  apply (reach_step [] _ reach_nil), (step_commit _ roll_ops1). split; [ops_ok|]. exists id, id.
  split_and!; [apply id_order|apply id_order|by vm_compute].
Qed.
Example roll_reach : reachable roll_st.
Proof.
  apply (reach_step roll_base _ roll_reach1), (step_commit _ roll_ops2). split; [ops_ok|]. exists id, id.
  split_and!; [apply id_order|apply id_order|by vm_compute].
Qed.
Example C14_example : rolled ex_top ex_rollup ∧ rolled roll_st roll_all ∧
  (l_nvmap <$> roll_all) = [Some [0; 3; 4; 1; 5; 2]] ∧ (l_pmap <$> roll_all) = [Some [1; 2; 0]] ∧
  triples roll_all = Some [mkt 2 1 3; mkt 4 3 2; mkt 5 2 6].
Proof.
  split; [|split].
  - apply rolled_full_by; [by vm_compute|]. vm_compute. reflexivity.
  - apply rolled_full_by; [by vm_compute|]. vm_compute. reflexivity.
  - vm_compute. split_and!; reflexivity.
Qed.

(** ** C15.  A partial rollup over the layers [mem], loaded with the layer, and [disk], read
    from the store, down to the ancestor [st]. *)
Theorem C15_imprecise_same_answers mem st : reachable (mem ++ st) → mem ≠ [] →
  ∃ l, imprecise_rollup_upto mem = Some l ∧ same_answers (l :: st) (mem ++ st).
Proof. exact (λ H, imprecise_answers mem st (reachable_wf _ H)). Qed.
Print Assumptions C15_imprecise_same_answers.
(** Missing: loaded layers whose two id maps differ, see [C15_rollup_upto_refuted]. *)
Theorem C15_upto_same_answers_partial mem disk st :
  reachable (mem ++ disk ++ st) → mem ++ disk ≠ [] → Forall (λ l, l_nvmap l = l_pmap l) mem →
  ∃ l, rollup_upto mem disk = Some l ∧ same_answers (l :: st) (mem ++ disk ++ st).
Proof. exact (λ H, upto_answers mem disk st (reachable_wf _ H)). Qed.
Print Assumptions C15_upto_same_answers_partial.

(** A base layer and two commits; the two commits are rolled up; one more commit.  Rolling up
    again loads the first rollup, whose id maps differ (delta.rs:192-200 passes the node and
    value id map for the predicates), and the predicates of the two commits change places. *)
Definition f1_ops0 : list op := [AddValue ([1], [1], inl [2])].
Definition f1_ops1 : list op := [AddValue ([1], [3], inl [5])].
Definition f1_ops2 : list op := [AddValue ([1], [2], inl [6])].
Definition f1_ops3 : list op := [RemoveValue ([1], [1], inl [2])].
Definition f1_st0 : list layer := default [] (build id id [] f1_ops0).
Definition f1_st1 : list layer := default [] (build id id f1_st0 f1_ops1).
Definition f1_st2 : list layer := default [] (build id id f1_st1 f1_ops2).
Definition f1_roll2 : list layer := from_option (λ l, l :: f1_st0) [] (rollup_upto (take 2 f1_st2) []).
Definition f1_st3 : list layer := default [] (build id id f1_roll2 f1_ops3).
Definition f1_roll3 : list layer := from_option (λ l, l :: f1_st0) [] (rollup_upto (take 2 f1_st3) []).
Ltac commits := split; [ops_ok|]; exists id, id; split_and!; [apply id_order|apply id_order|by vm_compute].
Example f1_reach2 : reachable f1_st2.
Proof.
  apply (reach_step f1_st1); [|apply (step_commit _ f1_ops2); commits].
  apply (reach_step f1_st0); [|apply (step_commit _ f1_ops1); commits].
  apply (reach_step []); [apply reach_nil|apply (step_commit _ f1_ops0); commits].
Qed.
Lemma f1_maps l : l ∈ take 2 f1_st2 → l_nvmap l = l_pmap l.
Proof. revert l. apply (proj1 (Forall_forall (λ l, l_nvmap l = l_pmap l) _)). vm_compute. repeat constructor. Qed.
Example C15_example : f1_st2 = take 2 f1_st2 ++ [] ++ f1_st0 ∧ take 2 f1_st2 ≠ [] ∧
  (∀ l, l ∈ take 2 f1_st2 → l_nvmap l = l_pmap l) ∧ (l_pmap <$> f1_roll2) = [Some [1; 0]; None] ∧
  (l_nvmap <$> f1_roll2) = [Some [0; 1]; None].
Proof. split_and!; [vm_compute; reflexivity|by vm_compute|exact f1_maps|vm_compute; reflexivity|vm_compute; reflexivity]. Qed.
Example f1_reach3 : reachable f1_st3.
Proof.
  apply (reach_step f1_roll2); [|apply (step_commit _ f1_ops3); commits].
  apply (reach_step f1_st2); [apply f1_reach2|]. apply step_rollup.
  apply (rolled_upto_by (take 2 f1_st2) [] f1_st0);
    [vm_compute; reflexivity|by vm_compute|by vm_compute|exact f1_maps|vm_compute; reflexivity].
Qed.
Theorem C15_rollup_upto_refuted : ∃ mem st l L L' vt,
  reachable (mem ++ st) ∧ mem ≠ [] ∧ st ≠ [] ∧ rollup_upto mem [] = Some l ∧
  shown (mem ++ st) = Some L ∧ shown (l :: st) = Some L' ∧ vt ∈ L' ∧ vt ∉ L.
Proof.
  exists (take 2 f1_st3), f1_st0. eexists. exists [([1], [3], inl [5]); ([1], [2], inl [6])],
    [([1], [2], inl [5]); ([1], [3], inl [6])], ([1], [2], inl [5]).
  split; [replace (take 2 f1_st3 ++ f1_st0) with f1_st3 by (vm_compute; reflexivity); exact f1_reach3|]. split; [by vm_compute|]. split; [by vm_compute|].
  split; [vm_compute; reflexivity|]. split; [by vm_compute|]. split; [by vm_compute|].
  split; [left|]. rewrite !elem_of_cons. intros [[=]|[[=]|[]%elem_of_nil]].
Qed.
Print Assumptions C15_rollup_upto_refuted.
