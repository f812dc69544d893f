(** Squashing and merging: C16 to C18.  [exact_strings], [reachable] and [based] are defined in
    Spec.v.  The examples continue those of PropertiesLayer.v and PropertiesRollup.v. *)
From Verif Require Import Prelude Succinct TripleFiles Merge Layer Builder Rollup Squash MergeBase Spec ReachFacts ApiFacts
  SquashApi PropertiesLayer PropertiesRollup.

(** ** C16.  Squashing any layer succeeds; the new base layer shows the same string triples,
    and holds no other strings.  It is in fact the layer that a commit of these triples to no
    parent would write. *)
Theorem C16_squash st L nvord prord : reachable st → shown st = Some L → hash_order nvord → hash_order prord →
  ∃ l, squash st = Some l ∧ (∃ L', shown [l] = Some L' ∧ L' ≡ₚ L) ∧ exact_strings l L ∧
    build nvord prord [] (AddValue <$> L) = Some [l].
Proof. exact (λ H, squash_answers st L nvord prord (reachable_wf st H)). Qed.
Print Assumptions C16_squash.
Definition sq_st : list layer := from_option (λ l, [l]) [] (squash ex_top).
Definition sq_roll : list layer := from_option (λ l, [l]) [] (squash roll_all).
(** unused strings are dropped, and a layer with id maps comes out right *)
Example C16_example : shown sq_st = shown ex_top ∧ nv_count ex_top = 4 ∧ nv_count sq_st = 3 ∧
  shown roll_all = Some [([5], [3], inr (0, [1])); ([3], [2], inl [5]); ([4], [1], inr (0, [0]))] ∧
  shown sq_roll = Some [([3], [2], inl [5]); ([4], [1], inr (0, [0])); ([5], [3], inr (0, [1]))].
Proof. vm_compute. split_and!; reflexivity. Qed.

(** ** C17.  Squashing down to a proper ancestor. *)
Theorem C17_squash_upto top st L L0 nvord prord : reachable (top ++ st) → st ≠ [] →
  shown (top ++ st) = Some L → shown st = Some L0 → hash_order nvord → hash_order prord →
  ∃ l, squash_upto top st = Some l ∧ (∃ L', shown (l :: st) = Some L' ∧ L' ≡ₚ L) ∧
    build nvord prord st ((AddValue <$> filter (λ vt, vt ∉ L0) L) ++ (RemoveValue <$> filter (λ vt, vt ∉ L) L0)) = Some (l :: st).
Proof. exact (λ H, squash_upto_answers top st L L0 nvord prord (reachable_wf _ H)). Qed.
Print Assumptions C17_squash_upto.
Definition sq_upto_st : list layer := from_option (λ l, l :: drop 2 ex_top) [] (squash_upto (take 2 ex_top) (drop 2 ex_top)).
Example C17_example : take 2 ex_top ++ drop 2 ex_top = ex_top ∧ length sq_upto_st = 2 ∧ shown sq_upto_st = shown ex_top ∧
  shown (drop 2 ex_top) ≠ shown ex_top ∧ (head sq_upto_st ≫= l_removals) = Some [mkt 1 2 3] ∧
  (head sq_upto_st ≫= l_additions) = Some [mkt 2 1 1].
Proof. split; [apply take_drop|]. vm_compute. split_and!; done. Qed.

(** ** C18.  Merging base layers that were written as such: by a commit without a parent, a
    squash, or a merge. *)
Theorem C18_merge_is_union ls : (∀ k, k ∈ ls → based k) →
  ∃ l L, merge_base_layers ls = Some l ∧ shown [l] = Some L ∧ NoDup L ∧ exact_strings l L ∧
    ∀ vt, vt ∈ L ↔ ∃ k L', k ∈ ls ∧ shown [k] = Some L' ∧ vt ∈ L'.
Proof. exact (merge_answers ls). Qed.
Print Assumptions C18_merge_is_union.
Example roll_commit1 : commits_to [] roll_ops1 roll_base.
Proof. split; [ops_ok|]. exists id, id. split_and!; [apply id_order|apply id_order|by vm_compute]. Qed.
Example C18_example : (∀ k, k ∈ ex_base ++ sq_st ++ roll_base → based k) ∧ length (ex_base ++ sq_st ++ roll_base) = 3 ∧
  (merge_base_layers (ex_base ++ sq_st ++ roll_base) ≫= λ l, shown [l]) =
    Some [([5], [3], inl [2]); ([5], [3], inr (0, [1])); (s_cow, s_likes, inl s_duck); (s_cow, s_says, inr v_moo);
          (s_duck, s_likes, inl s_cow); (s_duck, s_says, inr v_quack)].
Proof.
  split; [|vm_compute; split; reflexivity]. intros k. rewrite !elem_of_app. intros [Hk|[Hk|Hk]].
  - exact (based_commit_by _ _ ex_commit1 k Hk).
  - refine (based_squash_by ex_top ex_reach3 _ k Hk). by vm_compute.
  - exact (based_commit_by _ _ roll_commit1 k Hk).
Qed.

(** For a rollup, which is stored as a base layer too, the merge is wrong: its id maps are not
    consulted.  Here the rollup of two commits. *)
Definition mb_ops1 : list op := [AddValue ([5], [1], inl [5])].
Definition mb_ops2 : list op := [AddValue ([3], [1], inl [5])].
Definition mb_st1 : list layer := default [] (build id id [] mb_ops1).
Definition mb_st : list layer := default [] (build id id mb_st1 mb_ops2).
Definition mb_roll : list layer := from_option (λ l, [l]) [] (rollup mb_st).
Definition mb_merged : list layer := from_option (λ l, [l]) [] (merge_base_layers mb_roll).
Example mb_reach : reachable mb_roll.
Proof.
  apply (reach_step mb_st); [apply (reach_step mb_st1); [apply (reach_step [] _ reach_nil)|]|].
  - apply (step_commit _ mb_ops1). split; [ops_ok|]. exists id, id. split_and!; [apply id_order|apply id_order|by vm_compute].
  - apply (step_commit _ mb_ops2). split; [ops_ok|]. exists id, id. split_and!; [apply id_order|apply id_order|by vm_compute].
  - apply step_rollup, rolled_full_by; [by vm_compute|]. vm_compute. reflexivity.
Qed.
Theorem C18_rollup_refuted : ∃ k l L L', reachable [k] ∧ merge_base_layers [k] = Some l ∧
  shown [k] = Some L ∧ shown [l] = Some L' ∧ ¬ (∀ vt, vt ∈ L' ↔ vt ∈ L).
Proof.
  apply (merge_wrong_by mb_roll [([5], [1], inl [5]); ([3], [1], inl [5])] [([3], [1], inl [3]); ([5], [1], inl [3])] mb_reach).
  - vm_compute. reflexivity.
  - vm_compute. reflexivity.
  - vm_compute. reflexivity.
  - intros H. pose proof (proj1 (H ([5], [1], inl [3])) ltac:(right; left)) as Hin.
    repeat apply elem_of_cons in Hin as [Hin|Hin]; try done. by apply elem_of_nil in Hin.
Qed.
Print Assumptions C18_rollup_refuted.
