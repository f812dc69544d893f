(** The properties of builders that are shared (C26) and of copying changes (C27, C28). *)
From Verif Require Import Prelude Succinct TripleFiles Merge Layer Builder Spec ReachFacts ApiFacts StoreBuilder SpecBuilder
  StoreBuilderFacts PropertiesLayer.

(** ** C26.  [bexec st tr s]: threads that share a builder on the layer [st] can have made the calls [tr],
    in any interleaving.  At most one commit gets hold of the builder; it alone can succeed. *)
Theorem C26_once st tr s : bexec st tr s → ∀ tr1 e tr2, tr = tr1 ++ e :: tr2 → decisive e = true →
  (∀ e', e' ∈ tr1 → decisive e' = false) ∧ (∀ e', e' ∈ tr2 → too_late e' = true).
Proof. exact (bexec_decided st tr s). Qed.
Print Assumptions C26_once.
(** The layer it makes has the calls that returned [Ok], all of them and no others *)
Theorem C26_content st tr s t st' : bexec st tr s → BCommit t (Committed st') ∈ tr →
  ∃ nvord prord, hash_order nvord ∧ hash_order prord ∧ build nvord prord st (ok_ops tr) = Some st'.
Proof. exact (bexec_result st tr s t st'). Qed.
Print Assumptions C26_content.
(** Once a call has failed because of a commit, or a commit has returned, every call fails *)
Theorem C26_after st tr s : bexec st tr s → ∀ tr1 e tr2, tr = tr1 ++ e :: tr2 → decisive e = true ∨ too_late e = true →
  ∀ e', e' ∈ tr2 → ok_op e' = None ∧ (too_late e' = true ∨ decisive e' = true).
Proof. exact (bexec_late st tr s). Qed.
Print Assumptions C26_after.
(** Until then calls succeed, and some commit does: it can take the builder, it can write the layer,
    and when no thread is in between and the builder is gone, a commit has returned with it *)
Theorem C26_progress st tr s : reachable st → bexec st tr s → Forall (op_ok st) (ok_ops tr) →
  (∀ t, b_cell s ≠ None → b_taken s !! t = None → ∃ s', bstep st s None s' ∧ is_Some (b_taken s' !! t)) ∧
  (∀ t c, b_cell s ≠ None → op_ok st c → ∃ s', bstep st s (Some (BOp t c true)) s') ∧
  (∀ t, is_Some (b_taken s !! t) → ∃ st' s', bstep st s (Some (BCommit t (Committed st'))) s') ∧
  (b_cell s = None → (∀ t, b_taken s !! t = None) → ∃ e, e ∈ tr ∧ decisive e = true).
Proof. exact (λ H, bexec_progress st tr s (reachable_wf st H)). Qed.
Print Assumptions C26_progress.

(** Two threads add, both commit, one gets an error *)
Definition c26_calls : list bev :=
  [BOp 1 (AddValue (s_cow, s_likes, inl s_cow)) true; BOp 2 (RemoveValue (s_cow, s_likes, inl s_duck)) true;
   BAsk 2 false; BOp 2 (AddValue (s_cow, s_likes, inl s_cow)) false; BCommit 2 AlreadyCommitted;
   BCommit 1 (Committed (default [] (build id id ex_base [AddValue (s_cow, s_likes, inl s_cow); RemoveValue (s_cow, s_likes, inl s_duck)])));
   BCommit 3 AlreadyCommitted; BAsk 1 true].
Lemma b_commit_as st s t b l st' : b_taken s !! t = Some b → commit id id st b = Some l → st' = l :: st →
  bstep st s (Some (BCommit t (Committed st'))) (BState (b_cell s) (delete t (b_taken s)) (st' :: b_written s)).
Proof. intros H1 H2 ->. by apply (b_commit st s t b id id l). Qed.
Lemma b_ask_as st s t b : bool_decide (b_cell s = None) = b → bstep st s (Some (BAsk t b)) s.
Proof. intros <-. constructor. Qed.
Example C26_example : ∃ s, bexec ex_base c26_calls s.
Proof.
  pose proof (bexec_nil ex_base) as H.
  eapply bexec_step in H; [|eapply (b_op _ _ 1 (AddValue (s_cow, s_likes, inl s_cow))); [reflexivity|vm_compute; reflexivity]].
  eapply bexec_step in H; [|eapply (b_op _ _ 2 (RemoveValue (s_cow, s_likes, inl s_duck))); [reflexivity|vm_compute; reflexivity]].
  eapply bexec_step in H; [|eapply (b_ask_as _ _ 2 false); reflexivity].
  eapply bexec_step in H; [|eapply (b_take _ _ 1); reflexivity].
  eapply bexec_step in H; [|eapply (b_op_late _ _ 2 (AddValue (s_cow, s_likes, inl s_cow))); reflexivity].
  eapply bexec_step in H; [|eapply (b_commit_late _ _ 2); reflexivity].
  eapply bexec_step in H; [|eapply (b_commit_as _ _ 1); [reflexivity|vm_compute; reflexivity|reflexivity]].
  eapply bexec_step in H; [|eapply (b_commit_late _ _ 3); reflexivity].
  eapply bexec_step in H; [|eapply (b_ask_as _ _ 1 true); reflexivity].
  eexists. match goal with H : bexec _ ?tr _ |- bexec _ ?tr' _ => replace tr' with tr by (vm_compute; reflexivity) end.
  exact H.
Qed.

(** Limit of C26: a commit that fails uses up the builder.  From then on [committed] says that the layer has been committed
    and a further commit is refused for that reason, but no commit has made a layer and none is going on. *)
Theorem C26_failed_commit_refuted : ∃ st tr s t u, reachable st ∧ bexec st tr s ∧ BCommit t CommitFailed ∈ tr ∧ BAsk u true ∈ tr ∧
  BCommit u AlreadyCommitted ∈ tr ∧ b_taken s = ∅ ∧ ∀ v st', BCommit v (Committed st') ∉ tr.
Proof.
  assert (H : ∃ s, bexec ex_base [BOp 1 (AddValue (s_cow, s_likes, inl s_cow)) true; BCommit 1 CommitFailed; BAsk 2 true; BCommit 2 AlreadyCommitted] s
    ∧ b_taken s = ∅).
  { pose proof (bexec_nil ex_base) as H.
    eapply bexec_step in H; [|eapply (b_op _ _ 1 (AddValue (s_cow, s_likes, inl s_cow))); [reflexivity|vm_compute; reflexivity]].
    eapply bexec_step in H; [|eapply (b_take _ _ 1); reflexivity].
    eapply bexec_step in H; [|eapply (b_commit_fails _ _ 1); reflexivity].
    eapply bexec_step in H; [|eapply (b_ask_as _ _ 2 true); reflexivity].
    eapply bexec_step in H; [|eapply (b_commit_late _ _ 2); reflexivity].
    eexists. split; [exact H|]. cbn [b_taken]. apply delete_insert. reflexivity. }
  destruct H as (s & H & Hs). eexists _, _, s, 1, 2. split; [exact ex_reach1|]. split; [exact H|].
  split; [apply (elem_of_list_lookup_2 _ 1); reflexivity|]. split; [apply (elem_of_list_lookup_2 _ 2); reflexivity|].
  split; [apply (elem_of_list_lookup_2 _ 3); reflexivity|]. split; [exact Hs|].
  intros v st' Hi. repeat (apply elem_of_cons in Hi as [Hi|Hi]; [discriminate Hi|]). by apply elem_of_nil in Hi.
Qed.
Print Assumptions C26_failed_commit_refuted.

(** ** C27.  [apply_diff] on a new builder makes the builder calls [diff_ops], in any order; the
    committed layer shows the triples of the other layer. *)
Theorem C27_apply_diff this other L nvord prord : reachable this → reachable other → shown other = Some L →
  hash_order nvord → hash_order prord →
  ∃ cs, diff_ops this other = Some cs ∧ ∀ cs', cs' ≡ₚ cs →
    ∃ st' L', build nvord prord this cs' = Some st' ∧ shown st' = Some L' ∧ L' ≡ₚ L.
Proof. exact (λ H H', apply_diff_ok this other L nvord prord (reachable_wf _ H) (reachable_wf _ H')). Qed.
Print Assumptions C27_apply_diff.
(** From the middle of a history to an unrelated layer *)
Definition c27_other : list layer := default [] (build id id [] [AddValue (s_duck, s_likes, inl s_cow); AddValue (s_says, s_says, inr v_moo)]).
Example C27_example : reachable c27_other ∧
  diff_ops ex_top c27_other = Some [RemoveValue (s_cow, s_likes, inl s_duck); RemoveValue (s_duck, s_says, inr v_quack);
                                    AddValue (s_says, s_says, inr v_moo)] ∧
  (length <$> diff_ops [] ex_top) = Some 3.
Proof.
  split; [|by vm_compute]. refine (reach_step _ _ reach_nil (step_commit _ [AddValue (s_duck, s_likes, inl s_cow); AddValue (s_says, s_says, inr v_moo)] _ _)).
  split; [ops_ok|]. exists id, id. split_and!; [apply id_order|apply id_order|by vm_compute].
Qed.

(** ** C28.  [apply_delta] with a layer [l] on top of [below], which is loaded as [other]: itself, or a
    rollup with the same answers.  The commit takes away what [l] took away and adds what it added,
    compared with its parent, as strings. *)
Theorem C28_apply_delta st l below other LA LP LD nvord prord : reachable st → reachable (l :: below) →
  same_answers other (l :: below) →
  shown st = Some LA → shown below = Some LP → shown (l :: below) = Some LD → hash_order nvord → hash_order prord →
  ∃ cs, delta_ops l other = Some cs ∧ ∀ cs', cs' ≡ₚ cs →
    ∃ st' L', build nvord prord st cs' = Some st' ∧ shown st' = Some L' ∧ NoDup L' ∧
      ∀ vt, vt ∈ L' ↔ (vt ∈ LA ∧ ¬ (vt ∈ LP ∧ vt ∉ LD)) ∨ (vt ∈ LD ∧ vt ∉ LP).
Proof. exact (λ H H', apply_delta_ok st l below other LA LP LD nvord prord (reachable_wf _ H) (reachable_wf _ H')). Qed.
Print Assumptions C28_apply_delta.
Example C28_example : (head ex_top ≫= λ l, delta_ops l ex_top) =
  Some [AddValue (s_duck, s_says, inr v_quack); RemoveValue (s_cow, s_says, inr v_moo)] ∧
  (l ← head ex_top; cs ← delta_ops l ex_top; st' ← build id id ex_base cs; shown st') =
    Some [(s_cow, s_likes, inl s_duck); (s_duck, s_says, inr v_quack)].
Proof. by vm_compute. Qed.
