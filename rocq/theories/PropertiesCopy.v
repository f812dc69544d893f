(** The properties of copying changes into a builder that others use too (C58). *)
From Verif Require Import Prelude Succinct TripleFiles Merge Layer Builder Spec ReachFacts ApiFacts StoreBuilder SpecBuilder
  StoreBuilderFacts PropertiesLayer PropertiesBuilder BuilderCopy SpecCopy BuilderCopyFacts.

(** ** C58.  [cexec st tr s]: on a builder on the layer [st], callers can have made single calls, commits, and any
    number of calls of [apply_delta] and [apply_diff], numbered, in any interleaving [tr] of the steps of them all.
    Everything that C26 says holds with such calls too: their calls on the builder are like those of any caller. *)
Theorem C58_builder st tr s : cexec st tr s → bexec st (builder_calls tr) (c_builder s).
Proof. exact (cexec_bexec st tr s). Qed.
Print Assumptions C58_builder.
(** The layer that a commit makes has the changes that were made, by single calls and by copying calls *)
Theorem C58_content st tr s t st' : cexec st tr s → CSingle (BCommit t (Committed st')) ∈ tr →
  ∃ nvord prord, hash_order nvord ∧ hash_order prord ∧ build nvord prord st (changes tr) = Some st'.
Proof. exact (copy_content st tr s t st'). Qed.
Print Assumptions C58_content.
(** A copying call makes no other changes than its own, and each at most once *)
Theorem C58_part st tr s k c cs : cexec st tr s → CStarts k c ∈ tr → copy_ops st c = Some cs → made k tr ⊆+ cs.
Proof. exact (copy_part st tr s k c cs). Qed.
Print Assumptions C58_part.
(** [apply_diff] that returned Ok has made all its changes, whoever committed when *)
Theorem C58_diff st tr s k other cs : cexec st tr s → CStarts k (Diff other) ∈ tr → CReturns k CopyOk ∈ tr →
  diff_ops st other = Some cs → made k tr ≡ₚ cs.
Proof. exact (diff_all st tr s k other cs). Qed.
Print Assumptions C58_diff.
(** so that, if nobody else changed anything, the committed layer has the triples of the other *)
Theorem C58_diff_reaches st other L tr s k t st' : reachable st → reachable other → shown other = Some L → cexec st tr s →
  CStarts k (Diff other) ∈ tr → CReturns k CopyOk ∈ tr → changes tr = made k tr → CSingle (BCommit t (Committed st')) ∈ tr →
  ∃ L', shown st' = Some L' ∧ L' ≡ₚ L.
Proof. exact (λ H H', diff_reaches st other L tr s k t st' (reachable_wf st H) (reachable_wf other H')). Qed.
Print Assumptions C58_diff_reaches.
(** Either call that returned Ok before any commit began has made all its changes.  For [apply_delta] the full claim, without
    the condition on commits, is refuted below. *)
Theorem C58_before_partial st tr1 k tr2 s c cs : cexec st (tr1 ++ CReturns k CopyOk :: tr2) s → ¬ commit_begun tr1 →
  CStarts k c ∈ tr1 → copy_ops st c = Some cs → made k (tr1 ++ CReturns k CopyOk :: tr2) ≡ₚ cs.
Proof. exact (returned_all st tr1 k tr2 s c cs). Qed.
Print Assumptions C58_before_partial.
(** One that began when the builder had been committed makes none *)
Theorem C58_after st tr1 x tr2 s k c : cexec st (tr1 ++ x :: tr2) s → closes x → CStarts k c ∈ tr2 →
  made k (tr1 ++ x :: tr2) = [].
Proof. exact (after_none st tr1 x tr2 s k c). Qed.
Print Assumptions C58_after.
(** Only [apply_diff] panics, only when a commit has begun, and then not all changes were made; a call that returned an error
    has made none *)
Theorem C58_panics st tr1 k tr2 s c cs : cexec st (tr1 ++ CReturns k CopyPanic :: tr2) s → CStarts k c ∈ tr1 → copy_ops st c = Some cs →
  commit_begun tr1 ∧ (∃ other, c = Diff other) ∧ ¬ made k (tr1 ++ CReturns k CopyPanic :: tr2) ≡ₚ cs.
Proof. exact (panic_why st tr1 k tr2 s c cs). Qed.
Print Assumptions C58_panics.
Theorem C58_failed st tr s k : cexec st tr s → CReturns k CopyFailed ∈ tr → made k tr = [].
Proof. exact (failed_none st tr s k). Qed.
Print Assumptions C58_failed.
(** A copying call never waits for anybody: it can go on with every change that is left, and return when none is *)
Theorem C58_goes_on st tr s k cp : reachable st → cexec st tr s → Forall (op_ok st) (changes tr) → c_copies s !! k = Some cp →
  c_over cp = false →
  (∀ o, o ∈ c_left cp → ∃ ok s', cstep st s (Some (CMakes k o ok)) s' ∧
     ∃ cp', c_copies s' !! k = Some cp' ∧ length (c_left cp) = S (length (c_left cp'))) ∧
  (c_left cp = [] → ∃ r s', cstep st s (Some (CReturns k r)) s').
Proof. exact (λ H, copy_moves st tr s k cp (reachable_wf st H)). Qed.
Print Assumptions C58_goes_on.

(** *** Runs *)
Definition c58_add : op := AddValue (s_duck, s_says, inr v_quack).
Definition c58_rem : op := RemoveValue (s_cow, s_says, inr v_moo).
Definition c58_made (cs : list op) : list layer := default [] (build id id ex_base cs).
Lemma head_case {A} (t : list layer) (f : layer → option A) (x : A) : head t ≫= f = Some x → ∃ l below, t = l :: below ∧ f l = Some x.
Proof. destruct t as [|l t]; [done|]. exists l, t. done. Qed.
Lemma c58_layer : ∃ l below, ex_top = l :: below ∧ delta_ops l ex_top = Some [c58_add; c58_rem].
Proof. exact (head_case ex_top (λ l, delta_ops l ex_top) _ (proj1 C28_example)). Qed.
(** The changes are made, then the builder is committed *)
Definition c58_whole (l : layer) : list citem :=
  [CStarts 5 (Delta l ex_top); CMakes 5 c58_rem true; CSingle (BAsk 1 false); CMakes 5 c58_add true; CReturns 5 CopyOk;
   CCommits 1; CSingle (BCommit 1 (Committed (c58_made [c58_rem; c58_add])))].
(** The builder is committed when one of the two changes was made *)
Definition c58_half (l : layer) : list citem :=
  [CStarts 5 (Delta l ex_top); CMakes 5 c58_add true; CCommits 1;
   CSingle (BCommit 1 (Committed (c58_made [c58_add]))); CMakes 5 c58_rem false; CReturns 5 CopyOk].
(** The builder had been committed before *)
Definition c58_late (l : layer) : list citem :=
  [CCommits 1; CSingle (BCommit 1 (Committed (c58_made []))); CStarts 5 (Delta l ex_top);
   CMakes 5 c58_rem false; CMakes 5 c58_add false; CReturns 5 CopyOk; CSingle (BAsk 1 true)].
(** The same with [apply_diff] *)
Definition c58_diff : list citem :=
  [CCommits 1; CSingle (BCommit 1 (Committed (c58_made []))); CStarts 5 (Diff ex_top);
   CMakes 5 c58_rem false; CReturns 5 CopyPanic; CSingle (BAsk 1 true)].

Lemma c_take_as st s ws cps t b : b_cell s = Some b → b_taken s = ∅ → t ∈ ws →
  cstep st (CState s ws cps) None (CState (BState None {[t := b]} (b_written s)) ws cps).
Proof.
  intros Eb Et Ht. apply c_takes.
  - replace {[t := b]} with (<[t := b]> (b_taken s)) by (rewrite Et; done). apply b_take; [done|]. by rewrite Et.
  - cbn [b_taken]. intros t' [b' Hb']. apply lookup_singleton_Some in Hb' as [<- _]. done.
Qed.
Lemma c_commit_as st b ws cps t l st' w : t ∈ ws → commit id id st b = Some l → st' = l :: st →
  cstep st (CState (BState None {[t := b]} w) ws cps) (Some (CSingle (BCommit t (Committed st'))))
    (CState (BState None ∅ (st' :: w)) (ws ∖ {[t]}) cps).
Proof.
  intros Ht E ->. eapply c_committed; [done|done|].
  pose proof (b_commit st (BState None {[t := b]} w) t b id id l (lookup_singleton t b) (λ m, Permutation_refl m) (λ m, Permutation_refl m) E) as H.
  cbn [b_cell b_taken b_written] in H.
  rewrite delete_singleton in H. exact H.
Qed.
Lemma c_makes_as st s ws cps k c cs1 o cs2 b bad b0 b1 : cps !! k = Some (Copying c (cs1 ++ o :: cs2) b bad false) →
  b_cell s = Some b0 → do_op st b0 o = Some b1 →
  cstep st (CState s ws cps) (Some (CMakes k o true))
    (CState (BState (Some b1) (b_taken s) (b_written s)) ws (<[k := Copying c (cs1 ++ cs2) true bad false]> cps)).
Proof. intros H1 H2 H3. eapply c_makes; [done|]. by eapply b_op. Qed.
Lemma c_misses_as st s ws cps k c cs1 o cs2 b bad : cps !! k = Some (Copying c (cs1 ++ o :: cs2) b bad false) → b_cell s = None →
  cstep st (CState s ws cps) (Some (CMakes k o false))
    (CState s ws (<[k := Copying c (cs1 ++ cs2) true (match c with Delta _ _ => bad | Diff _ => true end) false]> cps)).
Proof. intros H1 H2. eapply c_misses; [done|]. by apply b_op_late. Qed.
Lemma c_ask_as st s ws cps t b : bool_decide (b_cell s = None) = b → cstep st (CState s ws cps) (Some (CSingle (BAsk t b))) (CState s ws cps).
Proof. intros <-. apply c_single; [done|]. apply b_ask. Qed.
Ltac c58_finish H := eexists; match type of H with cexec _ ?tr _ => match goal with |- cexec _ ?tr' _ =>
  change tr' with tr end end; exact H.
Lemma c58_whole_run l : delta_ops l ex_top = Some [c58_add; c58_rem] → ∃ s, cexec ex_base (c58_whole l) s.
Proof.
  intros E. pose proof (cexec_nil ex_base) as H.
  eapply cexec_step in H; [|eapply (c_starts _ _ _ _ 5 (Delta l ex_top)); [reflexivity|exact E]].
  eapply cexec_step in H; [|eapply (c_makes_as _ _ _ _ 5 (Delta l ex_top) [c58_add] c58_rem []); [apply lookup_insert|reflexivity|vm_compute; reflexivity]].
  eapply cexec_step in H; [|eapply (c_ask_as _ _ _ _ 1 false); reflexivity].
  eapply cexec_step in H; [|eapply (c_makes_as _ _ _ _ 5 (Delta l ex_top) [] c58_add []); [apply lookup_insert|reflexivity|vm_compute; reflexivity]].
  eapply cexec_step in H; [|eapply (c_returns _ _ _ _ 5); apply lookup_insert].
  eapply cexec_step in H; [|eapply (c_commits _ _ _ _ 1); apply not_elem_of_empty].
  eapply cexec_step in H; [|eapply (c_take_as _ _ _ _ 1); [reflexivity|reflexivity|set_solver]].
  eapply cexec_step in H; [|eapply (c_commit_as _ _ _ _ 1 _ (c58_made [c58_rem; c58_add])); [set_solver|vm_compute; reflexivity|vm_compute; reflexivity]].
  c58_finish H.
Qed.
Lemma c58_half_run l : delta_ops l ex_top = Some [c58_add; c58_rem] → ∃ s, cexec ex_base (c58_half l) s.
Proof.
  intros E. pose proof (cexec_nil ex_base) as H.
  eapply cexec_step in H; [|eapply (c_starts _ _ _ _ 5 (Delta l ex_top)); [reflexivity|exact E]].
  eapply cexec_step in H; [|eapply (c_makes_as _ _ _ _ 5 (Delta l ex_top) [] c58_add [c58_rem]); [apply lookup_insert|reflexivity|vm_compute; reflexivity]].
  eapply cexec_step in H; [|eapply (c_commits _ _ _ _ 1); apply not_elem_of_empty].
  eapply cexec_step in H; [|eapply (c_take_as _ _ _ _ 1); [reflexivity|reflexivity|set_solver]].
  eapply cexec_step in H; [|eapply (c_commit_as _ _ _ _ 1 _ (c58_made [c58_add])); [set_solver|vm_compute; reflexivity|vm_compute; reflexivity]].
  eapply cexec_step in H; [|eapply (c_misses_as _ _ _ _ 5 (Delta l ex_top) [] c58_rem []); [apply lookup_insert|reflexivity]].
  eapply cexec_step in H; [|eapply (c_returns _ _ _ _ 5); apply lookup_insert].
  c58_finish H.
Qed.
Lemma c58_late_run l : delta_ops l ex_top = Some [c58_add; c58_rem] → ∃ s, cexec ex_base (c58_late l) s.
Proof.
  intros E. pose proof (cexec_nil ex_base) as H.
  eapply cexec_step in H; [|eapply (c_commits _ _ _ _ 1); apply not_elem_of_empty].
  eapply cexec_step in H; [|eapply (c_take_as _ _ _ _ 1); [reflexivity|reflexivity|set_solver]].
  eapply cexec_step in H; [|eapply (c_commit_as _ _ _ _ 1 _ (c58_made [])); [set_solver|vm_compute; reflexivity|vm_compute; reflexivity]].
  eapply cexec_step in H; [|eapply (c_starts _ _ _ _ 5 (Delta l ex_top)); [reflexivity|exact E]].
  eapply cexec_step in H; [|eapply (c_misses_as _ _ _ _ 5 (Delta l ex_top) [c58_add] c58_rem []); [apply lookup_insert|reflexivity]].
  eapply cexec_step in H; [|eapply (c_misses_as _ _ _ _ 5 (Delta l ex_top) [] c58_add []); [apply lookup_insert|reflexivity]].
  eapply cexec_step in H; [|eapply (c_returns _ _ _ _ 5); apply lookup_insert].
  eapply cexec_step in H; [|eapply (c_ask_as _ _ _ _ 1 true); reflexivity].
  c58_finish H.
Qed.
Lemma c58_diff_run : ∃ s, cexec ex_base c58_diff s.
Proof.
  pose proof (cexec_nil ex_base) as H.
  eapply cexec_step in H; [|eapply (c_commits _ _ _ _ 1); apply not_elem_of_empty].
  eapply cexec_step in H; [|eapply (c_take_as _ _ _ _ 1); [reflexivity|reflexivity|set_solver]].
  eapply cexec_step in H; [|eapply (c_commit_as _ _ _ _ 1 _ (c58_made [])); [set_solver|vm_compute; reflexivity|vm_compute; reflexivity]].
  eapply cexec_step in H; [|eapply (c_starts _ _ _ _ 5 (Diff ex_top)); [reflexivity|vm_compute; reflexivity]].
  eapply cexec_step in H; [|eapply (c_misses_as _ _ _ _ 5 (Diff ex_top) [] c58_rem [_]); [apply lookup_insert|reflexivity]].
  eapply cexec_step in H; [|eapply (c_panics _ _ _ _ 5); apply lookup_insert].
  eapply cexec_step in H; [|eapply (c_ask_as _ _ _ _ 1 true); reflexivity].
  c58_finish H.
Qed.
Example C58_example : ∃ l below s, ex_top = l :: below ∧ cexec ex_base (c58_whole l) s ∧ copy_ops ex_base (Delta l ex_top) = Some [c58_add; c58_rem] ∧
  made 5 (c58_whole l) = [c58_rem; c58_add] ∧ changes (c58_whole l) = [c58_rem; c58_add] ∧
  shown (c58_made [c58_rem; c58_add]) = Some [(s_cow, s_likes, inl s_duck); (s_duck, s_says, inr v_quack)].
Proof.
  destruct c58_layer as (l & below & E & Ed). destruct (c58_whole_run l Ed) as [s Hs]. exists l, below, s.
  split; [exact E|]. split; [exact Hs|]. split; [exact Ed|]. split; [reflexivity|]. split; [reflexivity|]. vm_compute. reflexivity.
Qed.
(** Refuted: [apply_delta] returns Ok although a commit came in between and the layer does not have all its changes: here
    the layer still has a triple that was to be removed and that nobody added *)
Theorem C58_delta_half_refuted : ∃ st l below cs tr s k t st' L vt, reachable st ∧ reachable (l :: below) ∧ cexec st tr s ∧
  CStarts k (Delta l (l :: below)) ∈ tr ∧ CReturns k CopyOk ∈ tr ∧ delta_ops l (l :: below) = Some cs ∧ RemoveValue vt ∈ cs ∧
  CSingle (BCommit t (Committed st')) ∈ tr ∧ shown st' = Some L ∧ vt ∈ L ∧ AddValue vt ∉ changes tr.
Proof.
  destruct c58_layer as (l & below & E & Ed). destruct (c58_half_run l Ed) as [s Hs].
  exists ex_base, l, below, [c58_add; c58_rem], (c58_half l), s, 5, 1, (c58_made [c58_add]),
    [(s_cow, s_likes, inl s_duck); (s_cow, s_says, inr v_moo); (s_duck, s_says, inr v_quack)], (s_cow, s_says, inr v_moo).
  rewrite <-E. split; [exact ex_reach1|]. split; [exact ex_reach3|]. split; [exact Hs|].
  split; [apply (elem_of_list_lookup_2 _ 0); reflexivity|]. split; [apply (elem_of_list_lookup_2 _ 5); reflexivity|]. split; [exact Ed|].
  split; [apply (elem_of_list_lookup_2 _ 1); reflexivity|]. split; [apply (elem_of_list_lookup_2 _ 3); reflexivity|].
  split; [vm_compute; reflexivity|]. split; [apply (elem_of_list_lookup_2 _ 1); reflexivity|].
  change (changes (c58_half l)) with [c58_add]. intros H. apply elem_of_list_singleton in H. vm_compute in H. discriminate H.
Qed.
Print Assumptions C58_delta_half_refuted.
(** Refuted: [apply_delta] on a builder that has been committed returns Ok, not an error, and does nothing *)
Theorem C58_delta_late_refuted : ∃ st l below cs tr1 x tr2 s k, reachable st ∧ reachable (l :: below) ∧ cexec st (tr1 ++ x :: tr2) s ∧
  closes x ∧ CStarts k (Delta l (l :: below)) ∈ tr2 ∧ CReturns k CopyOk ∈ tr2 ∧ delta_ops l (l :: below) = Some cs ∧ cs ≠ [] ∧
  made k (tr1 ++ x :: tr2) = [].
Proof.
  destruct c58_layer as (l & below & E & Ed). destruct (c58_late_run l Ed) as [s Hs].
  exists ex_base, l, below, [c58_add; c58_rem], [CCommits 1], (CSingle (BCommit 1 (Committed (c58_made [])))), (drop 2 (c58_late l)), s, 5.
  rewrite <-E. split; [exact ex_reach1|]. split; [exact ex_reach3|]. split; [exact Hs|].
  split; [exists (BCommit 1 (Committed (c58_made []))); split; [reflexivity|left; reflexivity]|].
  split; [apply (elem_of_list_lookup_2 _ 0); reflexivity|]. split; [apply (elem_of_list_lookup_2 _ 3); reflexivity|]. split; [exact Ed|].
  split; [intros H; discriminate H|]. reflexivity.
Qed.
Print Assumptions C58_delta_late_refuted.
(** Refuted: [apply_diff] on a builder that has been committed panics, where the single calls return an error *)
Theorem C58_diff_refuted : ∃ st other tr1 x tr2 s k, reachable st ∧ reachable other ∧ cexec st (tr1 ++ x :: tr2) s ∧
  closes x ∧ CStarts k (Diff other) ∈ tr2 ∧ CReturns k CopyPanic ∈ tr2.
Proof.
  destruct c58_diff_run as [s Hs].
  exists ex_base, ex_top, [CCommits 1], (CSingle (BCommit 1 (Committed (c58_made [])))), (drop 2 c58_diff), s, 5.
  split; [exact ex_reach1|]. split; [exact ex_reach3|]. split; [exact Hs|].
  split; [exists (BCommit 1 (Committed (c58_made []))); split; [reflexivity|left; reflexivity]|].
  split; [apply (elem_of_list_lookup_2 _ 0); reflexivity|]. apply (elem_of_list_lookup_2 _ 2). reflexivity.
Qed.
Print Assumptions C58_diff_refuted.
