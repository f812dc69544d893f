(** The properties of layers made by commits: C01 to C11, C13 and C37.  [reachable] (Spec.v)
    ranges over every layer that can come about; a layer is given with its ancestors.  The
    examples use a base layer and two commits on top of it. *)
From Verif Require Import Prelude Succinct TripleFiles Merge Layer Builder Spec HistoryFacts ReachFacts ApiFacts Resolve ResolveFacts.

(** ** Example *)
Definition s_cow : str := [99; 111; 119].
Definition s_duck : str := [100; 117; 99; 107].
Definition s_says : str := [115; 97; 121; 115].
Definition s_likes : str := [108; 105; 107; 101; 115].
Definition v_moo : val := (0, [109; 111; 111]).
Definition v_quack : val := (0, [113]).
Definition ex_ops1 : list op :=
  [AddValue (s_duck, s_says, inr v_quack); AddValue (s_cow, s_says, inr v_moo); AddValue (s_cow, s_likes, inl s_duck)].
Definition ex_base : list layer := default [] (build id id [] ex_ops1).
Definition ex_ops2 : list op :=
  [RemoveValue (s_duck, s_says, inr v_quack); AddValue (s_duck, s_likes, inl s_cow);
   AddId (mkt 1 2 3); RemoveId (mkt 1 1 2); AddValue (s_cow, s_likes, inl s_duck)].
Definition ex_child : list layer := default [] (build id (@rev _) ex_base ex_ops2).
Definition ex_ops3 : list op := [AddValue (s_duck, s_says, inr v_quack); RemoveValue (s_cow, s_says, inr v_moo)].
Definition ex_top : list layer := default [] (build (@rev _) id ex_child ex_ops3).

Lemma id_order {A} : hash_order (@id (list A)).
Proof. intros m. done. Qed.
Ltac ops_ok := repeat (first [apply Forall_nil; exact I | apply Forall_cons; split; [by eexists; vm_compute|]]).
Example ex_commit1 : commits_to [] ex_ops1 ex_base.
Proof. split; [ops_ok|]. exists id, id. split_and!; [apply id_order|apply id_order|by vm_compute]. Qed.
Lemma rev_order {A} : hash_order (@rev A).
Proof. intros m. symmetry. apply Permutation_rev. Qed.
Example ex_commit2 : commits_to ex_base ex_ops2 ex_child.
Proof.
  split; [ops_ok|]. exists id, (@rev _).
  split_and!; [apply id_order|apply rev_order|by vm_compute].
Qed.
Example ex_commit3 : commits_to ex_child ex_ops3 ex_top.
Proof.
  split; [ops_ok|]. exists (@rev _), id.
  split_and!; [apply rev_order|apply id_order|by vm_compute].
Qed.
Example ex_reach1 : reachable ex_base.
Proof. exact (reach_step _ _ reach_nil (step_commit _ _ _ ex_commit1)). Qed.
Example ex_reach2 : reachable ex_child.
Proof. exact (reach_step _ _ ex_reach1 (step_commit _ _ _ ex_commit2)). Qed.
Example ex_reach3 : reachable ex_top.
Proof. exact (reach_step _ _ ex_reach2 (step_commit _ _ _ ex_commit3)). Qed.
Example ex_shown : shown ex_base = Some [(s_cow, s_likes, inl s_duck); (s_cow, s_says, inr v_moo); (s_duck, s_says, inr v_quack)]
  ∧ shown ex_child = Some [(s_cow, s_likes, inl s_duck); (s_cow, s_says, inr v_moo); (s_duck, s_likes, inl s_cow)]
  ∧ shown ex_top = Some [(s_cow, s_likes, inl s_duck); (s_duck, s_likes, inl s_cow); (s_duck, s_says, inr v_quack)].
Proof. by vm_compute. Qed.
Example ex_depth : length ex_top = 3 ∧ (length <$> triples ex_top) = Some 3 ∧
  (length <$> (head ex_top ≫= l_removals)) = Some 1.
Proof. by vm_compute. Qed.

(** ** C01.  Every layer shows its triples; committing builder calls succeeds and the new
    layer shows the old triples changed by the sets of additions and removals. *)
Theorem C01_shown_total st : reachable st → ∃ L, shown st = Some L ∧ NoDup L.
Proof. exact (λ H, match shown_ok st (reachable_wf st H) with
  ex_intro _ L (conj E (conj N _)) => ex_intro _ L (conj E N) end). Qed.
Print Assumptions C01_shown_total.
Theorem C01_commit_semantics st cs nvord prord L :
  reachable st → Forall (op_ok st) cs → hash_order nvord → hash_order prord →
  shown st = Some L →
  ∃ st' L', build nvord prord st cs = Some st' ∧ shown st' = Some L' ∧ NoDup L' ∧
    ∀ vt, vt ∈ L' ↔ after_change (added st cs) (removed st cs) L vt.
Proof. exact (λ H, commit_shown st cs nvord prord L (reachable_wf st H)). Qed.
Print Assumptions C01_commit_semantics.
Example C01_example : added ex_base ex_ops2 = [(s_duck, s_likes, inl s_cow); (s_cow, s_says, inr v_moo); (s_cow, s_likes, inl s_duck)]
  ∧ removed ex_base ex_ops2 = [(s_duck, s_says, inr v_quack); (s_cow, s_likes, inl s_duck)].
Proof. by vm_compute. Qed.

(** ** C02.  Only the sets of added and removed triples matter, not their order, nor the
    orders in which the hash maps are listed. *)
Theorem C02_order_independent st cs cs' nvord prord nvord' prord' :
  reachable st → Forall (op_ok st) cs → Forall (op_ok st) cs' →
  hash_order nvord → hash_order prord → hash_order nvord' → hash_order prord' →
  (∀ vt, vt ∈ added st cs ↔ vt ∈ added st cs') → (∀ vt, vt ∈ removed st cs ↔ vt ∈ removed st cs') →
  ∃ st', build nvord prord st cs = Some st' ∧ build nvord' prord' st cs' = Some st'.
Proof. exact (λ H, commit_order st cs cs' nvord prord nvord' prord' (reachable_wf st H)). Qed.
Print Assumptions C02_order_independent.
Example C02_example : build id id ex_base (rev ex_ops2 ++ ex_ops2) = Some ex_child.
Proof. by vm_compute. Qed.

(** ** C03.  Strings and ids translate both ways; no lookup fails. *)
Theorem C03_subjects st s i : reachable st →
  subject_id st s = Some (Some i) ↔ id_subject st i = Some (Some s).
Proof. exact (λ H, subject_id_round st (reachable_wf st H) s i). Qed.
Print Assumptions C03_subjects.
Theorem C03_predicates st p i : reachable st →
  predicate_id st p = Some (Some i) ↔ id_predicate st i = Some (Some p).
Proof. exact (λ H, predicate_round st (reachable_wf st H) p i). Qed.
Print Assumptions C03_predicates.
Theorem C03_object_nodes st s i : reachable st →
  object_node_id st s = Some (Some i) ↔ id_object st i = Some (Some (inl s)).
Proof. exact (λ H, object_node_id_round st (reachable_wf st H) s i). Qed.
Print Assumptions C03_object_nodes.
Theorem C03_object_values st v i : reachable st →
  object_value_id st v = Some (Some i) ↔ id_object st i = Some (Some (inr v)).
Proof. exact (λ H, object_value_id_round st (reachable_wf st H) v i). Qed.
Print Assumptions C03_object_values.
Theorem C03_total st : reachable st →
  (∀ s, is_Some (subject_id st s)) ∧ (∀ s, is_Some (object_node_id st s)) ∧ (∀ v, is_Some (object_value_id st v)) ∧
  (∀ p, is_Some (predicate_id st p)) ∧ (∀ i, is_Some (id_subject st i)) ∧ (∀ i, is_Some (id_object st i)) ∧
  (∀ i, is_Some (id_predicate st i)).
Proof. exact (λ H, lookups_total st (reachable_wf st H)). Qed.
Print Assumptions C03_total.
Example C03_example : object_id ex_top (inr v_quack) = Some (Some 4) ∧ id_object ex_top 4 = Some (Some (inr v_quack))
  ∧ subject_id ex_top s_says = Some None ∧ id_object ex_top 9 = Some None ∧ id_object ex_top 0 = Some None.
Proof. by vm_compute. Qed.

(** ** C04.  Ids are 1 up to the count, nothing else, and their kinds agree. *)
Theorem C04_objects st i : reachable st →
  (1 ≤ i ≤ nv_count st → ∃ x, id_object st i = Some (Some x)) ∧
  (i = 0 ∨ nv_count st < i → id_object st i = Some None).
Proof. exact (λ H, id_object_domain st (reachable_wf st H) i). Qed.
Print Assumptions C04_objects.
Theorem C04_predicates st i : reachable st →
  (1 ≤ i ≤ pred_count st → ∃ x, id_predicate st i = Some (Some x)) ∧
  (i = 0 ∨ pred_count st < i → id_predicate st i = Some None).
Proof. exact (λ H, id_predicate_domain st (reachable_wf st H) i). Qed.
Print Assumptions C04_predicates.
(** looking up a value as a node, or a node as a value, panics *)
Theorem C04_kinds st i : reachable st →
  ∃ r, id_object st i = Some r ∧
    id_subject st i = Some (match r with Some (inl s) => Some s | _ => None end) ∧
    id_object_is_node st i = Some (match r with Some (inl _) => Some true | Some (inr _) => Some false | None => None end) ∧
    id_object_is_value st i = Some (match r with Some (inl _) => Some false | Some (inr _) => Some true | None => None end) ∧
    id_object_node st i = match r with Some (inl s) => Some (Some s) | Some (inr _) => None | None => Some None end ∧
    id_object_value st i = match r with Some (inl _) => None | Some (inr v) => Some (Some v) | None => Some None end.
Proof. exact (λ H, id_kind st (reachable_wf st H) i). Qed.
Print Assumptions C04_kinds.
(** the three counts of [all_counts] agree with the two counts above *)
Theorem C04_counts st : ∃ n v, all_counts st = (n, pred_count st, v) ∧ n + v = nv_count st.
Proof. exact (all_counts_agree st). Qed.
Print Assumptions C04_counts.
Example C04_example : nv_count ex_top = 4 ∧ pred_count ex_top = 2 ∧ all_counts ex_top = (2, 2, 2).
Proof. by vm_compute. Qed.

(** ** C05.  Ids do not change in descendants, and new strings get new ids. *)
Theorem C05_stable st st' : reachable st → rtc step st st' →
  (∀ x i, object_id st x = Some (Some i) → object_id st' x = Some (Some i)) ∧
  (∀ p i, predicate_id st p = Some (Some i) → predicate_id st' p = Some (Some i)) ∧
  (∀ i x, id_object st i = Some (Some x) → id_object st' i = Some (Some x)) ∧
  (∀ i p, id_predicate st i = Some (Some p) → id_predicate st' i = Some (Some p)) ∧
  (∀ x i, object_id st x = Some None → object_id st' x = Some (Some i) → nv_count st < i) ∧
  (∀ p i, predicate_id st p = Some None → predicate_id st' p = Some (Some i) → pred_count st < i).
Proof. exact (λ H, ids_stable st st' (reachable_wf st H)). Qed.
Print Assumptions C05_stable.
Example C05_example : rtc step ex_base ex_top.
Proof.
  exact (rtc_l _ _ _ _ (step_commit _ _ _ ex_commit2) (rtc_l _ _ _ _ (step_commit _ _ _ ex_commit3) (rtc_refl _ _))).
Qed.

(** ** C06. *)
Theorem C06_exists_iff_enumerated st T t : reachable st → triples st = Some T →
  ∃ b, triple_exists st t = Some b ∧ (b = true ↔ t ∈ T).
Proof. exact (λ H, exists_iff_enumerated st (reachable_wf st H) T t). Qed.
Print Assumptions C06_exists_iff_enumerated.
Example C06_example : triples ex_top = Some [mkt 1 1 2; mkt 2 1 1; mkt 2 2 4] ∧ triple_exists ex_top (mkt 2 2 4) = Some true
  ∧ triple_exists ex_top (mkt 1 2 3) = Some false ∧ triple_exists ex_top (mkt 0 2 3) = Some false.
Proof. by vm_compute. Qed.

(** ** C07.  [SSorted] is strict ascending order by subject, predicate, object. *)
Theorem C07_sorted st : reachable st → ∃ T, triples st = Some T ∧ SSorted T ∧ NoDup T.
Proof. exact (λ H, triples_total st (reachable_wf st H)). Qed.
Print Assumptions C07_sorted.

(** ** C08. *)
Theorem C08_restricted st T : reachable st → triples st = Some T →
  (∀ s, triples_s st s = Some (filter (λ t, t_s t = s) T)) ∧
  (∀ s p, triples_sp st s p = Some (filter (λ t, t_s t = s ∧ t_p t = p) T)) ∧
  (∀ p, 1 ≤ p → triples_p st p = Some (filter (λ t, t_p t = p) T)) ∧
  (∀ o, triples_o st o = Some (filter (λ t, t_o t = o) T)).
Proof. exact (λ H, restricted st (reachable_wf st H) T). Qed.
Print Assumptions C08_restricted.
Example C08_example : triples_o ex_top 2 = Some [mkt 1 1 2] ∧ triples_p ex_top 1 = Some [mkt 1 1 2; mkt 2 1 1].
Proof. by vm_compute. Qed.

(** ** C09. *)
Theorem C09_single st T s p : reachable st → st ≠ [] → triples st = Some T →
  ∃ r, single_triple_sp st s p = Some r ∧
    match r with
    | Some t => t ∈ T ∧ t_s t = s ∧ t_p t = p
    | None => ∀ t, t ∈ T → ¬ (t_s t = s ∧ t_p t = p)
    end.
Proof. exact (λ H, single_sp st (reachable_wf st H) T s p). Qed.
Print Assumptions C09_single.
Example C09_example : single_triple_sp ex_top 1 1 = Some (Some (mkt 1 1 2)) ∧ single_triple_sp ex_top 1 2 = Some None.
Proof. by vm_compute. Qed.

(** ** C10. *)
Theorem C10_triple_count st T : reachable st → triples st = Some T → triple_count st = Some (length T).
Proof. exact (λ H, counts st (reachable_wf st H) T). Qed.
Print Assumptions C10_triple_count.
Theorem C10_layer_counts st l : reachable st → l ∈ st →
  ∃ A R, l_additions l = Some A ∧ l_removals l = Some R ∧
    addition_count l = Some (length A) ∧ removal_count l = Some (length R).
Proof. exact (λ H, layer_counts st (reachable_wf st H) l). Qed.
Print Assumptions C10_layer_counts.
Theorem C10_sums st : reachable st →
  addition_counts st = Some (foldr Nat.add 0 ((λ l, length (default [] (l_additions l))) <$> st)) ∧
  removal_counts st = Some (foldr Nat.add 0 ((λ l, length (default [] (l_removals l))) <$> st)).
Proof. exact (λ H, sum_counts st (reachable_wf st H)). Qed.
Print Assumptions C10_sums.
Example C10_example : triple_count ex_top = Some 3 ∧ addition_counts ex_top = Some 5 ∧ removal_counts ex_top = Some 2.
Proof. by vm_compute. Qed.

(** ** C11.  The topmost layer records the difference with its parent. *)
Theorem C11_net_change l st : reachable (l :: st) → ∃ T T' A R,
  triples st = Some T ∧ triples (l :: st) = Some T' ∧ l_additions l = Some A ∧ l_removals l = Some R ∧
  (∀ t, t ∈ A ↔ t ∈ T' ∧ t ∉ T) ∧ (∀ t, t ∈ R ↔ t ∈ T ∧ t ∉ T') ∧ SSorted A ∧ SSorted R.
Proof. exact (λ H, net_change l st (reachable_wf _ H)). Qed.
Print Assumptions C11_net_change.
Example C11_example : (l_additions <$> head ex_top) = Some (Some [mkt 2 2 4]) ∧ (l_removals <$> head ex_top) = Some (Some [mkt 1 2 3]).
Proof. by vm_compute. Qed.

(** The queries for some of the additions and removals of a layer.  By object they are right for objects that occur
    there; otherwise see C12_delta_by_object_refuted. *)
Theorem C11_deltas st l : reachable st → l ∈ st → ∃ A R, l_additions l = Some A ∧ l_removals l = Some R ∧
  (∀ t, ∃ b, addition_exists l t = Some b ∧ (b = true ↔ t ∈ A)) ∧ (∀ t, ∃ b, removal_exists l t = Some b ∧ (b = true ↔ t ∈ R)) ∧
  (∀ s, l_additions_s l s = Some (filter (λ t, t_s t = s) A) ∧ l_removals_s l s = Some (filter (λ t, t_s t = s) R)) ∧
  (∀ s p, l_additions_sp l s p = Some (filter (λ t, t_s t = s ∧ t_p t = p) A) ∧ l_removals_sp l s p = Some (filter (λ t, t_s t = s ∧ t_p t = p) R)) ∧
  (∀ p, 1 ≤ p → l_additions_p l p = Some (filter (λ t, t_p t = p) A) ∧ l_removals_p l p = Some (filter (λ t, t_p t = p) R)) ∧
  (∀ o, (∃ t, t ∈ A ∧ t_o t = o) → l_additions_o l o = Some (filter (λ t, t_o t = o) A)) ∧
  (∀ o, (∃ t, t ∈ R ∧ t_o t = o) → l_removals_o l o = Some (filter (λ t, t_o t = o) R)).
Proof. exact (λ H, layer_deltas st (reachable_wf st H) l). Qed.
Print Assumptions C11_deltas.
Example C11_deltas_example : (head ex_top ≫= λ l, l_additions_p l 2) = Some [mkt 2 2 4] ∧ (head ex_top ≫= λ l, l_removals_p l 1) = Some [] ∧
  (head ex_top ≫= λ l, l_removals_o l 3) = Some [mkt 1 2 3].
Proof. by vm_compute. Qed.

(** ** C13.  The changes of the layers above an ancestor are the difference with it. *)
Theorem C13_changes_between top base : reachable (top ++ base) → ∃ T T' C,
  triples base = Some T ∧ triples (top ++ base) = Some T' ∧ stack_changes top = Some C ∧
  (∀ t, (true, t) ∈ C ↔ t ∈ T' ∧ t ∉ T) ∧ (∀ t, (false, t) ∈ C ↔ t ∈ T ∧ t ∉ T') ∧ SSorted (snd <$> C).
Proof. exact (λ H, changes_between top base (reachable_wf _ H)). Qed.
Print Assumptions C13_changes_between.
Example C13_example : stack_changes (take 2 ex_top) = Some [(false, mkt 1 2 3); (true, mkt 2 1 1)].
Proof. by vm_compute. Qed.

(** ** C37. *)
Theorem C37_value_exists st vt : reachable st → ∃ b, value_triple_exists st vt = Some b ∧
  (b = true ↔ ∃ t, value_triple_to_id st vt = Some (Some t) ∧ triple_exists st t = Some true).
Proof. exact (λ H, value_exists_iff st vt (reachable_wf _ H)). Qed.
Print Assumptions C37_value_exists.
Theorem C37_round_trip st vt t : reachable st →
  value_triple_to_id st vt = Some (Some t) ↔ id_triple_to_string st t = Some (Some vt).
Proof. exact (λ H, string_id_round st vt t (reachable_wf _ H)). Qed.
Print Assumptions C37_round_trip.
Theorem C37_shown st L vt : reachable st → shown st = Some L →
  value_triple_exists st vt = Some true ↔ vt ∈ L.
Proof. exact (λ H, shown_value_exists st L vt (reachable_wf _ H)). Qed.
Print Assumptions C37_shown.
(** The partially resolved form has the ids of the strings that are known; it is resolved exactly if there is an id triple, *)
Theorem C37_partially_resolved st vt : reachable st → ∃ pt, partially_resolved st vt = Some pt ∧
  (∀ t, value_triple_to_id st vt = Some (Some t) ↔ pt = to_resolved t) ∧
  (value_triple_to_id st vt = Some None ↔ is_resolved (pt_s pt) && is_resolved (pt_p pt) && is_resolved (pt_o pt) = false).
Proof. exact (partially_iff st vt). Qed.
Print Assumptions C37_partially_resolved.
(** and with the ids that a descendant has for the other strings it resolves to the id triple there. *)
Theorem C37_resolves_later st st' vt pt nodes preds vals : reachable st → rtc step st st' → partially_resolved st vt = Some pt →
  (∀ s, subject_id st s = Some None → subject_id st' s = Some (nodes s)) →
  (∀ p, predicate_id st p = Some None → predicate_id st' p = Some (preds p)) →
  (∀ v, object_value_id st v = Some None → object_value_id st' v = Some (vals v)) →
  value_triple_to_id st' vt = Some (resolve_with nodes preds vals pt).
Proof. exact (resolve_child st st' vt pt nodes preds vals). Qed.
Print Assumptions C37_resolves_later.
(** Also the form with no ids, of a layer that gives all of them. *)
Theorem C37_unresolved st vt nodes preds vals :
  (∀ s, subject_id st s = Some (nodes s)) → (∀ p, predicate_id st p = Some (preds p)) → (∀ v, object_value_id st v = Some (vals v)) →
  value_triple_to_id st vt = Some (resolve_with nodes preds vals (to_unresolved vt)).
Proof. exact (resolve_unresolved st vt nodes preds vals). Qed.
Print Assumptions C37_unresolved.
Example C37_example :
  partially_resolved ex_base (s_duck, s_says, inr (0, [7])) = Some (PTriple (Resolved 2) (Resolved 2) (Unresolved (inr (0, [7])))) ∧
  value_triple_to_id ex_base (s_duck, s_says, inr (0, [7])) = Some None ∧
  resolve_with (λ _, None) (λ _, None) (λ _, Some 5) (PTriple (Resolved 2) (Resolved 2) (Unresolved (inr (0, [7])))) = Some (mkt 2 2 5).
Proof. vm_compute. split_and!; reflexivity. Qed.

(** ** Limits of C01: triples given by ids that are not those of a string triple of the parent.  An id that does not
    exist makes the commit panic; *)
Theorem C01_unknown_id_refuted : ∃ st t, reachable st ∧ ∀ nvord prord, hash_order nvord → hash_order prord →
  build nvord prord st [AddId t] = None.
Proof.
  exists ex_base, (mkt 99 1 1). split; [exact ex_reach1|]. intros nvord prord H1 H2. vm_compute. reflexivity.
Qed.
Print Assumptions C01_unknown_id_refuted.
(** the id of a value as subject is accepted, and gives a layer whose triples cannot all be shown. *)
Theorem C01_value_subject_refuted : ∃ st t st', reachable st ∧ id_object st (t_s t) ≠ Some None ∧ build id id st [AddId t] = Some st' ∧
  (∃ T, triples st' = Some T ∧ t ∈ T) ∧ id_triple_to_string st' t = Some None.
Proof.
  exists ex_base, (mkt 4 1 1), (default [] (build id id ex_base [AddId (mkt 4 1 1)])). split; [exact ex_reach1|]. split; [by vm_compute|].
  split; [vm_compute; reflexivity|]. split; [|vm_compute; reflexivity].
  eexists. split; [vm_compute; reflexivity|]. apply (elem_of_list_lookup_2 _ 3). reflexivity.
Qed.
Print Assumptions C01_value_subject_refuted.

(** ** Limits of C08.  The predicate id 0 stands for no predicate, but asking for its triples
    gives triples with other predicates: the padding entries of subjects without triples carry
    predicate 0, and the iterator reads the next real entry.  Callers never get the id 0 from
    the interface. *)
Definition gap_ops : list op :=
  [AddValue ([2], [1], inl [1]); AddValue ([4], [2], inl [1]); AddValue ([4], [3], inl [3])].
Definition gap_base : list layer := default [] (build id id [] gap_ops).
Theorem C08_predicate_zero_refuted : ∃ st T, reachable st ∧ triples_p st 0 = Some T ∧ ∃ t, t ∈ T ∧ t_p t ≠ 0.
Proof.
  exists gap_base, [mkt 2 1 1; mkt 4 2 1]. split; [|split].
  - apply (reach_step [] _ reach_nil), (step_commit _ gap_ops). split; [ops_ok|]. exists id, id.
    split_and!; [apply id_order|apply id_order|by vm_compute].
  - by vm_compute.
  - exists (mkt 2 1 1). split; [left|done].
Qed.
Print Assumptions C08_predicate_zero_refuted.
