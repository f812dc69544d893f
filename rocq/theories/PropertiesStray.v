(** C63: calls of the builder with ids that stand for nothing.  [reachable] is in Spec.v,
    the conditions on the calls in SpecStray.v. *)
From Verif Require Import Prelude Succinct TripleFiles Merge Layer Builder Spec SpecStray ReachFacts StrayFacts
  PropertiesLayer.

(** ** Such calls are as if they had not been made: the layer that is committed is the same,
    file for file.  Removals may be given any ids up to the numbers of the parent, 0
    included, of the wrong kind or of no triple. *)
Theorem C63_within_partial st cs nvord prord : reachable st → Forall (id_call_within st) cs →
  build nvord prord st cs = build nvord prord st (filter (op_ok st) cs).
Proof. exact (λ H, stray_within st cs nvord prord (reachable_wf st H)). Qed.
Print Assumptions C63_within_partial.
(** When no string is new to the parent, removals may be given any ids whatever. *)
Theorem C63_no_new_strings_partial st cs nvord prord : reachable st → Forall (id_call_any st) cs →
  (∀ vt, AddValue vt ∈ cs → strings_known st vt) →
  build nvord prord st cs = build nvord prord st (filter (op_ok st) cs).
Proof. exact (λ H Hcs Hk, stray_build st cs nvord prord (reachable_wf st H) Hcs (or_intror Hk)). Qed.
Print Assumptions C63_no_new_strings_partial.
(** So a commit succeeds and does what the other calls ask for. *)
Theorem C63_changes_partial st cs nvord prord L : reachable st → Forall (id_call_within st) cs →
  hash_order nvord → hash_order prord → shown st = Some L →
  ∃ st' L', build nvord prord st cs = Some st' ∧ shown st' = Some L' ∧ NoDup L' ∧
    ∀ vt, vt ∈ L' ↔ after_change (added st cs) (removed st cs) L vt.
Proof. exact (λ H, stray_shown st cs nvord prord L (reachable_wf st H)). Qed.
Print Assumptions C63_changes_partial.

(** Zeroes, a value as subject (4 is the value of [s_duck]), nodes in no triple, and the
    predicate of another triple, among calls that do something. *)
Definition ex_stray : list op :=
  [RemoveId (mkt 0 0 0); AddId (mkt 1 0 2); AddValue ([77], s_says, inl [78]); RemoveId (mkt 4 1 2);
   RemoveId (mkt 1 0 2); RemoveId (mkt 0 2 4); RemoveId (mkt 2 1 1); RemoveId (mkt 1 1 2)].
Example C63_example : Forall (id_call_within ex_base) ex_stray ∧
  filter (op_ok ex_base) ex_stray =
    [AddValue ([77], s_says, inl [78]); RemoveId (mkt 2 1 1); RemoveId (mkt 1 1 2)] ∧
  (build id id ex_base ex_stray ≫= shown) =
    Some [(s_cow, s_says, inr v_moo); (s_duck, s_says, inr v_quack); ([77], s_says, inl [78])].
Proof.
  split; [|split; vm_compute; reflexivity].
  repeat (apply Forall_cons; split); try apply Forall_nil; try exact I;
    unfold id_call_within, ids_within, has_zero; change (nv_count ex_base) with 4; change (pred_count ex_base) with 2;
    unfold t_s, t_p, t_o; cbn [fst snd mkt]; first [lia | right; lia].
Qed.
Example C63_example_known : Forall (id_call_any ex_base) [RemoveId (mkt 9 9 9); AddValue (s_duck, s_likes, inl s_cow); RemoveId (mkt 1 1 5)] ∧
  strings_known ex_base (s_duck, s_likes, inl s_cow) ∧
  filter (op_ok ex_base) [RemoveId (mkt 9 9 9); AddValue (s_duck, s_likes, inl s_cow); RemoveId (mkt 1 1 5)] =
    [AddValue (s_duck, s_likes, inl s_cow)].
Proof.
  split; [|split; [exists (mkt 2 1 1)|]; vm_compute; reflexivity].
  repeat (apply Forall_cons; split); try apply Forall_nil; exact I.
Qed.

(** ** Ids above those of the parent are not ids of nothing: the builder hands them out in
    secret to the new strings it is given.  A removal by such ids, which no layer has and no
    call has returned, takes back an addition by strings. *)
Theorem C63_above_refuted : ∃ st vt t nvord prord st1 st2 L1 L2, reachable st ∧ hash_order nvord ∧ hash_order prord ∧
  id_vt st t = None ∧
  build nvord prord st [AddValue vt] = Some st1 ∧ shown st1 = Some L1 ∧ vt ∈ L1 ∧
  build nvord prord st [AddValue vt; RemoveId t] = Some st2 ∧ shown st2 = Some L2 ∧ vt ∉ L2.
Proof.
  exists ex_base, ([77], [66], inl [55]), (mkt 5 3 6), id, id.
  eexists _, _, _, _. split; [exact ex_reach1|]. split; [apply id_order|]. split; [apply id_order|].
  split; [vm_compute; reflexivity|]. split; [vm_compute; reflexivity|]. split; [vm_compute; reflexivity|].
  split; [apply (bool_decide_unpack _); vm_compute; exact I|].
  split; [vm_compute; reflexivity|]. split; [vm_compute; reflexivity|].
  apply (bool_decide_unpack _); vm_compute; exact I.
Qed.
Print Assumptions C63_above_refuted.
