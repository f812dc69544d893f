(** The facts about squashing and merging in the form of C16 to C18. *)
From Verif Require Import Prelude ListFacts Succinct SuccinctFacts TripleFiles TripleBuildFacts
  TripleReadFacts Merge MergeFacts Layer StackFacts DictFacts WfFacts Builder InternFacts SameFacts Rollup RollupSame Squash
  MergeBase Spec BuilderFacts CommitFacts HistoryFacts SquashFacts MergeBaseFacts ReachFacts ApiFacts.

Lemma committed_nil_strings V L l : committed [] V [] l → (∀ vt, vt ∈ V ↔ vt ∈ L) → exact_strings l L.
Proof.
  intros Hc HV. assert (Hn : ∀ vt : vtriple, vt ∉ []) by (intros vt ?%elem_of_nil; done). split.
  - intros s. rewrite <-l_objs_inl, (cm_objs _ _ _ _ Hc). setoid_rewrite HV. split.
    + intros (_ & vt & Hvt & _ & [E|E]); exists vt; (split; [done|]); [left; by injection E|by right].
    + intros (vt & Hvt & E). split; [by intros ?%elem_of_nil|]. exists vt. split; [done|]. split; [done|].
      destruct E as [->|E]; [by left|by right].
  - intros p. rewrite (cm_prs _ _ _ _ Hc). setoid_rewrite HV. split.
    + intros (_ & vt & Hvt & _ & E); eauto.
    + intros (vt & Hvt & E). split; [by intros ?%elem_of_nil|]. eauto.
  - intros v. rewrite <-l_objs_inr, (cm_objs _ _ _ _ Hc). setoid_rewrite HV. split.
    + intros (_ & vt & Hvt & _ & [E|E]); [done|]. eauto.
    + intros (vt & Hvt & E). split; [by intros ?%elem_of_nil|]. eauto.
  - split_and!; apply ssorted_nodup, Hc.
Qed.
Lemma shown_perm st st' L : wf st → wf st' → shown st = Some L → (∀ vt, holds st' vt ↔ holds st vt) →
  ∃ L', shown st' = Some L' ∧ L' ≡ₚ L.
Proof.
  intros Hw Hw' E Hh. destruct (shown_ok st Hw) as (L1 & E1 & N1 & H1), (shown_ok st' Hw') as (L' & E' & N' & H').
  rewrite E in E1. injection E1 as <-. exists L'. split; [done|]. apply NoDup_Permutation; [done|done|].
  intros vt. by rewrite H1, H'.
Qed.
Lemma added_values st L : added st (AddValue <$> L) = L ∧ removed st (AddValue <$> L) = [] ∧
  added st (RemoveValue <$> L) = [] ∧ removed st (RemoveValue <$> L) = L ∧
  Forall (op_ok st) (AddValue <$> L) ∧ Forall (op_ok st) (RemoveValue <$> L).
Proof.
  unfold added, removed. induction L as [|vt L (H1 & H2 & H3 & H4 & H5 & H6)]; [split_and!; try done; constructor|].
  rewrite !fmap_cons. cbn [omap list_omap op_added op_removed op_vt]. unfold omap in *. rewrite H1, H2, H3, H4. split_and!; try done.
  - by constructor; [eexists|].
  - by constructor; [eexists|].
Qed.

Lemma squash_answers st L nvord prord : wf st → shown st = Some L → hash_order nvord → hash_order prord →
  ∃ l, squash st = Some l ∧ (∃ L', shown [l] = Some L' ∧ L' ≡ₚ L) ∧ exact_strings l L ∧
    build nvord prord [] (AddValue <$> L) = Some [l].
Proof.
  intros Hw HL Hn Hp. pose proof (λ vt, shown_holds st L vt Hw HL) as HV.
  destruct (squash_committed st L Hw HV) as (l & E & Hc). exists l. split; [done|].
  pose proof (committed_wf _ _ _ _ wf_nil Hc) as Hwl. split_and!.
  - apply (shown_perm st); [done..|]. intros vt. rewrite (committed_nil_holds L l vt Hc). apply HV.
  - by apply (committed_nil_strings L).
  - destruct (added_values [] L) as (A1 & A2 & _ & _ & A5 & _).
    destruct (build_ok [] (AddValue <$> L) nvord prord wf_nil A5 Hn Hp) as (l' & -> & Hc').
    rewrite A1, A2 in Hc'. by rewrite (committed_unique [] L [] L [] l l' wf_nil).
Qed.

Lemma added_app st cs cs' : added st (cs ++ cs') = added st cs ++ added st cs'.
Proof. apply omap_app. Qed.
Lemma removed_app st cs cs' : removed st (cs ++ cs') = removed st cs ++ removed st cs'.
Proof. apply omap_app. Qed.
Lemma squash_upto_answers top st L L0 nvord prord : wf (top ++ st) → st ≠ [] →
  shown (top ++ st) = Some L → shown st = Some L0 → hash_order nvord → hash_order prord →
  ∃ l, squash_upto top st = Some l ∧ (∃ L', shown (l :: st) = Some L' ∧ L' ≡ₚ L) ∧
    build nvord prord st ((AddValue <$> filter (λ vt, vt ∉ L0) L) ++ (RemoveValue <$> filter (λ vt, vt ∉ L) L0)) = Some (l :: st).
Proof.
  intros Hw Hne HL HL0 Hn Hp. pose proof (wf_drop _ _ Hw) as Hb.
  pose proof (λ vt, shown_holds _ L vt Hw HL) as HV. pose proof (λ vt, shown_holds _ L0 vt Hb HL0) as HV0.
  set (A := filter (λ vt, vt ∉ L0) L). set (R := filter (λ vt, vt ∉ L) L0).
  assert (HA : ∀ vt, vt ∈ A ↔ holds (top ++ st) vt ∧ ¬ holds st vt).
  { intros vt. unfold A. rewrite elem_of_list_filter, HV, HV0. tauto. }
  assert (HR : ∀ vt, vt ∈ R ↔ holds st vt ∧ ¬ holds (top ++ st) vt).
  { intros vt. unfold R. rewrite elem_of_list_filter, HV, HV0. tauto. }
  destruct (squash_upto_committed top st A R Hw Hb Hne HA HR) as (l & E & Hc). exists l. split; [done|].
  pose proof (committed_wf _ _ _ _ Hb Hc) as Hwl. split.
  - apply (shown_perm (top ++ st)); [done..|]. intros vt. rewrite (committed_holds _ _ _ _ Hb Hc vt), HA, HR.
    destruct (holds_dec (top ++ st) vt Hw), (holds_dec st vt Hb); tauto.
  - destruct (added_values st A) as (A1 & A2 & _ & _ & A5 & _). destruct (added_values st R) as (_ & _ & R1 & R2 & _ & R5).
    destruct (build_ok st ((AddValue <$> A) ++ (RemoveValue <$> R)) nvord prord Hb) as (l' & -> & Hc'); [|done..|].
    { apply Forall_app. split; done. }
    rewrite added_app, removed_app, A1, A2, R1, R2, app_nil_r in Hc'. cbn [app] in Hc'.
    by rewrite (committed_unique st A R A R l l' Hb).
Qed.

Lemma merge_answers_of ls : (∀ k, k ∈ ls → base_of k) → (∀ k, k ∈ ls → wf [k]) →
  ∃ l L, merge_base_layers ls = Some l ∧ shown [l] = Some L ∧ NoDup L ∧ exact_strings l L ∧
    ∀ vt, vt ∈ L ↔ ∃ k L', k ∈ ls ∧ shown [k] = Some L' ∧ vt ∈ L'.
Proof.
  intros Hb Hw. assert (HV : ∃ V : list vtriple, ∀ vt, vt ∈ V ↔ ∃ k, k ∈ ls ∧ holds [k] vt).
  { clear Hb. induction ls as [|k ls IH].
    - exists []. intros vt. split; [by intros ?%elem_of_nil|]. intros (k & Hk & _). by apply elem_of_nil in Hk.
    - destruct IH as [V HV]; [intros; apply Hw; by right|]. destruct (shown_list [k]) as [V' HV']; [apply Hw; left|].
      exists (V' ++ V). intros vt. rewrite elem_of_app, HV, HV'. split.
      + intros [?|(k' & ? & ?)]; [exists k; split; [left|done]|exists k'; split; [by right|done]].
      + intros (k' & [->|?]%elem_of_cons & ?); [by left|right; eauto]. }
  destruct HV as [V HV].
  destruct (merge_base_committed ls V) as (l & E & Hc); [done..|].
  destruct (shown_ok [l]) as (L & EL & ND & HL); [by eapply committed_wf; [apply wf_nil|]|].
  exists l, L. assert (HVL : ∀ vt, vt ∈ V ↔ vt ∈ L) by (intros vt; rewrite HL; symmetry; by apply committed_nil_holds).
  split_and!; try done.
  - by apply (committed_nil_strings V).
  - intros vt. rewrite <-HVL, HV. split.
    + intros (k & Hk & Hh). destruct (shown_ok [k] (Hw k Hk)) as (L' & E' & _ & H'). exists k, L'. by rewrite H'.
    + intros (k & L' & Hk & E' & Hvt). exists k. split; [done|]. exact (proj1 (shown_holds [k] L' vt (Hw k Hk) E') Hvt).
Qed.
Lemma merge_answers ls : (∀ k, k ∈ ls → based k) →
  ∃ l L, merge_base_layers ls = Some l ∧ shown [l] = Some L ∧ NoDup L ∧ exact_strings l L ∧
    ∀ vt, vt ∈ L ↔ ∃ k L', k ∈ ls ∧ shown [k] = Some L' ∧ vt ∈ L'.
Proof. intros Hb. apply merge_answers_of; intros k Hk; [by apply based_committed, Hb|apply reachable_wf, reach_based; auto]. Qed.

(** for examples *)
Lemma based_squash_by st : reachable st → st ≠ [] → ∀ k, k ∈ from_option (λ l, [l]) [] (squash st) → based k.
Proof.
  intros Hr Hne k. destruct (squash st) as [l|] eqn:E; cbn; [|by intros ?%elem_of_nil].
  intros ->%elem_of_list_singleton. by eapply based_squash.
Qed.
Lemma based_commit_by cs st : commits_to [] cs st → ∀ k, k ∈ st → based k.
Proof.
  intros Hc k. destruct (commits_to_ok _ _ _ wf_nil Hc) as (l & -> & _). intros ->%elem_of_list_singleton.
  by eapply based_commit.
Qed.
Lemma merge_wrong_by st L L' : reachable st → length st = 1 → shown st = Some L →
  (merge_base_layers st ≫= λ l, shown [l]) = Some L' → ¬ (∀ vt, vt ∈ L' ↔ vt ∈ L) →
  ∃ k l L L', reachable [k] ∧ merge_base_layers [k] = Some l ∧
    shown [k] = Some L ∧ shown [l] = Some L' ∧ ¬ (∀ vt, vt ∈ L' ↔ vt ∈ L).
Proof.
  intros Hr Hl HL Hm Hn. destruct st as [|k [|]]; [done| |done].
  destruct (merge_base_layers [k]) as [l|] eqn:E; [|done].
  exists k, l, L, L'. done.
Qed.
