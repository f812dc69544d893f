(** Properties of the layer interface, for well-formed stacks. *)
From Verif Require Import BuilderFacts SameFacts RollupSame Rollup Prelude ListFacts Succinct SuccinctFacts TripleFiles TripleBuildFacts
  TripleReadFacts TripleIterFacts Merge MergeFacts Layer StackFacts StackCountFacts DictFacts WfFacts Builder InternFacts
  Spec BuilderFacts CommitFacts HistoryFacts ReachFacts.

(** ** Shown triples *)
Lemma shown_ok st : wf st → ∃ L, shown st = Some L ∧ NoDup L ∧ ∀ vt, vt ∈ L ↔ holds st vt.
Proof.
  intros Hw. unfold shown. rewrite triples_ok by apply Hw. cbn [mbind option_bind].
  assert (Hv : ∀ u, u ∈ view st → ∃ vt, den st vt u) by (intros u Hu%view_elem; by apply in_view_den).
  assert (Hm : ∀ V, (∀ u, u ∈ V → ∃ vt, den st vt u) → NoDup V →
    ∃ L, mapM (λ t, r ← id_triple_to_string st t; r) V = Some L ∧ NoDup L ∧
      ∀ vt, vt ∈ L ↔ ∃ u, u ∈ V ∧ den st vt u).
  { induction V as [|u V IH]; intros HV Hnd.
    - exists []. split; [done|]. split; [constructor|]. intros vt. split; [by intros ?%elem_of_nil|].
      by intros (u & ?%elem_of_nil & _).
    - apply NoDup_cons in Hnd as [Hu Hnd]. destruct (HV u) as [vt Hvt]; [left|].
      destruct IH as (L & E & HL & Hin); [intros; apply HV; by right|done|].
      exists (vt :: L). cbn [mapM]. rewrite (proj2 (id_triple_to_string_iff st (wf_dicts _ Hw) u vt) Hvt).
      cbn [mbind option_bind]. rewrite E. cbn. split; [done|]. split.
      + apply NoDup_cons. split; [|done]. intros (u' & Hu' & Hd)%Hin. apply Hu. by rewrite (den_fun st vt u u').
      + intros vt'. rewrite elem_of_cons, Hin. split.
        * intros [->|(u' & ? & ?)]; [exists u; split; [left|done]|exists u'; split; [by right|done]].
        * intros (u' & [->|?]%elem_of_cons & Hd); [left|right; eauto].
          by apply (den_inj st (wf_dicts _ Hw) vt' vt u). }
  destruct (Hm (view st) Hv) as (L & -> & HL & Hin); [apply ssorted_nodup, view_sorted|].
  exists L. split; [done|]. split; [done|]. intros vt. rewrite Hin. unfold holds.
  setoid_rewrite view_elem. split; intros (u & ? & ?); eauto.
Qed.
Lemma shown_holds st L vt : wf st → shown st = Some L → vt ∈ L ↔ holds st vt.
Proof. intros Hw E. destruct (shown_ok st Hw) as (L' & E' & _ & H). rewrite E in E'. injection E' as ->. apply H. Qed.

Lemma commit_shown st cs nvord prord L : wf st → Forall (op_ok st) cs → hash_order nvord → hash_order prord →
  shown st = Some L →
  ∃ st' L', build nvord prord st cs = Some st' ∧ shown st' = Some L' ∧ NoDup L' ∧
    ∀ vt, vt ∈ L' ↔ after_change (added st cs) (removed st cs) L vt.
Proof.
  intros Hw Hcs Hn Hp HL. destruct (build_ok st cs nvord prord Hw Hcs Hn Hp) as (l & E & Hc).
  destruct (shown_ok (l :: st)) as (L' & E' & Hnd & Hin); [by eapply committed_wf|].
  exists (l :: st), L'. split_and!; try done. intros vt. rewrite Hin.
  rewrite (committed_holds _ _ _ _ Hw Hc). unfold after_change. by rewrite (shown_holds st L).
Qed.

Lemma commit_order st cs cs' nvord prord nvord' prord' : wf st →
  Forall (op_ok st) cs → Forall (op_ok st) cs' →
  hash_order nvord → hash_order prord → hash_order nvord' → hash_order prord' →
  (∀ vt, vt ∈ added st cs ↔ vt ∈ added st cs') → (∀ vt, vt ∈ removed st cs ↔ vt ∈ removed st cs') →
  ∃ st', build nvord prord st cs = Some st' ∧ build nvord' prord' st cs' = Some st'.
Proof.
  intros Hw Hcs Hcs' Hn Hp Hn' Hp' HA HR.
  destruct (build_ok st cs nvord prord Hw Hcs Hn Hp) as (l & E & Hc).
  destruct (build_ok st cs' nvord' prord' Hw Hcs' Hn' Hp') as (l' & E' & Hc').
  exists (l :: st). split; [done|]. rewrite E'. rewrite (committed_unique st (added st cs) (removed st cs) (added st cs') (removed st cs') l l'); done.
Qed.

(** ** Strings and ids *)
Section ids.
  Context (st : stack) (Hw : wf st).
  Let Hd : dicts_ok st := wf_dicts _ Hw.
  Lemma subject_id_round s i : subject_id st s = Some (Some i) ↔ id_subject st i = Some (Some s).
  Proof. symmetry. exact (id_subject_iff st Hd i s). Qed.
  Lemma object_node_id_round s i : object_node_id st s = Some (Some i) ↔ id_object st i = Some (Some (inl s)).
  Proof. exact (object_id_iff st (inl s) i Hd). Qed.
  Lemma object_value_id_round v i : object_value_id st v = Some (Some i) ↔ id_object st i = Some (Some (inr v)).
  Proof. exact (object_id_iff st (inr v) i Hd). Qed.
  Lemma subject_id_total s : is_Some (subject_id st s).
  Proof. destruct (object_id_ok st (inl s) Hd) as (r & E & _). cbn in E. unfold object_node_id in E. rewrite E. eauto. Qed.
  Lemma object_value_id_total v : is_Some (object_value_id st v).
  Proof. destruct (object_id_ok st (inr v) Hd) as (r & E & _). cbn in E. rewrite E. eauto. Qed.
  Lemma predicate_id_total v : is_Some (predicate_id st v).
  Proof. destruct (predicate_id_ok st v Hd) as (r & E & _). rewrite E. eauto. Qed.
  Lemma id_object_domain i :
    (1 ≤ i ≤ nv_count st → ∃ x, id_object st i = Some (Some x)) ∧
    (i = 0 ∨ nv_count st < i → id_object st i = Some None).
  Proof.
    destruct (id_object_ok st i Hd) as (r & E & Hr). destruct r as [x|].
    - split; [eauto|lia].
    - split; [lia|done].
  Qed.
  Lemma id_predicate_domain i :
    (1 ≤ i ≤ pred_count st → ∃ x, id_predicate st i = Some (Some x)) ∧
    (i = 0 ∨ pred_count st < i → id_predicate st i = Some None).
  Proof.
    destruct (id_predicate_ok st i Hd) as (r & E & Hr). destruct r as [x|].
    - split; [eauto|lia].
    - split; [lia|done].
  Qed.
  Lemma id_kind i : ∃ r, id_object st i = Some r ∧
    id_subject st i = Some (match r with Some (inl s) => Some s | _ => None end) ∧
    id_object_is_node st i = Some (match r with Some (inl _) => Some true | Some (inr _) => Some false | None => None end) ∧
    id_object_is_value st i = Some (match r with Some (inl _) => Some false | Some (inr _) => Some true | None => None end) ∧
    id_object_node st i = match r with Some (inl s) => Some (Some s) | Some (inr _) => None | None => Some None end ∧
    id_object_value st i = match r with Some (inl _) => None | Some (inr v) => Some (Some v) | None => Some None end.
  Proof.
    destruct (id_object_ok st i Hd) as (r & E & _). exists r. split; [done|].
    unfold id_object_is_value, id_object_node, id_object_value.
    rewrite id_subject_eq, (id_object_is_node_eq st i Hd), E. cbn [mbind option_bind].
    by destruct r as [[?|?]|].
  Qed.
End ids.
Lemma all_counts_ok st : all_counts st = (((all_counts st).1.1, pred_count st), (all_counts st).2) ∧
  (all_counts st).1.1 + (all_counts st).2 = nv_count st.
Proof.
  induction st as [|l st [E1 E2]]; [done|]. cbn [all_counts nv_count pred_count]. rewrite E1. cbn.
  split; [|lia]. f_equal. f_equal. lia.
Qed.

(** ** Stability *)
Lemma wf_step_ids st st' : wf st → step st st' →
  (∀ x i, object_id st x = Some (Some i) → object_id st' x = Some (Some i)) ∧
  (∀ p i, predicate_id st p = Some (Some i) → predicate_id st' p = Some (Some i)) ∧
  (∀ x i, object_id st x = Some None → object_id st' x = Some (Some i) → nv_count st < i) ∧
  (∀ p i, predicate_id st p = Some None → predicate_id st' p = Some (Some i) → pred_count st < i) ∧
  nv_count st ≤ nv_count st' ∧ pred_count st ≤ pred_count st'.
Proof.
  intros Hw Hs. pose proof (step_wf _ _ Hw Hs) as Hw'. destruct Hs as [st cs st' Hc|st st' Hr].
  2:{ destruct (rolled_same st st' Hw Hr) as [_ [H1 H2 H3 H4 _ _]]. split_and!.
      - intros x i. by rewrite H1.
      - intros x i. by rewrite H2.
      - intros x i. rewrite H1. congruence.
      - intros x i. rewrite H2. congruence.
      - by rewrite H3.
      - by rewrite H4. }
  destruct (commits_to_ok _ _ _ Hw Hc) as (l & -> & Hl).
  pose proof (wf_dicts _ Hw) as Hd. pose proof (wf_dicts _ Hw') as Hd'. split_and!.
  - intros x i E. rewrite object_id_stable; [done|done|]. apply object_id_known; eauto.
  - intros x i E. rewrite predicate_id_stable; [done|done|]. apply predicate_id_known; eauto.
  - intros x i E E'. eapply (object_id_new l st Hd' x); [|done]. rewrite <-object_id_known by done.
    intros [j Ej]. congruence.
  - intros x i E E'. eapply (predicate_id_new l st Hd' x); [|done]. rewrite <-predicate_id_known by done.
    intros [j Ej]. congruence.
  - cbn. lia.
  - cbn. lia.
Qed.
Lemma rtc_step_ids st st' : wf st → rtc step st st' →
  (∀ x i, object_id st x = Some (Some i) → object_id st' x = Some (Some i)) ∧
  (∀ p i, predicate_id st p = Some (Some i) → predicate_id st' p = Some (Some i)) ∧
  (∀ x i, object_id st x = Some None → object_id st' x = Some (Some i) → nv_count st < i) ∧
  (∀ p i, predicate_id st p = Some None → predicate_id st' p = Some (Some i) → pred_count st < i) ∧
  nv_count st ≤ nv_count st' ∧ pred_count st ≤ pred_count st' ∧ wf st'.
Proof.
  intros Hw Hs. induction Hs as [st|st st1 st2 H1 _ IH]; [split_and!; auto; congruence|].
  destruct (wf_step_ids _ _ Hw H1) as (A1 & A2 & A3 & A4 & A5 & A6).
  pose proof (step_wf _ _ Hw H1) as Hw1. destruct (IH Hw1) as (B1 & B2 & B3 & B4 & B5 & B6 & B7).
  split_and!; auto; try lia.
  - intros x i E E2. destruct (object_id_ok st1 x (wf_dicts _ Hw1)) as ([j|] & E1 & _).
    + rewrite (B1 _ _ E1) in E2. injection E2 as <-. eauto.
    + specialize (B3 _ _ E1 E2). lia.
  - intros x i E E2. destruct (predicate_id_ok st1 x (wf_dicts _ Hw1)) as ([j|] & E1 & _).
    + rewrite (B2 _ _ E1) in E2. injection E2 as <-. eauto.
    + specialize (B4 _ _ E1 E2). lia.
Qed.

(** ** Queries *)
Section queries.
  Context (st : stack) (Hw : wf st).
  Lemma exists_iff_enumerated T t : triples st = Some T → ∃ b, triple_exists st t = Some b ∧ (b = true ↔ t ∈ T).
  Proof.
    rewrite triples_ok by apply Hw. intros [= <-]. rewrite triple_exists_ok by apply Hw.
    eexists. split; [done|]. apply bool_decide_eq_true.
  Qed.
  Lemma triples_total : ∃ T, triples st = Some T ∧ SSorted T ∧ NoDup T.
  Proof.
    exists (view st). rewrite triples_ok by apply Hw. split; [done|]. pose proof (view_sorted st).
    split; [done|]. by apply ssorted_nodup.
  Qed.
  Lemma restricted T : triples st = Some T →
    (∀ s, triples_s st s = Some (filter (λ t, t_s t = s) T)) ∧
    (∀ s p, triples_sp st s p = Some (filter (λ t, t_s t = s ∧ t_p t = p) T)) ∧
    (∀ p, 1 ≤ p → triples_p st p = Some (filter (λ t, t_p t = p) T)) ∧
    (∀ o, triples_o st o = Some (filter (λ t, t_o t = o) T)).
  Proof.
    rewrite triples_ok by apply Hw. intros [= <-]. split_and!.
    - intros s. apply triples_s_ok; apply Hw.
    - intros s p. apply triples_sp_ok; apply Hw.
    - intros p Hp. apply triples_p_ok; [apply Hw|apply Hw|lia].
    - intros o. apply triples_o_ok; apply Hw.
  Qed.
  Lemma single_sp T s p : st ≠ [] → triples st = Some T → ∃ r, single_triple_sp st s p = Some r ∧
    match r with
    | Some t => t ∈ T ∧ t_s t = s ∧ t_p t = p
    | None => ∀ t, t ∈ T → ¬ (t_s t = s ∧ t_p t = p)
    end.
  Proof. intros Hne. rewrite triples_ok by apply Hw. intros [= <-]. apply single_triple_sp_ok; [apply Hw|done]. Qed.
  Lemma counts T : triples st = Some T → triple_count st = Some (length T).
  Proof. rewrite triples_ok by apply Hw. intros [= <-]. apply triple_count_ok; apply Hw. Qed.
  Lemma layer_counts l : l ∈ st → ∃ A R, l_additions l = Some A ∧ l_removals l = Some R ∧
    addition_count l = Some (length A) ∧ removal_count l = Some (length R).
  Proof.
    intros Hl. assert (files_ok l) as Hf by (eapply Forall_forall; [apply Hw|done]).
    exists (adds l), (rems l). rewrite l_additions_ok, l_removals_ok, addition_count_ok, removal_count_ok by done. done.
  Qed.
  Lemma layer_deltas l : l ∈ st → ∃ A R, l_additions l = Some A ∧ l_removals l = Some R ∧
    (∀ t, ∃ b, addition_exists l t = Some b ∧ (b = true ↔ t ∈ A)) ∧ (∀ t, ∃ b, removal_exists l t = Some b ∧ (b = true ↔ t ∈ R)) ∧
    (∀ s, l_additions_s l s = Some (filter (λ t, t_s t = s) A) ∧ l_removals_s l s = Some (filter (λ t, t_s t = s) R)) ∧
    (∀ s p, l_additions_sp l s p = Some (filter (λ t, t_s t = s ∧ t_p t = p) A) ∧ l_removals_sp l s p = Some (filter (λ t, t_s t = s ∧ t_p t = p) R)) ∧
    (∀ p, 1 ≤ p → l_additions_p l p = Some (filter (λ t, t_p t = p) A) ∧ l_removals_p l p = Some (filter (λ t, t_p t = p) R)) ∧
    (∀ o, (∃ t, t ∈ A ∧ t_o t = o) → l_additions_o l o = Some (filter (λ t, t_o t = o) A)) ∧
    (∀ o, (∃ t, t ∈ R ∧ t_o t = o) → l_removals_o l o = Some (filter (λ t, t_o t = o) R)).
  Proof.
    intros Hl. assert (files_ok l) as Hf by (eapply Forall_forall; [apply Hw|done]).
    exists (adds l), (rems l). rewrite l_additions_ok, l_removals_ok by done. destruct (lf_pos _ Hf) as [sp Hp].
    assert (l_neg l = None ∧ rems l = [] ∨ ∃ tf sp', l_neg l = Some tf ∧ tf_ok sp' tf (rems l)) as Hn.
    { destruct (l_neg l) as [tf|] eqn:E; [|left; split; [done|by apply rems_none]]. destruct (lf_neg _ Hf tf E) as [sp' Hn]. right. by exists tf, sp'. }
    unfold l_removals_s, l_removals_sp, l_removals_p, l_removals_o.
    split; [done|]. split; [done|]. split_and!.
    - intros t. rewrite addition_exists_ok by done. eexists. split; [done|]. apply bool_decide_eq_true.
    - intros t. rewrite removal_exists_ok by done. eexists. split; [done|]. apply bool_decide_eq_true.
    - intros s. split; [by eapply tf_triples_s_ok|]. destruct Hn as [[-> ->]|(tf & sp' & -> & Hn)]; [done|by eapply tf_triples_s_ok].
    - intros s p. split; [by eapply tf_triples_sp_ok|]. destruct Hn as [[-> ->]|(tf & sp' & -> & Hn)]; [done|by eapply tf_triples_sp_ok].
    - intros p Hp1. split; [eapply tf_triples_p_ok; [done|lia]|]. destruct Hn as [[-> ->]|(tf & sp' & -> & Hn)]; [done|]. eapply tf_triples_p_ok; [done|lia].
    - intros o Ho. eapply tf_triples_o_internal_ok; [done|by left].
    - intros o Ho. destruct Hn as [[_ E]|(tf & sp' & -> & Hn)].
      + rewrite E in Ho. destruct Ho as (t & Ht & _). by apply elem_of_nil in Ht.
      + eapply tf_triples_o_internal_ok; [done|by left].
  Qed.
  Lemma layer_deltas_o l : l ∈ st → ∃ A R, l_additions l = Some A ∧ l_removals l = Some R ∧
    (∀ o, tf_triples_o (l_pos l) o = Some (filter (λ t, t_o t = o) A)) ∧
    (∀ o, match l_neg l with None => Some [] | Some tf => tf_triples_o tf o end = Some (filter (λ t, t_o t = o) R)).
  Proof.
    intros Hl. assert (files_ok l) as Hf by (eapply Forall_forall; [apply Hw|done]).
    exists (adds l), (rems l). rewrite l_additions_ok, l_removals_ok by done. destruct (lf_pos _ Hf) as [sp Hp].
    split; [done|]. split; [done|]. split; [intros o; by eapply tf_triples_o_ok|]. intros o.
    destruct (l_neg l) as [tf|] eqn:E; [|by rewrite (rems_none l E)]. destruct (lf_neg _ Hf tf E) as [sp' Hn]. by eapply tf_triples_o_ok.
  Qed.
  Lemma sum_counts : addition_counts st = Some (foldr Nat.add 0 ((λ l, length (default [] (l_additions l))) <$> st)) ∧
    removal_counts st = Some (foldr Nat.add 0 ((λ l, length (default [] (l_removals l))) <$> st)).
  Proof.
    pose proof (wf_files _ Hw) as Hf. rewrite addition_counts_ok, removal_counts_ok by done. clear Hw.
    assert (Ht : ∀ (f : layer → list triple), total (f <$> st) = foldr Nat.add 0 ((λ l, length (f l)) <$> st)).
    { intros f. clear Hf. induction st as [|l st' IH]; [done|]. rewrite !fmap_cons. cbn [foldr]. rewrite <-IH. done. }
    rewrite !Ht. done.
  Qed.
End queries.

(** ** Net change of a layer *)
Lemma net_change_adds l st u : wf (l :: st) → u ∈ adds l ↔ in_view u (l :: st) ∧ ¬ in_view u st.
Proof.
  intros Hw. pose proof (wf_changes _ Hw) as (_ & HA & HR)%changes_ok_cons. rewrite in_view_cons. split.
  - intros Hu. split; [by left|]. by apply HA.
  - intros [[?|[? _]] ?]; done.
Qed.
Lemma net_change_rems l st u : wf (l :: st) → u ∈ rems l ↔ in_view u st ∧ ¬ in_view u (l :: st).
Proof.
  intros Hw. pose proof (wf_changes _ Hw) as (_ & HA & HR)%changes_ok_cons. rewrite in_view_cons. split.
  - intros Hu. split; [by apply HR|]. intros [Ha|[_ ?]]; [|done]. by destruct (HA u Ha).
  - intros [Hv Hn]. destruct (decide (u ∈ rems l)); [done|]. destruct Hn. auto.
Qed.
Lemma net_change l st : wf (l :: st) → ∃ T T' A R,
  triples st = Some T ∧ triples (l :: st) = Some T' ∧ l_additions l = Some A ∧ l_removals l = Some R ∧
  (∀ t, t ∈ A ↔ t ∈ T' ∧ t ∉ T) ∧ (∀ t, t ∈ R ↔ t ∈ T ∧ t ∉ T') ∧ SSorted A ∧ SSorted R.
Proof.
  intros Hw. pose proof (wf_tail _ _ Hw) as Hw'. assert (files_ok l) as Hf.
  { pose proof (wf_files _ Hw) as Hf. by apply Forall_cons in Hf as [? _]. }
  exists (view st), (view (l :: st)), (adds l), (rems l).
  rewrite !triples_ok, l_additions_ok, l_removals_ok by (apply Hw || apply Hw' || done). split_and!; try done.
  - intros t. rewrite !view_elem. by apply net_change_adds.
  - intros t. rewrite !view_elem. by apply net_change_rems.
  - by apply adds_sorted.
  - by apply rems_sorted.
Qed.
Lemma wf_app_r top base : wf (top ++ base) → wf base.
Proof. induction top as [|l top IH]; [done|]. intros Hw. apply IH. by eapply wf_tail. Qed.
Lemma changes_between top base : wf (top ++ base) → ∃ T T' C,
  triples base = Some T ∧ triples (top ++ base) = Some T' ∧ stack_changes top = Some C ∧
  (∀ t, (true, t) ∈ C ↔ t ∈ T' ∧ t ∉ T) ∧ (∀ t, (false, t) ∈ C ↔ t ∈ T ∧ t ∉ T') ∧ SSorted (snd <$> C).
Proof.
  intros Hw. pose proof (wf_app_r _ _ Hw) as Hw'. exists (view base), (view (top ++ base)), (stack_diff top base).
  rewrite !triples_ok by (apply Hw || apply Hw').
  rewrite (stack_changes_ok top base); [|pose proof (wf_files _ Hw) as Hf; by apply Forall_app in Hf as [? _]|apply Hw].
  split_and!; try done.
  - intros t. rewrite stack_diff_elem, !view_elem. tauto.
  - intros t. rewrite stack_diff_elem, !view_elem. tauto.
  - apply stack_diff_sorted.
Qed.

(** ** String triples and id triples *)
Lemma value_exists_iff st vt : wf st → ∃ b, value_triple_exists st vt = Some b ∧
  (b = true ↔ ∃ t, value_triple_to_id st vt = Some (Some t) ∧ triple_exists st t = Some true).
Proof.
  intros Hw. destruct (value_triple_exists_ok st vt Hw) as (b & E & Hb). exists b. split; [done|].
  rewrite Hb. unfold holds. setoid_rewrite (value_triple_to_id_iff st (wf_dicts _ Hw) vt).
  split; intros (u & Hu & Hv); exists u; (split; [done|]).
  - rewrite triple_exists_ok by apply Hw. f_equal. by apply bool_decide_eq_true, view_elem.
  - rewrite triple_exists_ok in Hv by apply Hw. injection Hv as Hv. apply bool_decide_eq_true in Hv. by apply view_elem.
Qed.
Lemma string_id_round st vt t : wf st →
  value_triple_to_id st vt = Some (Some t) ↔ id_triple_to_string st t = Some (Some vt).
Proof.
  intros Hw. rewrite (value_triple_to_id_iff st (wf_dicts _ Hw)). by rewrite (id_triple_to_string_iff st (wf_dicts _ Hw)).
Qed.
Lemma shown_value_exists st L vt : wf st → shown st = Some L → value_triple_exists st vt = Some true ↔ vt ∈ L.
Proof.
  intros Hw HL. rewrite (shown_holds st L) by done. destruct (value_triple_exists_ok st vt Hw) as (b & -> & Hb).
  rewrite <-Hb. naive_solver.
Qed.

Lemma predicate_round st (Hw : wf st) p i : predicate_id st p = Some (Some i) ↔ id_predicate st i = Some (Some p).
Proof. apply predicate_id_iff, Hw. Qed.
Lemma lookups_total st : wf st →
  (∀ s, is_Some (subject_id st s)) ∧ (∀ s, is_Some (object_node_id st s)) ∧ (∀ v, is_Some (object_value_id st v)) ∧
  (∀ p, is_Some (predicate_id st p)) ∧ (∀ i, is_Some (id_subject st i)) ∧ (∀ i, is_Some (id_object st i)) ∧
  (∀ i, is_Some (id_predicate st i)).
Proof.
  intros Hw. pose proof (wf_dicts _ Hw) as Hd. split_and!; intros x.
  - by apply subject_id_total.
  - by apply subject_id_total.
  - by apply object_value_id_total.
  - by apply predicate_id_total.
  - rewrite id_subject_eq. destruct (id_object_ok st x Hd) as (r & -> & _). eauto.
  - destruct (id_object_ok st x Hd) as (r & -> & _). eauto.
  - destruct (id_predicate_ok st x Hd) as (r & -> & _). eauto.
Qed.
Lemma all_counts_agree st : ∃ n v, all_counts st = (n, pred_count st, v) ∧ n + v = nv_count st.
Proof. destruct (all_counts_ok st) as [E H]. eauto. Qed.
Lemma ids_stable st st' : wf st → rtc step st st' →
  (∀ x i, object_id st x = Some (Some i) → object_id st' x = Some (Some i)) ∧
  (∀ p i, predicate_id st p = Some (Some i) → predicate_id st' p = Some (Some i)) ∧
  (∀ i x, id_object st i = Some (Some x) → id_object st' i = Some (Some x)) ∧
  (∀ i p, id_predicate st i = Some (Some p) → id_predicate st' i = Some (Some p)) ∧
  (∀ x i, object_id st x = Some None → object_id st' x = Some (Some i) → nv_count st < i) ∧
  (∀ p i, predicate_id st p = Some None → predicate_id st' p = Some (Some i) → pred_count st < i).
Proof.
  intros Hw Hs. destruct (rtc_step_ids _ _ Hw Hs) as (A1 & A2 & A3 & A4 & A5 & A6 & Hw').
  split_and!; auto.
  - intros i x. rewrite <-!object_id_iff by apply Hw || apply Hw'. auto.
  - intros i x. rewrite <-!predicate_id_iff by apply Hw || apply Hw'. auto.
Qed.

(** ** Equal answers *)
Lemma same_layer_answers st st' : wf st → wf st' → st ≠ [] → st' ≠ [] → same_layer st st' → same_answers st st'.
Proof.
  intros Hw Hw' Hne Hne' Hs. pose proof (wf_dicts _ Hw) as Hd. pose proof (wf_dicts _ Hw') as Hd'.
  assert (view st = view st') as Hv by apply view_ext, Hs.
  assert (triples st = triples st') as Ht by (rewrite !triples_ok by (apply Hw || apply Hw'); by rewrite Hv).
  destruct (triples_total st Hw) as (T & ET & _). assert (ET' : triples st' = Some T) by congruence.
  destruct (restricted st Hw T ET) as (R1 & R2 & R3 & R4).
  destruct (restricted st' Hw' T ET') as (R1' & R2' & R3' & R4').
  assert (Hid : ∀ i, id_object st i = id_object st' i) by (intros i; by apply same_id_object).
  assert (Hip : ∀ i, id_predicate st i = id_predicate st' i) by (intros i; by apply same_id_predicate).
  assert (Hsub : ∀ i, id_subject st i = id_subject st' i) by (intros i; by rewrite !id_subject_eq, Hid).
  assert (Hstr : ∀ t, id_triple_to_string st t = id_triple_to_string st' t).
  { intros t. unfold id_triple_to_string. by rewrite Hsub, Hip, Hid. }
  assert (Hex : ∀ t, triple_exists st t = triple_exists st' t).
  { intros t. rewrite !triple_exists_ok by (apply Hw || apply Hw'). by rewrite Hv. }
  split; [apply Hs|apply Hs|apply Hs|intros s; apply (sl_obj _ _ Hs (inl s))|apply Hs
    |intros s; apply (sl_obj _ _ Hs (inl s))|intros s; apply (sl_obj _ _ Hs (inr s))|done|done|done| |done| |done| | | | | | |].
  - intros i. by rewrite !id_object_is_node_eq, Hid.
  - intros vt. unfold value_triple_exists, value_triple_to_id.
    change (subject_id st vt.1.1) with (object_id st (inl vt.1.1)).
    change (subject_id st' vt.1.1) with (object_id st' (inl vt.1.1)).
    rewrite !(sl_obj _ _ Hs), (sl_pred _ _ Hs).
    destruct (object_id st' (inl vt.1.1)) as [[i|]|]; cbn [mbind option_bind]; [|done..].
    destruct (predicate_id st' vt.1.2) as [[j|]|]; cbn [mbind option_bind]; [|done..].
    destruct (object_id st' vt.2) as [[k|]|]; cbn [mbind option_bind]; [|done..]. apply Hex.
  - intros s. by rewrite R1, R1'.
  - intros s p. by rewrite R2, R2'.
  - intros p Hp. by rewrite R3, R3'.
  - intros o. by rewrite R4, R4'.
  - intros s p. destruct (single_sp st Hw T s p Hne ET) as (r & -> & Hr).
    destruct (single_sp st' Hw' T s p Hne' ET') as (r' & -> & Hr').
    destruct r as [t|], r' as [t'|]; try done.
    + destruct Hr as (? & ?). by destruct (Hr' t).
    + destruct Hr' as (? & ?). by destruct (Hr t').
  - by rewrite (counts st Hw T ET), (counts st' Hw' T ET').
  - unfold shown. rewrite Ht. destruct (triples st') as [L|]; [|done]. cbn [mbind option_bind].
    clear -Hstr. induction L as [|t L IH]; [done|]. cbn. by rewrite Hstr, IH.
Qed.
Lemma rolled_ne st st' : rolled st st' → st ≠ [] ∧ st' ≠ [].
Proof.
  induction 1 as [st l|mem st l|mem disk st l Hne|top st st' _ [? ?]]; (split; [|done]) || split.
  - done.
  - by destruct mem.
  - rewrite app_assoc. by destruct (mem ++ disk).
  - by destruct top.
  - by destruct top.
Qed.
Lemma rolled_answers st st' : wf st → rolled st st' → same_answers st' st.
Proof.
  intros Hw Hr. destruct (rolled_same st st' Hw Hr) as [Hw' Hs]. destruct (rolled_ne st st' Hr).
  by apply same_layer_answers.
Qed.

(** ** Commits on top of a layer and on top of its rollup write the same layer *)
Lemma same_committed st st' A R l : wf st → wf st' → st ≠ [] → st' ≠ [] → same_layer st st' →
  committed st A R l → committed st' A R l.
Proof.
  intros Hw Hw' Hne Hne' Hs [C1 C2 C3 C4 C5 C6 C7 C8 C9].
  pose proof (wf_dicts _ Hw) as Hd. pose proof (wf_dicts _ Hw') as Hd'. split; try done.
  - intros x. by rewrite C6, (same_objs st st' x Hd Hd' Hs).
  - intros x. by rewrite C7, (same_preds st st' x Hd Hd' Hs).
  - destruct C8 as (T & ? & E & HT). exists T. split; [done|]. split.
    + rewrite bool_decide_eq_true_2 in E by done. by rewrite bool_decide_eq_true_2 by done.
    + intros u. rewrite HT. setoid_rewrite (sl_view _ _ Hs). pose proof (same_cons_layer l st st' Hs) as Hs'.
      setoid_rewrite (λ vt, same_den _ _ vt u Hs'). done.
  - rewrite decide_False in C9 by done. rewrite decide_False by done.
    destruct C9 as (T & tf & ? & ? & ? & HT). exists T, tf. split; [done|]. split; [done|]. split; [done|].
    intros u. rewrite HT. setoid_rewrite (sl_view _ _ Hs). setoid_rewrite (λ vt, same_den _ _ vt u Hs). done.
Qed.
Lemma same_op_vt st st' c : wf st → wf st' → same_layer st st' → op_vt st c = op_vt st' c.
Proof.
  intros Hw Hw' Hs. destruct c as [vt|t|vt|t]; cbn [op_vt]; try done;
    unfold id_vt, id_triple_to_string; rewrite !id_subject_eq;
    by rewrite !(same_id_object st st' _ (wf_dicts _ Hw) (wf_dicts _ Hw') Hs),
      (same_id_predicate st st' _ (wf_dicts _ Hw) (wf_dicts _ Hw') Hs).
Qed.
Lemma same_commit st st' cs nvord prord nvord' prord' : wf st → wf st' → st ≠ [] → st' ≠ [] → same_layer st st' →
  Forall (op_ok st) cs → hash_order nvord → hash_order prord → hash_order nvord' → hash_order prord' →
  ∃ l, build nvord prord st cs = Some (l :: st) ∧ build nvord' prord' st' cs = Some (l :: st') ∧
    wf (l :: st) ∧ wf (l :: st') ∧ same_layer (l :: st) (l :: st').
Proof.
  intros Hw Hw' Hne Hne' Hs Hcs Hn Hp Hn' Hp'.
  assert (Forall (op_ok st') cs) as Hcs'.
  { eapply Forall_impl; [exact Hcs|]. intros c Hc. unfold op_ok in *. by rewrite <-(same_op_vt st st'). }
  destruct (build_ok st cs nvord prord Hw Hcs Hn Hp) as (l & E & Hc).
  destruct (build_ok st' cs nvord' prord' Hw' Hcs' Hn' Hp') as (l' & E' & Hc').
  assert (added st cs = added st' cs) as EA.
  { clear -Hw Hw' Hs. unfold added. induction cs as [|c cs IH]; [done|]. cbn. rewrite IH.
    replace (op_added st' c) with (op_added st c); [done|]. destruct c; cbn [op_added]; try done; by apply same_op_vt. }
  assert (removed st cs = removed st' cs) as ER.
  { clear -Hw Hw' Hs. unfold removed. induction cs as [|c cs IH]; [done|]. cbn. rewrite IH.
    replace (op_removed st' c) with (op_removed st c); [done|]. destruct c; cbn [op_removed]; try done; by apply same_op_vt. }
  assert (l = l') as <-.
  { rewrite EA, ER in Hc. apply (same_committed st st') in Hc; [|done..].
    by apply (committed_unique st' (added st' cs) (removed st' cs) (added st' cs) (removed st' cs) l l'). }
  exists l. split; [done|]. split; [done|]. pose proof (committed_wf _ _ _ _ Hw Hc).
  split; [done|]. split; [by eapply committed_wf|]. by apply same_cons_layer.
Qed.
Lemma rolled_commit st st' cs nvord prord nvord' prord' : wf st → rolled st st' →
  Forall (op_ok st) cs → hash_order nvord → hash_order prord → hash_order nvord' → hash_order prord' →
  ∃ l, build nvord prord st cs = Some (l :: st) ∧ build nvord' prord' st' cs = Some (l :: st') ∧
    same_answers (l :: st') (l :: st).
Proof.
  intros Hw Hr Hcs Hn Hp Hn' Hp'. destruct (rolled_same st st' Hw Hr) as [Hw' Hs%same_sym]. destruct (rolled_ne st st' Hr).
  destruct (same_commit st st' cs nvord prord nvord' prord') as (l & E & E' & Hw1 & Hw2 & Hs'); try done.
  exists l. split; [done|]. split; [done|]. apply same_layer_answers; [done|done|done|done|]. by apply same_sym.
Qed.
Lemma rollup_answers st : wf st → st ≠ [] → ∃ l, rollup st = Some l ∧ same_answers [l] st.
Proof.
  intros Hw Hne. destruct (rollup_same st Hw) as (l & E & _ & Hw' & Hs). exists l. split; [done|].
  by apply same_layer_answers.
Qed.
Lemma imprecise_answers mem st : wf (mem ++ st) → mem ≠ [] →
  ∃ l, imprecise_rollup_upto mem = Some l ∧ same_answers (l :: st) (mem ++ st).
Proof.
  intros Hw Hne. destruct (imprecise_rollup_same mem st Hw) as (l & E & Hw' & Hs). exists l. split; [done|].
  apply same_layer_answers; try done. by destruct mem.
Qed.
Lemma upto_answers mem disk st : wf (mem ++ disk ++ st) → mem ++ disk ≠ [] → Forall (λ l, l_nvmap l = l_pmap l) mem →
  ∃ l, rollup_upto mem disk = Some l ∧ same_answers (l :: st) (mem ++ disk ++ st).
Proof.
  intros Hw Hne Hm. destruct (rollup_upto_same mem disk st Hw Hm) as (l & E & Hw' & Hs). exists l. split; [done|].
  apply same_layer_answers; try done. rewrite app_assoc. by destruct (mem ++ disk).
Qed.

(** to show a concrete rollup by computation *)
Lemma rolled_upto_by mem disk base st st' : st = mem ++ disk ++ base → mem ++ disk ≠ [] → base ≠ [] →
  (∀ l, l ∈ mem → l_nvmap l = l_pmap l) → (l ← rollup_upto mem disk; Some (l :: base)) = Some st' → rolled st st'.
Proof.
  intros -> Hm Hb HF. destruct (rollup_upto mem disk) as [l|] eqn:E; [|done]. cbn. intros [= <-].
  apply rolled_upto; try done. by apply Forall_forall.
Qed.
Lemma rolled_full_by st st' : st ≠ [] → (l ← rollup st; Some [l]) = Some st' → rolled st st'.
Proof. intros Hs. destruct (rollup st) as [l|] eqn:E; [|done]. cbn. intros [= <-]. by apply rolled_full. Qed.
