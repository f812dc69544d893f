(** A rollup gives the same answers as the layers it replaces. *)
From Verif Require Import Prelude ListFacts Succinct SuccinctFacts TripleFiles TripleBuildFacts TripleReadFacts
  Merge MergeFacts Layer StackFacts StackCountFacts DictFacts WfFacts SameFacts Rollup RollupFacts.

Lemma zip_map {A B} (f : A → B) l : zip l (f <$> l) = (λ x, (x, f x)) <$> l.
Proof. induction l as [|x l IH]; [done|]. cbn. by rewrite IH. Qed.

(** ids that number a list of distinct strings form a permutation *)
Lemma ids_perm {X} (look : X → option (option nat)) (D : list X) (w : list nat) c :
  NoDup D → length w = length D →
  (∀ k x, D !! k = Some x → ∃ i, w !! k = Some i ∧ look x = Some (Some (S i + c))) →
  (∀ x y i, look x = Some (Some i) → look y = Some (Some i) → x = y) →
  (∀ x i, look x = Some (Some i) → i ≤ c + length D) →
  w ≡ₚ seq 0 (length D).
Proof.
  intros Hnd Hlen Hl Hinj Hr.
  assert (Hw : ∀ k i, w !! k = Some i → ∃ x, D !! k = Some x ∧ look x = Some (Some (S i + c))).
  { intros k i Hk. pose proof (lookup_lt_Some _ _ _ Hk). destruct (lookup_lt_is_Some_2 D k) as [x Hx]; [lia|].
    destruct (Hl k x Hx) as (i' & Hk' & E). exists x. split; [done|]. congruence. }
  apply submseteq_Permutation_length_le.
  { rewrite seq_length. lia. }
  apply NoDup_submseteq.
  - apply NoDup_alt. intros k k' i Hk Hk'. destruct (Hw k i Hk) as (x & Hx & E).
    destruct (Hw k' i Hk') as (x' & Hx' & E'). rewrite (Hinj x' x _ E' E) in Hx'.
    by eapply NoDup_lookup.
  - intros i (k & Hk)%elem_of_list_lookup. destruct (Hw k i Hk) as (x & Hx & E). apply Hr in E.
    apply elem_of_seq. lia.
Qed.

(** ** The three kinds of strings *)
Section kinds.
  Context (ls : list layer) (st : stack) (Hd : dicts_ok (reverse ls ++ st)).
  Lemma object_id_stable' l s i x : dicts_ok (l :: s) → object_id s x = Some (Some i) → object_id (l :: s) x = Some (Some i).
  Proof. intros H E. rewrite object_id_stable; [done|done|]. apply object_id_known; [apply H|eauto]. Qed.
  Lemma l_objs_look l s k x : dicts_ok (l :: s) → l_objs l !! k = Some x → ∃ j,
    inner_to_outer (l_nvmap l) (S k) = Some j ∧ object_id (l :: s) x = Some (Some (j + nv_count s)) ∧ 1 ≤ j.
  Proof.
    intros (_ & Hl & _) Hk. rewrite object_id_cons.
    rewrite (dict_get_id (l_objs l) (S k) x); [|by apply l_objs_nodup|done].
    pose proof (lookup_lt_Some _ _ _ Hk) as Hlt. rewrite l_objs_length in Hlt.
    destruct (inner_to_outer_ok _ _ (ld_nvmap _ Hl) (S k)) as (j & -> & ? & _); [lia|].
    exists j. split; [done|]. split; [done|lia].
  Qed.
  Lemma nodes_merged : ∃ its, node_iters (zip ls (l_nvmap <$> ls)) = Some its ∧
    merge_dicts (l_nodes <$> ls) ≡ₚ mjoin (l_nodes <$> ls) ∧ SSorted (merge_dicts (l_nodes <$> ls)) ∧
    length (merged_ids its) = length (merge_dicts (l_nodes <$> ls)) ∧
    ∀ k x, merge_dicts (l_nodes <$> ls) !! k = Some x → ∃ i, merged_ids its !! k = Some i ∧
      object_id (reverse ls ++ st) (inl x) = Some (Some (S i + nv_count st)) ∧ object_id st (inl x) = Some None.
  Proof.
    rewrite zip_map. unfold node_iters.
    apply (merged_ids_ok l_nodes l_nvmap (λ _, 0) l_nv nv_count (λ s x, object_id s (inl x))).
    - apply nv_count_cons.
    - intros l s i x Hd' Hi. rewrite Nat.add_0_r. apply l_objs_look; [done|].
      unfold l_objs. apply lookup_app_l_Some. rewrite list_lookup_fmap, Hi. done.
    - intros l s i x. apply object_id_stable'.
    - apply ld_nodes.
    - intros l s x (Hd' & _ & Ho & _) Hx. apply object_id_unknown; [done|]. apply Ho. by apply l_objs_inl.
    - intros s x Hs. destruct (object_id_ok s (inl x) Hs) as (r & E & _). eauto.
    - done.
  Qed.
  Lemma values_merged : ∃ its, value_iters (zip ls (l_nvmap <$> ls)) = Some its ∧
    merge_dicts (l_vals <$> ls) ≡ₚ mjoin (l_vals <$> ls) ∧ SSorted (merge_dicts (l_vals <$> ls)) ∧
    length (merged_ids its) = length (merge_dicts (l_vals <$> ls)) ∧
    ∀ k x, merge_dicts (l_vals <$> ls) !! k = Some x → ∃ i, merged_ids its !! k = Some i ∧
      object_id (reverse ls ++ st) (inr x) = Some (Some (S i + nv_count st)) ∧ object_id st (inr x) = Some None.
  Proof.
    rewrite zip_map. unfold value_iters.
    apply (merged_ids_ok l_vals l_nvmap (λ l, length (l_nodes l)) l_nv nv_count (λ s x, object_id s (inr x))).
    - apply nv_count_cons.
    - intros l s i x Hd' Hi. apply l_objs_look; [done|].
      unfold l_objs. rewrite lookup_app_r; rewrite fmap_length; [|lia].
      rewrite Nat.add_sub, list_lookup_fmap, Hi. done.
    - intros l s i x. apply object_id_stable'.
    - apply ld_vals.
    - intros l s x (Hd' & _ & Ho & _) Hx. apply object_id_unknown; [done|]. apply Ho. by apply l_objs_inr.
    - intros s x Hs. destruct (object_id_ok s (inr x) Hs) as (r & E & _). eauto.
    - done.
  Qed.
  Lemma preds_merged : ∃ its, pred_iters (zip ls (l_pmap <$> ls)) = Some its ∧
    merge_dicts (l_preds <$> ls) ≡ₚ mjoin (l_preds <$> ls) ∧ SSorted (merge_dicts (l_preds <$> ls)) ∧
    length (merged_ids its) = length (merge_dicts (l_preds <$> ls)) ∧
    ∀ k x, merge_dicts (l_preds <$> ls) !! k = Some x → ∃ i, merged_ids its !! k = Some i ∧
      predicate_id (reverse ls ++ st) x = Some (Some (S i + pred_count st)) ∧ predicate_id st x = Some None.
  Proof.
    rewrite zip_map. unfold pred_iters.
    apply (merged_ids_ok l_preds l_pmap (λ _, 0) (λ l, length (l_preds l)) pred_count predicate_id).
    - done.
    - intros l s i x (_ & Hl & _) Hi. rewrite Nat.add_0_r. cbn [predicate_id].
      rewrite (dict_get_id (l_preds l) (S i) x); [|by apply ssorted_nodup, ld_preds|done].
      pose proof (lookup_lt_Some _ _ _ Hi) as Hlt.
      destruct (inner_to_outer_ok _ _ (ld_pmap _ Hl) (S i)) as (j & -> & ? & _); [lia|].
      exists j. split; [done|]. split; [done|lia].
    - intros l s i x H E. rewrite predicate_id_stable; [done|done|]. apply predicate_id_known; [apply H|eauto].
    - apply ld_preds.
    - intros l s x (Hd' & _ & _ & Ho) Hx. apply predicate_id_unknown; [done|]. by apply Ho.
    - intros s x Hs. destruct (predicate_id_ok s x Hs) as (r & E & _). eauto.
    - done.
  Qed.
End kinds.

(** ** Dictionaries of a rollup *)
Lemma nv_count_app top st : nv_count (top ++ st) = length (mjoin (l_nodes <$> top)) + length (mjoin (l_vals <$> top)) + nv_count st.
Proof. induction top as [|l top IH]; [done|]. cbn [app nv_count]. rewrite IH, !fmap_cons, !mjoin_cons, !app_length. lia. Qed.
Lemma pred_count_app top st : pred_count (top ++ st) = length (mjoin (l_preds <$> top)) + pred_count st.
Proof. induction top as [|l top IH]; [done|]. cbn [app pred_count]. rewrite IH, !fmap_cons, !mjoin_cons, !app_length. lia. Qed.
Lemma all_counts_app top st : all_counts (top ++ st) =
  (length (mjoin (l_nodes <$> top)) + (all_counts st).1.1, length (mjoin (l_preds <$> top)) + (all_counts st).1.2,
   length (mjoin (l_vals <$> top)) + (all_counts st).2).
Proof.
  induction top as [|l top IH]; [cbn [app]; destruct (all_counts st) as [[? ?] ?]; reflexivity|].
  cbn [app all_counts]. rewrite IH, !fmap_cons, !mjoin_cons, !app_length. f_equal; [f_equal|]; lia.
Qed.
Lemma mjoin_perm {A} (ls ks : list (list A)) : ls ≡ₚ ks → mjoin ls ≡ₚ mjoin ks.
Proof.
  induction 1 as [|l ls ks _ IH|l k ls|]; [done| | |by etrans].
  - rewrite !mjoin_cons. by rewrite IH.
  - rewrite !mjoin_cons, !app_assoc. by rewrite (Permutation_app_comm k l).
Qed.
Lemma mjoin_reverse {A B} (f : A → list B) (ls : list A) : mjoin (f <$> reverse ls) ≡ₚ mjoin (f <$> ls).
Proof. apply mjoin_perm, fmap_Permutation, reverse_Permutation. Qed.
Lemma objs_app top st x : x ∈ objs (top ++ st) ↔
  match x with inl s => s ∈ mjoin (l_nodes <$> top) | inr v => v ∈ mjoin (l_vals <$> top) end ∨ x ∈ objs st.
Proof.
  induction top as [|l top IH].
  { cbn [app]. destruct x; (split; [auto|]); (intros [?|?]; [|done]); by apply elem_of_nil in H. }
  cbn [app]. rewrite objs_cons, IH, !fmap_cons, !mjoin_cons. destruct x as [s|v].
  - rewrite l_objs_inl, elem_of_app. tauto.
  - rewrite l_objs_inr, elem_of_app. tauto.
Qed.
Lemma preds_app top st x : x ∈ preds (top ++ st) ↔ x ∈ mjoin (l_preds <$> top) ∨ x ∈ preds st.
Proof. unfold preds. rewrite fmap_app. rewrite !elem_of_list_join. setoid_rewrite elem_of_app. naive_solver. Qed.
Lemma object_id_stable_app top st x : dicts_ok (top ++ st) → x ∈ objs st → object_id (top ++ st) x = object_id st x.
Proof.
  intros Hd Hx. induction top as [|l top IH]; [done|]. cbn [app] in *.
  rewrite object_id_stable; [by apply IH, Hd|done|]. apply objs_app. by right.
Qed.
Lemma predicate_id_stable_app top st x : dicts_ok (top ++ st) → x ∈ preds st → predicate_id (top ++ st) x = predicate_id st x.
Proof.
  intros Hd Hx. induction top as [|l top IH]; [done|]. cbn [app] in *.
  rewrite predicate_id_stable; [by apply IH, Hd|done|]. apply preds_app. by right.
Qed.

Record same_dicts (st st' : stack) : Prop := {
  sd_obj : ∀ x, object_id st x = object_id st' x;
  sd_pred : ∀ p, predicate_id st p = predicate_id st' p;
  sd_nv : nv_count st = nv_count st';
  sd_pc : pred_count st = pred_count st';
  sd_counts : all_counts st = all_counts st' }.

Lemma rollup_dicts_ok top st pos neg : dicts_ok (top ++ st) →
  let ls := reverse top in
  ∃ l, rollup_dicts ls (l_nvmap <$> ls) (l_pmap <$> ls) pos neg = Some l ∧
    l_pos l = pos ∧ l_neg l = neg ∧ dicts_ok (l :: st) ∧ same_dicts (l :: st) (top ++ st).
Proof.
  intros Hd ls. assert (reverse ls = top) as Hrev by apply reverse_involutive.
  assert (dicts_ok (reverse ls ++ st)) as Hd' by (by rewrite Hrev).
  destruct (nodes_merged ls st Hd') as (nis & E1 & N1 & N2 & N3 & N4).
  destruct (values_merged ls st Hd') as (vis & E2 & V1 & V2 & V3 & V4).
  destruct (preds_merged ls st Hd') as (pis & E3 & P1 & P2 & P3 & P4).
  rewrite Hrev in N4, V4, P4. pose proof (dicts_ok_app _ _ Hd) as Hds.
  unfold rollup_dicts. rewrite E1, E2, E3. cbn [mbind option_bind].
  set (l := Layer _ _ _ _ _ _ _). exists l. split; [done|]. split; [done|]. split; [done|].
  pose proof (Permutation_trans N1 (mjoin_reverse l_nodes top)) as N1'. clear N1. rename N1' into N1.
  pose proof (Permutation_trans V1 (mjoin_reverse l_vals top)) as V1'. clear V1. rename V1' into V1.
  pose proof (Permutation_trans P1 (mjoin_reverse l_preds top)) as P1'. clear P1. rename P1' into P1.
  set (w := merged_ids nis ++ merged_ids vis) in *.
  assert (HO : ∀ k x, l_objs l !! k = Some x → ∃ i, w !! k = Some i ∧
    object_id (top ++ st) x = Some (Some (S i + nv_count st)) ∧ object_id st x = Some None).
  { intros k x. unfold l_objs, w. cbn [l_nodes l_vals l]. intros [Hk|[Hk1 Hk2]]%lookup_app_Some.
    - rewrite list_lookup_fmap in Hk. apply fmap_Some in Hk as (y & Hy & ->).
      destruct (N4 k y Hy) as (i & Hi & ?). exists i. split; [|done]. by apply lookup_app_l_Some.
    - rewrite fmap_length in Hk1, Hk2. rewrite list_lookup_fmap in Hk2. apply fmap_Some in Hk2 as (y & Hy & ->).
      destruct (V4 _ y Hy) as (i & Hi & ?). exists i. split; [|done].
      rewrite lookup_app_r by (rewrite N3; done). by rewrite N3. }
  assert (Hlo : length w = length (l_objs l)).
  { unfold w, l_objs. rewrite !app_length, !fmap_length, N3, V3. done. }
  assert (Hnv : nv_count (top ++ st) = nv_count st + l_nv l).
  { rewrite nv_count_app. unfold l_nv. cbn [l_nodes l_vals l]. rewrite N1, V1. lia. }
  assert (Hpc : pred_count (top ++ st) = pred_count st + length (l_preds l)).
  { rewrite pred_count_app. cbn [l_preds l]. rewrite P1. lia. }
  assert (NoDup (l_objs l)) as Hndo.
  { unfold l_objs. apply NoDup_app. split_and!.
    - apply NoDup_fmap_2; [apply _|]. by apply ssorted_nodup.
    - intros x (y & -> & _)%elem_of_list_fmap (z & [=] & _)%elem_of_list_fmap.
    - apply NoDup_fmap_2; [apply _|]. by apply ssorted_nodup. }
  assert (Hwp : w ≡ₚ seq 0 (l_nv l)).
  { rewrite <-l_objs_length.
    apply (ids_perm (object_id (top ++ st)) (l_objs l) w (nv_count st)); [done|done| | |].
    - intros k x Hk. destruct (HO k x Hk) as (i & ? & ? & _). eauto.
    - intros x y i. by apply object_id_inj.
    - intros x i Hx%object_id_range; [|done]. rewrite Hnv in Hx. rewrite l_objs_length. lia. }
  assert (Hpp : merged_ids pis ≡ₚ seq 0 (length (l_preds l))).
  { apply (ids_perm (predicate_id (top ++ st)) (l_preds l) _ (pred_count st)); [by apply ssorted_nodup|done| | |].
    - intros k x Hk. destruct (P4 k x Hk) as (i & ? & ? & _). eauto.
    - intros x y i. by apply predicate_id_inj.
    - intros x i Hx%predicate_id_range; [|done]. rewrite Hpc in Hx. lia. }
  assert (Hdl : dicts_ok (l :: st)).
  { split; [done|]. split; [by split|]. split.
    - intros x (k & Hk)%elem_of_list_lookup Hx. destruct (HO k x Hk) as (i & _ & _ & E).
      apply object_id_known in Hx as [j Hj]; [|done]. congruence.
    - intros x (k & Hk)%elem_of_list_lookup Hx. destruct (P4 k x Hk) as (i & _ & _ & E).
      apply predicate_id_known in Hx as [j Hj]; [|done]. congruence. }
  split; [done|]. split.
  - intros x. destruct (decide (x ∈ l_objs l)) as [(k & Hk)%elem_of_list_lookup|Hx].
    + destruct (HO k x Hk) as (i & Hi & -> & _). rewrite object_id_cons, (dict_get_id (l_objs l) (S k) x) by done.
      unfold inner_to_outer. cbn [l_nvmap l]. pose proof (lookup_lt_Some _ _ _ Hi).
      rewrite decide_False by lia. unfold wt_decode_one. rewrite Hi. done.
    + rewrite object_id_cons. rewrite (proj2 (dict_id_None _ _) Hx).
      destruct (decide (x ∈ objs st)) as [Hs|Hs]; [by rewrite object_id_stable_app|].
      rewrite !object_id_unknown; [done|done| |done|done]. rewrite objs_app. intros [Ht|?]; [|done].
      apply Hx. destruct x as [s|v]; [apply l_objs_inl; cbn [l_nodes l]; by rewrite N1|apply l_objs_inr; cbn [l_vals l]; by rewrite V1].
  - intros x. destruct (decide (x ∈ l_preds l)) as [(k & Hk)%elem_of_list_lookup|Hx].
    + destruct (P4 k x Hk) as (i & Hi & -> & _). cbn [predicate_id].
      rewrite (dict_get_id (l_preds l) (S k) x); [|by apply ssorted_nodup|done].
      unfold inner_to_outer. cbn [l_pmap l]. pose proof (lookup_lt_Some _ _ _ Hi).
      rewrite decide_False by lia. unfold wt_decode_one. rewrite Hi. done.
    + cbn [predicate_id]. rewrite (proj2 (dict_id_None _ _) Hx).
      destruct (decide (x ∈ preds st)) as [Hs|Hs]; [by rewrite predicate_id_stable_app|].
      rewrite !predicate_id_unknown; [done|done| |done|done]. rewrite preds_app. intros [Ht|?]; [|done].
      apply Hx. cbn [l_preds l]. by rewrite P1.
  - rewrite Hnv. unfold l_nv. cbn [nv_count]. lia.
  - rewrite Hpc. done.
  - rewrite all_counts_app. cbn [all_counts l l_nodes l_vals l_preds].
    destruct (all_counts st) as [[??]?]. rewrite N1, V1, P1. done.
Qed.

(** ** Triples of a rollup *)
Lemma replaced_ok l top st : wf (top ++ st) → dicts_ok (l :: st) → same_dicts (l :: st) (top ++ st) → files_ok l →
  (∀ u, u ∈ adds l ↔ in_view u (top ++ st) ∧ ¬ in_view u st) →
  (∀ u, u ∈ rems l ↔ in_view u st ∧ ¬ in_view u (top ++ st)) →
  wf (l :: st) ∧ same_layer (l :: st) (top ++ st).
Proof.
  intros Hw Hd [D1 D2 D3 D4 D5] Hf HA HR. assert (wf st) as Hws.
  { clear -Hw. induction top as [|l' top IH]; [done|]. apply IH. by eapply wf_tail. }
  assert (same_layer (l :: st) (top ++ st)) as Hs.
  { split; auto. intros u. rewrite in_view_cons, HA, HR.
    destruct (decide (in_view u st)), (decide (in_view u (top ++ st))); tauto. }
  split; [|done]. split.
  - done.
  - constructor; [done|apply Hws].
  - apply changes_ok_cons. split; [apply Hws|]. split.
    + intros u Hu. rewrite HR. apply HA in Hu. tauto.
    + intros u Hu. apply HR in Hu. tauto.
  - split; [apply Hws|]. intros u Hu. apply HA in Hu as [Hu _].
    destruct (in_view_den _ u Hw Hu) as [vt Hvt]. exists vt. by apply (same_den _ _ vt u Hs).
Qed.
Lemma in_view_nz st u : wf st → in_view u st → nonzero u.
Proof. intros Hw. apply in_view_nonzero, Hw. Qed.

Theorem rollup_same st : wf st → ∃ l, rollup st = Some l ∧ l_neg l = None ∧ wf [l] ∧ same_layer [l] st.
Proof.
  intros Hw. unfold rollup. rewrite triples_ok by apply Hw. cbn [mbind option_bind].
  destruct (build_tfiles_ok false (view st)) as (tf & -> & Htf); [apply view_sorted|..].
  { intros u Hu%view_elem. by eapply in_view_nz. }
  cbn [mbind option_bind].
  destruct (rollup_dicts_ok st [] tf None) as (l & -> & Hp & Hn & Hd & Hs); [rewrite app_nil_r; apply Hw|].
  exists l. split; [done|]. split; [done|].
  assert (adds l = view st) as HA. { apply adds_eq. unfold l_additions. rewrite Hp. by eapply tf_triples_ok. }
  cut (wf [l] ∧ same_layer [l] (st ++ [])). { by rewrite app_nil_r. }
  apply replaced_ok; [by rewrite app_nil_r|done|done| | |].
  - split; [rewrite Hp, HA; eauto|]. rewrite Hn. done.
  - intros u. rewrite HA, view_elem, app_nil_r. split; [|tauto]. intros ?. split; [done|]. apply in_view_nil.
  - intros u. rewrite rems_none by done. split; [by intros ?%elem_of_nil|]. by intros [?%in_view_nil _].
Qed.

Lemma diff_split_elem top st b u :
  u ∈ (snd <$> filter (λ c : bool * triple, c.1 = b) (stack_diff top st)) ↔ (b, u) ∈ stack_diff top st.
Proof.
  rewrite elem_of_list_fmap. split.
  - intros ([b' v] & -> & [Hb Hv]%elem_of_list_filter). cbn in *. by subst.
  - intros Hu. exists (b, u). split; [done|]. by apply elem_of_list_filter.
Qed.
Lemma diff_split_sorted top st b : SSorted (snd <$> filter (λ c : bool * triple, c.1 = b) (stack_diff top st)).
Proof.
  pose proof (stack_diff_sorted top st) as Hs. induction (stack_diff top st) as [|c k IH]; [constructor|].
  rewrite fmap_cons in Hs. apply ssorted_cons in Hs as [Hs Hc]. rewrite filter_cons.
  case_decide; [|by apply IH]. rewrite fmap_cons. apply ssorted_cons. split; [by apply IH|].
  intros y (c' & -> & [_ Hc']%elem_of_list_filter)%elem_of_list_fmap. apply Hc, elem_of_list_fmap. eauto.
Qed.
(** [top'] is [top] in another order *)
Theorem partial_rollup_same top' top st : wf (top ++ st) → top' ≡ₚ top →
  ∃ pos neg l, rollup_changes top' = Some (pos, neg) ∧
    rollup_dicts (reverse top) (l_nvmap <$> reverse top) (l_pmap <$> reverse top) pos (Some neg) = Some l ∧
    wf (l :: st) ∧ same_layer (l :: st) (top ++ st).
Proof.
  intros Hw Hp. assert (Forall files_ok top) as Hf. { by destruct (proj1 (Forall_app _ _ _) (wf_files _ Hw)). }
  assert (wf st) as Hws. { clear -Hw. induction top as [|l' top IH]; [done|]. apply IH. by eapply wf_tail. }
  unfold rollup_changes. rewrite (stack_changes_perm top' top st) by (done || apply Hw). cbn [mbind option_bind].
  destruct (build_tfiles_ok true _ (diff_split_sorted top st true)) as (pos & -> & Hpos).
  { intros u Hu%diff_split_elem%stack_diff_elem. eapply in_view_nz, Hu. done. }
  destruct (build_tfiles_ok true _ (diff_split_sorted top st false)) as (neg & -> & Hneg).
  { intros u Hu%diff_split_elem%stack_diff_elem. eapply in_view_nz, Hu. done. }
  cbn [mbind option_bind].
  destruct (rollup_dicts_ok top st pos (Some neg)) as (l & E & Hp' & Hn & Hd & Hs); [apply Hw|].
  exists pos, neg, l. split; [done|]. split; [done|].
  assert (l_additions l = Some (snd <$> filter (λ c : bool * triple, c.1 = true) (stack_diff top st))) as HA%adds_eq.
  { unfold l_additions. rewrite Hp'. by eapply tf_triples_ok. }
  assert (l_removals l = Some (snd <$> filter (λ c : bool * triple, c.1 = false) (stack_diff top st))) as HR%rems_eq.
  { unfold l_removals. rewrite Hn. by eapply tf_triples_ok. }
  apply replaced_ok; [done|done|done| | |].
  - split; [rewrite Hp', HA; eauto|]. rewrite Hn, HR. intros ? [= <-]. eauto.
  - intros u. by rewrite HA, diff_split_elem, stack_diff_elem.
  - intros u. by rewrite HR, diff_split_elem, stack_diff_elem.
Qed.
Theorem imprecise_rollup_same mem st : wf (mem ++ st) →
  ∃ l, imprecise_rollup_upto mem = Some l ∧ wf (l :: st) ∧ same_layer (l :: st) (mem ++ st).
Proof.
  intros Hw. destruct (partial_rollup_same mem mem st Hw) as (pos & neg & l & E1 & E2 & Hl); [done|].
  exists l. unfold imprecise_rollup_upto. rewrite E1. cbn [mbind option_bind]. done.
Qed.
(** as long as the two id maps of every loaded layer coincide, as they do for layers that are
    not themselves rollups *)
Theorem rollup_upto_same mem disk st : wf (mem ++ disk ++ st) → Forall (λ l, l_nvmap l = l_pmap l) mem →
  ∃ l, rollup_upto mem disk = Some l ∧ wf (l :: st) ∧ same_layer (l :: st) (mem ++ disk ++ st).
Proof.
  rewrite app_assoc. intros Hw Hm.
  destruct (partial_rollup_same (reverse disk ++ mem) (mem ++ disk) st Hw) as (pos & neg & l & E1 & E2 & Hl).
  { by rewrite reverse_Permutation, Permutation_app_comm. }
  exists l. unfold rollup_upto. rewrite E1. cbn [mbind option_bind].
  replace ((l_pmap <$> reverse disk) ++ (l_nvmap <$> reverse mem)) with (l_pmap <$> reverse (mem ++ disk)); [done|].
  rewrite reverse_app, fmap_app. f_equal. rewrite !fmap_reverse. f_equal.
  clear -Hm. induction Hm as [|x mem Hx _ IH]; [done|]. rewrite !fmap_cons, Hx, IH. done.
Qed.
